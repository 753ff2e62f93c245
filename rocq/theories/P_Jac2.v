(** The derivative of the residual along a curve (C20, C36). *)
From Coq Require Import List ZArith Bool Lia PeanoNat Reals Lra.
From Coquelicot Require Import Coquelicot.
From Verif Require Import Num Arr NumR Util SlipGeom Hard Elast Evptn SpecTensor P_Tensor P_Deriv P_Jac P_Latop P_Stress SpecStep P_Step.
Import ListNotations.
Local Open Scope R_scope.

(** the problem with another deformation rate *)
Definition with_d (p : Prob R) (d : list R) : Prob R :=
  {| pb_sg := pb_sg p; pb_kin := pb_kin p; pb_el := pb_el p;
     pb_dt := pb_dt p; pb_detV := pb_detV p; pb_eVref := pb_eVref p; pb_p_EOS := pb_p_EOS p; pb_tK := pb_tK p;
     pb_a_V := pb_a_V p; pb_dt_ri := pb_dt_ri p; pb_a_V_ri := pb_a_V_ri p; pb_detV_ri := pb_detV_ri p;
     pb_hdn_scale := pb_hdn_scale p; pb_epsdot_scale_inv := pb_epsdot_scale_inv p; pb_rotincr_scale_inv := pb_rotincr_scale_inv p;
     pb_kin_vals := pb_kin_vals p;
     pb_e_vecd_n := pb_e_vecd_n p; pb_Cn_quat := pb_Cn_quat p; pb_d_vecd_sm := d; pb_w_veccp_sm := pb_w_veccp_sm p |}.

(** matrix times matrix times vector *)
Lemma mv_MAB n m q A B u i : (i < n)%nat ->
  sum m (fun e => get2 m (vecsMAB n m q A B) i e * u e) = sum q (fun j => get2 q A i j * sum m (fun e => get2 m B j e * u e)) :> R.
Proof.
  intros Hi. rewrite (sum_ext m _ (fun e => sum q (fun j => get2 q A i j * get2 m B j e * u e))).
  - rewrite sum_exchange. apply sum_ext. intros j _. rewrite <- sum_scal_l. apply sum_ext. intros; ring.
  - intros e He. unfold vecsMAB. rewrite get2_tab2 by assumption. rewrite <- sum_scal_r. reflexivity.
Qed.
Lemma mv_MABT n m q A B u i : (i < n)%nat ->
  sum m (fun e => get2 m (vecsMABT n m q A B) i e * u e) = sum q (fun j => get2 q A i j * sum m (fun e => get2 q B e j * u e)) :> R.
Proof.
  intros Hi. rewrite (sum_ext m _ (fun e => sum q (fun j => get2 q A i j * get2 q B e j * u e))).
  - rewrite sum_exchange. apply sum_ext. intros j _. rewrite <- sum_scal_l. apply sum_ext. intros; ring.
  - intros e He. unfold vecsMABT. rewrite get2_tab2 by assumption. rewrite <- sum_scal_r. reflexivity.
Qed.

(** ** the rotation part of the derivative operators, applied to a direction *)
Section Parts.
  Variables (d w : list R) (xi : V3) (Cn Cq : list R) (u : V3).
  Hypothesis Hxi : / 10 ^ 9 <= norm3 xi.
  Let parts := eval_d_dxi_impl_quat d w (ofV3 xi) Cn (quat_to_tensor Cq) Cq.
  Let dq := quat_prod Cn (dA xi u).
  Lemma part_quat q : (q < 4)%nat -> sum 3 (fun e => get2 4 (fst (fst parts)) e q * get (ofV3 u) e) = get dq q.
  Proof.
    intros Hq. unfold dq. change (fst (fst parts)) with (quat_prod Cn (sub (dquat_demap_T (ofV3 xi)) 0 4) ++
      quat_prod Cn (sub (dquat_demap_T (ofV3 xi)) 4 4) ++ quat_prod Cn (sub (dquat_demap_T (ofV3 xi)) 8 4)).
    assert (E := fun k Hk => demap_R xi Hxi u k Hk). set (M := dquat_demap_T (ofV3 xi)) in *. clearbody M.
    unfold quat_prod. cbn [app]. unfold get2 in *.
    rewrite <- (E 0%nat), <- (E 1%nat), <- (E 2%nat), <- (E 3%nat) by lia. clear E.
    rewrite !(get_sub M) by lia. destruct u as [u0 u1 u2]. unfold ofV3. rarr. cbn [v0 v1 v2].
    destruct q as [|[|[|[|]]]]; [..|lia]; cbn [nth Nat.add Nat.mul]; ring.
  Qed.
  Let dCm := vecsMABT 9 3 4 (d_quat_to_tensor Cq) (fst (fst parts)).
  Lemma part_mat k : (k < 9)%nat -> sum 3 (fun e => get2 3 dCm k e * get (ofV3 u) e) = get (ofM3 (dR Cq dq)) k.
  Proof.
    intros Hk. unfold dCm. rewrite mv_MABT by assumption. unfold dR. rewrite ofM3_toM3 by reflexivity. unfold vecsVMa. rewrite get_tab by assumption.
    apply sum_ext. intros j Hj. rewrite part_quat by assumption. reflexivity.
  Qed.
  Lemma part_d i : List.length d = 5%nat -> List.length Cq = 4%nat -> (i < 5)%nat ->
    sum 3 (fun e => get2 3 (snd (fst parts)) i e * get (ofV3 u) e) = get (vec5 (dcongT (rotq Cq) (dR Cq dq) (ten5 d))) i.
  Proof.
    intros Ld Lq Hi. rewrite <- latop_R by assumption. change (snd (fst parts)) with (vecsMAB 5 3 9 (d_rot_mat_vecd_latop (quat_to_tensor Cq) d) dCm).
    rewrite mv_MAB by assumption. unfold vecsVMa. rewrite get_tab by assumption.
    assert (EC : quat_to_tensor Cq = ofM3 (rotq Cq)).
    { symmetry. apply ofM3_toM3. explode Cq. reflexivity. }
    rewrite EC. apply sum_ext. intros j Hj. rewrite part_mat by assumption. reflexivity.
  Qed.
  Lemma part_w i : List.length w = 3%nat -> (i < 3)%nat ->
    sum 3 (fun e => get2 3 (snd parts) i e * get (ofV3 u) e) = get (ofV3 (mulv (tr3 (dR Cq dq)) (toV3 w))) i.
  Proof.
    intros Lw Hi. rewrite <- wlatop_R. change (snd parts) with (vecsMAB 3 3 9 (d_rot_mat_wveccp_latop w) dCm).
    rewrite mv_MAB by assumption. unfold vecsVMa. rewrite get_tab by assumption.
    replace (ofV3 (toV3 w)) with w by (explode w; reflexivity).
    apply sum_ext. intros j Hj. rewrite part_mat by assumption. reflexivity.
  Qed.
End Parts.

(** spin of the elastic strain *)
Lemma M35_swap a b i : (i < 3)%nat -> sum 5 (fun k => get2 5 (M35_d_AAoB_dA a) i k * get b k) = - sum 5 (fun k => get2 5 (M35_d_AAoB_dA b) i k * get a k).
Proof. intros Hi. destruct i as [|[|[|]]]; [..|lia]; unfold M35_d_AAoB_dA; cbv beta iota zeta; unfold sum, get2, get; cbn [fold_left seq nth Nat.mul Nat.add]; rops; ring. Qed.
Lemma D_M35 (f g : R -> list R) t a b i : (i < 3)%nat -> dl 5 f t a -> dl 5 g t b ->
  D (fun s => sum 5 (fun k => get2 5 (M35_d_AAoB_dA (f s)) i k * get (g s) k)) t
    (sum 5 (fun k => get2 5 (M35_d_AAoB_dA (f t)) i k * get b k) - sum 5 (fun k => get2 5 (M35_d_AAoB_dA (g t)) i k * get a k)).
Proof.
  intros Hi Hf Hg. assert (A0 := Hf 0%nat ltac:(lia)). assert (A1 := Hf 1%nat ltac:(lia)). assert (A2 := Hf 2%nat ltac:(lia)). assert (A3 := Hf 3%nat ltac:(lia)). assert (A4 := Hf 4%nat ltac:(lia)).
  assert (B0 := Hg 0%nat ltac:(lia)). assert (B1 := Hg 1%nat ltac:(lia)). assert (B2 := Hg 2%nat ltac:(lia)). assert (B3 := Hg 3%nat ltac:(lia)). assert (B4 := Hg 4%nat ltac:(lia)).
  change (@get R RNum) with (fun (l : list R) k => nth k l 0) in *. cbv beta in *. clear Hf Hg.
  destruct i as [|[|[|]]]; [..|lia]; unfold M35_d_AAoB_dA; cbv beta iota zeta; unfold sum, get2, get; cbn [fold_left seq nth Nat.mul Nat.add]; rops; (eapply D_eq; [dauto|cbv beta; ring]).
Qed.

(** the unscaled residual *)
Definition resE (p : Prob R) (x : list R) i := pb_a_V_ri p * get (ev_edot (evalEv p x)) i + get (ev_pl_vecd (evalEv p x)) i - get (ev_d_lat (evalEv p x)) i.
Definition resW (p : Prob R) (x : list R) i := get (ev_xi (evalEv p x)) i - pb_dt p *
  (get (ev_w_lat (evalEv p x)) i - get (ev_pl_wvec (evalEv p x)) i + ev_ee_fac (evalEv p x) * get (ev_ee_wvec (evalEv p x)) i).
Definition res0 p x i := if Nat.ltb i 5 then resE p x i else resW p x (i - 5).
Lemma residual_res0 q y i : (i < 8)%nat -> get (residual q y) i = (if Nat.ltb i 5 then pb_epsdot_scale_inv q else pb_rotincr_scale_inv q) * res0 q y i.
Proof.
  intros Hi. unfold residual, res0. destruct (Nat.ltb_spec i 5).
  - rewrite get_app1 by (rewrite tab_length; assumption). rewrite get_tab by assumption. reflexivity.
  - rewrite get_app2 by (rewrite tab_length; assumption). rewrite tab_length, get_tab by lia. reflexivity.
Qed.
Definition sc (j : nat) : R := if Nat.ltb j 5 then e_scale else r_scale.
Lemma jac0_get q y i j : (i < 8)%nat -> (j < 8)%nat -> get2 8 (jacobian q y) i j =
  (if Nat.ltb i 5 then pb_epsdot_scale_inv q else pb_rotincr_scale_inv q) * (get2 8 (jacobian0 q (evalEv q y)) i j * sc j).
Proof. intros Hi Hj. unfold jacobian. rewrite get2_tab2 by assumption. unfold sc. rops. ring. Qed.
Lemma sum8 (f : nat -> R) : sum 8 f = sum 5 f + sum 3 (fun k => f (5 + k)%nat).
Proof. unfold sum. cbn [fold_left seq Nat.add]. rops. ring. Qed.
Lemma sum_kron m (f g : nat -> R) c i : (i < m)%nat -> sum m (fun j => (if Nat.eqb i j then f j + c else f j) * g j) = sum m (fun j => f j * g j) + c * g i.
Proof.
  intros Hi. rewrite (sum_ext m _ (fun j => f j * g j + (if Nat.eqb i j then c * g i else 0))).
  - rewrite sum_plus. f_equal. induction m; [lia|]. rewrite sum_S_R. destruct (Nat.eq_dec i m) as [->|Ne].
    + rewrite Nat.eqb_refl. rewrite sum_zero; [ring|]. intros k Hk. destruct (Nat.eqb_spec m k); [lia|reflexivity].
    + rewrite IHm by lia. destruct (Nat.eqb_spec i m); [lia|ring].
  - intros j Hj. destruct (Nat.eqb_spec i j); [subst; ring|ring].
Qed.

(** ** derivative of the residual *)
Section Curve.
  Variables (p : Prob R) (d : R -> list R) (x : R -> list R) (t : R) (dd dx : list R) (law : nat -> R -> R).
  Hypothesis Hx : dl 8 x t dx.
  Hypothesis Hd : dl 5 d t dd.
  Hypothesis Ld : forall s, List.length (d s) = 5%nat.
  Hypothesis Ldd : List.length dd = 5%nat.
  Hypothesis HQ : List.length (pb_Cn_quat p) = 4%nat /\ norm2 (pb_Cn_quat p) = 1.
  Hypothesis Lw : List.length (pb_w_veccp_sm p) = 3%nat.
  Let n := sg_nslip (pb_sg p).
  Let ps s := with_d p (d s).
  Let v s := evalEv (ps s) (x s).
  Hypothesis Hlaw : forall tau k, List.length tau = n -> (k < n)%nat -> get (fst (fst (k_evalGdots (pb_kin p) tau (pb_kin_vals p)))) k = law k (get tau k).
  Hypothesis Hdlaw : forall k, (k < n)%nat -> D (law k) (get (ev_taua (v t)) k) (get (ev_dgdot_dtau (v t)) k).
  Hypothesis Hxi : / 10 ^ 9 <= norm3 (toV3 (ev_xi (v t))).

  Let de k := e_scale * get dx k.
  Lemma D_ef k : (k < 5)%nat -> D (fun s => get (ev_e_f (v s)) k) t (de k).
  Proof.
    intros Hk. apply (D_ext (fun s => e_scale * get (x s) k + get (pb_e_vecd_n p) k)).
    - intros s. unfold v, evalEv. cbn [ev_e_f]. unfold vecsVapb, vecsVxa, x_e. rewrite !get_tab, get_sub by assumption. reflexivity.
    - assert (H := Hx k ltac:(lia)). eapply D_eq; [dauto|cbv beta; unfold de; ring].
  Qed.
  Lemma D_edot k : (k < 5)%nat -> D (fun s => get (ev_edot (v s)) k) t (de k * pb_dt_ri p).
  Proof.
    intros Hk. apply (D_ext (fun s => e_scale * get (x s) k * pb_dt_ri p)).
    - intros s. unfold v, evalEv. cbn [ev_edot]. unfold vecsVsa, vecsVxa, x_e. rewrite !get_tab, get_sub by assumption. reflexivity.
    - assert (H := Hx k ltac:(lia)). eapply D_eq; [dauto|cbv beta; unfold de; ring].
  Qed.
  Lemma get_T e k : (k < 5)%nat -> get (elastNEtoT p e) k = get (el_K_diag (pb_el p)) k * (pb_a_V_ri p * get e k) +
    (if el_hex (pb_el p) then if Nat.eqb k 1 then el_K_sdax3 (pb_el p) * (sqr3 * ln (pb_a_V p)) + exp (sqr3 * (sqr3 * ln (pb_a_V p))) * (- el_g_vecd2 (pb_el p) * pb_eVref p) else 0 else 0).
  Proof.
    intros Hk. unfold elastNEtoT, el_eval. unfold vecsVAdiagB, vecsVxa, iTvecHex, iSvecS. destruct (el_hex (pb_el p));
      destruct k as [|[|[|[|[|]]]]]; try lia; cbn [Nat.eqb]; rarr; ring.
  Qed.
  Lemma D_T k : (k < 5)%nat -> D (fun s => get (ev_T (v s)) k) t (get (el_K_diag (pb_el p)) k * pb_a_V_ri p * de k).
  Proof.
    intros Hk. change (fun s => get (ev_T (v s)) k) with (fun s => get (elastNEtoT p (ev_e_f (v s))) k).
    eapply D_ext; [intros s; rewrite (get_T (ev_e_f (v s)) _ Hk); reflexivity|]. assert (H := D_ef k Hk).
    match goal with |- D (fun s => _ + ?c) _ _ => set (c0 := c) end. eapply D_eq; [dauto|cbv beta; ring].
  Qed.
  Lemma D_tau k : (k < n)%nat -> D (fun s => get (ev_taua (v s)) k) t
    (sum 5 (fun j => get2 n (el_multDTDepsT (pb_el p) (sg_P (pb_sg p)) (pb_a_V_ri p) n) j k * de j)).
  Proof.
    intros Hk. apply (D_ext (fun s => sum 5 (fun j => get (ev_T (v s)) j * get2 n (sg_P (pb_sg p)) j k)));
      [intros s; change (ev_taua (v s)) with (vecsVaTM 5 n (ev_T (v s)) (sg_P (pb_sg p))); unfold vecsVaTM; rewrite get_tab by assumption; reflexivity|].
    apply (D_sum 5 (fun j s => get (ev_T (v s)) j * get2 n (sg_P (pb_sg p)) j k)). intros j Hj.
    unfold el_multDTDepsT. rewrite get2_tab2 by assumption. assert (H := D_T j Hj). eapply D_eq; [dauto|cbv beta; rops; ring].
  Qed.
  Lemma D_gdot k : (k < n)%nat -> D (fun s => get (ev_gdot (v s)) k) t (sum 5 (fun j => get2 n (dgdot_deps p (v t)) j k * de j)).
  Proof.
    intros Hk. eapply D_ext; [intros s; symmetry; apply (Hlaw (ev_taua (v s)) k); [apply tab_length|assumption]|].
    eapply D_eq; [apply (D_comp (law k) (fun s => get (ev_taua (v s)) k)); [exact (Hdlaw k Hk)|exact (D_tau k Hk)]|].
    rewrite <- sum_scal_r. apply sum_ext. intros j Hj. unfold dgdot_deps. fold n. rewrite get2_tab2 by assumption. rops. ring.
  Qed.
  Lemma D_Mg m M i : (i < m)%nat -> D (fun s => get (vecsVMa m n M (ev_gdot (v s))) i) t
    (sum 5 (fun j => get2 5 (vecsMABT m 5 n M (dgdot_deps p (v t))) i j * de j)).
  Proof.
    intros Hi. apply (D_ext (fun s => sum n (fun k => get2 n M i k * get (ev_gdot (v s)) k))); [intros s; unfold vecsVMa; rewrite get_tab by assumption; reflexivity|].
    rewrite mv_MABT by assumption. apply (D_sum n (fun k s => get2 n M i k * get (ev_gdot (v s)) k)). intros k Hk.
    apply D_scal. now apply D_gdot.
  Qed.

  (** rotation *)
  Let u := mkV (r_scale * get dx 5) (r_scale * get dx 6) (r_scale * get dx 7).
  Lemma dV_xi : dV (fun s => toV3 (ev_xi (v s))) t u.
  Proof.
    unfold dV, u. cbn [v0 v1 v2]. 
    assert (H5 := Hx 5%nat ltac:(lia)). assert (H6 := Hx 6%nat ltac:(lia)). assert (H7 := Hx 7%nat ltac:(lia)).
    assert (E : forall s k, (k < 3)%nat -> nth k (vecsVxa 3 r_scale (x_r (x s))) 0 = r_scale * get (x s) (5 + k)).
    { intros s k Hk. change (nth k (vecsVxa 3 r_scale (x_r (x s))) 0) with (get (vecsVxa 3 r_scale (x_r (x s))) k). unfold vecsVxa, x_r. rewrite get_tab, get_sub by assumption. reflexivity. }
    refine (conj _ (conj _ _)); [apply (D_ext (fun s => r_scale * get (x s) 5))|apply (D_ext (fun s => r_scale * get (x s) 6))|apply (D_ext (fun s => r_scale * get (x s) 7))];
      try (apply D_scal; assumption); intros s; symmetry; [apply (E s 0%nat)|apply (E s 1%nat)|apply (E s 2%nat)]; lia.
  Qed.
  Let dq := quat_prod (pb_Cn_quat p) (dA (toV3 (ev_xi (v t))) u).
  Lemma D_quat : dl 4 (fun s => ev_C_quat (v s)) t dq.
  Proof.
    apply (dl_ext 4 (fun s => quat_prod (pb_Cn_quat p) (emap_to_quat (ofV3 (toV3 (ev_xi (v s))))))).
    - intros s. unfold v. rewrite <- ev_xi_V3. reflexivity.
    - apply dl_prod. apply (emap_deriv (fun s => toV3 (ev_xi (v s)))); [exact dV_xi|].
      apply Rlt_le_trans with (/ 10 ^ 9); [|exact Hxi]. apply Rinv_lt_contravar; [apply Rmult_lt_0_compat; apply pow_lt; lra|].
      apply Rlt_pow; [lra|lia].
  Qed.
  Let dC := dR (ev_C_quat (v t)) dq.
  Lemma D_C : dM (fun s => rotq (ev_C_quat (v s))) t dC.
  Proof. apply dM_rotq; [exact D_quat|intros; reflexivity]. Qed.
  Lemma d_lat_eq s : ev_d_lat (v s) = vec5 (cong (tr3 (rotq (ev_C_quat (v s)))) (ten5 (d s))).
  Proof.
    assert (O := ev_C_rot (ps s) HQ (x s)). assert (M := ev_Cm (ps s) HQ (x s)). fold (v s) in O, M.
    change (ev_d_lat (v s)) with (vecsVMTa 5 (get_rot_mat_vecd (ev_C_matx (v s))) (d s)). rewrite M. clear M. revert O. generalize (rotq (ev_C_quat (v s))) (Ld s). generalize (d s).
    intros l C L O. transitivity (vecsVMTa 5 (rmat C) (vec5 (ten5 l))); [rewrite vec5_ten5 by exact L; reflexivity|].
    apply rmat_apply_T; [exact (proj1 O)|apply ten5_dev].
  Qed.
  Lemma D_dlat i : (i < 5)%nat -> D (fun s => get (ev_d_lat (v s)) i) t
    (sum 3 (fun e => get2 3 (snd (fst (dxi_parts (ps t) (v t)))) i e * get (ofV3 u) e) + sum 5 (fun j => get2 5 (ev_qr5x5 (v t)) j i * get dd j)).
  Proof.
    intros Hi. unfold dxi_parts. unfold v at 2. rewrite ev_xi_V3. fold (v t). change (ev_C_matx (v t)) with (quat_to_tensor (ev_C_quat (v t))).
    change (pb_Cn_quat (ps t)) with (pb_Cn_quat p). change (pb_d_vecd_sm (ps t)) with (d t).
    rewrite part_d; [|exact Hxi|apply Ld|reflexivity|exact Hi]. fold dq. fold dC.
    assert (E : sum 5 (fun j => get2 5 (ev_qr5x5 (v t)) j i * get dd j) = get (vec5 (cong (tr3 (rotq (ev_C_quat (v t)))) (ten5 dd))) i).
    { rewrite <- (rmat_apply_T (rotq (ev_C_quat (v t))) (ten5 dd)); [|exact (proj1 (ev_C_rot (ps t) HQ (x t)))|apply ten5_dev].
      rewrite vec5_ten5 by exact Ldd. unfold vecsVMTa. rewrite get_tab by assumption. change (ev_qr5x5 (v t)) with (get_rot_mat_vecd (ev_C_matx (v t))).
      unfold v. rewrite ev_Cm by exact HQ. reflexivity. }
    rewrite E. clear E.
    eapply D_ext; [intros s; rewrite d_lat_eq; reflexivity|]. unfold cong.
    assert (H := dl_vec5 _ _ _ (dM_mul _ _ _ _ _ (dM_mul _ _ _ _ _ (dM_tr _ _ _ D_C) (dM_ten5 _ _ _ Hd)) (dM_tr _ _ _ (dM_tr _ _ _ D_C))) i Hi).
    eapply D_eq; [exact H|]. rewrite !vec5_get by assumption. unfold dcongT. rewrite <- inner_add_l. apply (f_equal (fun A => inner A (basis i))).
    rewrite !tr3_tr. generalize (rotq (ev_C_quat (v t))) dC (ten5 dd) (ten5 (d t)). clear. intros A B Dd Dt. m3. meq; ring.
  Qed.
  Lemma w_lat_eq s : ev_w_lat (v s) = ofV3 (mulv (tr3 (rotq (ev_C_quat (v s)))) (toV3 (pb_w_veccp_sm p))).
  Proof.
    change (ev_w_lat (v s)) with (vecsVMTa 3 (ev_C_matx (v s)) (pb_w_veccp_sm p)). unfold v. rewrite ev_Cm by exact HQ.
    rewrite <- mat3_apply_T. f_equal. destruct (pb_w_veccp_sm p) as [|? [|? [|? [|]]]]; try discriminate Lw. reflexivity.
  Qed.
  Lemma D_wlat i : (i < 3)%nat -> D (fun s => get (ev_w_lat (v s)) i) t
    (sum 3 (fun e => get2 3 (snd (dxi_parts (ps t) (v t))) i e * get (ofV3 u) e)).
  Proof.
    intros Hi. unfold dxi_parts. unfold v at 2. rewrite ev_xi_V3. fold (v t). change (ev_C_matx (v t)) with (quat_to_tensor (ev_C_quat (v t))).
    change (pb_Cn_quat (ps t)) with (pb_Cn_quat p). rewrite part_w; [|exact Hxi|exact Lw|exact Hi]. fold dq. fold dC.
    eapply D_ext; [intros s; rewrite w_lat_eq; reflexivity|]. change (pb_w_veccp_sm (ps t)) with (pb_w_veccp_sm p).
    generalize D_C. rewrite dM_9. generalize dC (toV3 (pb_w_veccp_sm p)). clear - Hi. intros B w (?&?&?&?&?&?&?&?&?).
    destruct i as [|[|[|]]]; [..|lia]; unfold ofV3, mulv, tr3, get; cbn [nth v0 v1 v2 a00 a01 a02 a10 a11 a12 a20 a21 a22]; (eapply D_eq; [dauto|cbv beta; ring]).
  Qed.
  (** spin of the elastic strain *)
  Lemma D_ee i : (i < 3)%nat -> D (fun s => get (ev_ee_wvec (v s)) i) t
    (sum 5 (fun j => (get2 5 (ev_A_e (v t)) i j * pb_dt_ri p - get2 5 (M35_d_AAoB_dA (ev_edot (v t))) i j) * de j)).
  Proof.
    intros Hi. apply (D_ext (fun s => sum 5 (fun k => get2 5 (M35_d_AAoB_dA (ev_e_f (v s))) i k * get (ev_edot (v s)) k))); [intros s; change (ev_ee_wvec (v s)) with (vecsVMa 3 5 (M35_d_AAoB_dA (ev_e_f (v s))) (ev_edot (v s))); unfold vecsVMa; rewrite get_tab by assumption; reflexivity|].
    eapply D_eq; [apply (D_M35 (fun s => ev_e_f (v s)) (fun s => ev_edot (v s)) t (tab 5 de) (tab 5 (fun k => de k * pb_dt_ri p)) i Hi)|].
    - intros k Hk. rewrite get_tab by assumption. now apply D_ef.
    - intros k Hk. rewrite get_tab by assumption. now apply D_edot.
    - cbv beta. change (ev_A_e (v t)) with (M35_d_AAoB_dA (ev_e_f (v t))). rewrite <- sum_minus. apply sum_ext. intros j Hj. rewrite !get_tab by assumption. ring.
  Qed.

  (** derivative of the residual = Jacobian times the direction, minus the rotated change of the deformation rate *)
  Lemma D_res0 i : (i < 8)%nat -> D (fun s => res0 (ps s) (x s) i) t
    (sum 8 (fun j => get2 8 (jacobian0 (ps t) (v t)) i j * (sc j * get dx j)) - (if Nat.ltb i 5 then sum 5 (fun j => get2 5 (ev_qr5x5 (v t)) j i * get dd j) else 0)).
  Proof.
    intros Hi. rewrite sum8. unfold res0. assert (EP : dxi_parts (ps t) (v t) = (fst (fst (dxi_parts (ps t) (v t))), snd (fst (dxi_parts (ps t) (v t))), snd (dxi_parts (ps t) (v t)))) by (destruct (dxi_parts (ps t) (v t)) as [[? ?] ?]; reflexivity).
    assert (U : forall k, (k < 3)%nat -> get (ofV3 u) k = r_scale * get dx (5 + k)) by (intros k Hk; destruct k as [|[|[|]]]; try lia; reflexivity).
    destruct (Nat.ltb_spec i 5) as [L|L].
    - rewrite (sum_ext 5 _ (fun j => (if Nat.eqb i j then get2 5 (dpl_deps_symm p (v t)) i j + pb_a_V_ri p * pb_dt_ri p else get2 5 (dpl_deps_symm p (v t)) i j) * de j)).
      2:{ intros j Hj. unfold jacobian0. rewrite EP. cbv zeta beta iota. rewrite get2_tab2 by lia. apply Nat.ltb_lt in L. rewrite L.
          unfold sc, de. assert (Hj' := Hj). apply Nat.ltb_lt in Hj'. rewrite Hj'. reflexivity. }
      rewrite sum_kron by assumption.
      rewrite (sum_ext 3 _ (fun e => - (get2 3 (snd (fst (dxi_parts (ps t) (v t)))) i e * get (ofV3 u) e))).
      2:{ intros j Hj. unfold jacobian0. rewrite EP. cbv zeta beta iota. rewrite get2_tab2 by lia. apply Nat.ltb_lt in L. rewrite L.
          destruct (Nat.ltb_spec (5 + j) 5); [lia|]. unfold sc. destruct (Nat.ltb_spec (5 + j) 5); [lia|]. rewrite U by assumption. replace (5 + j - 5)%nat with j by lia. cbn [fst snd]. rops. ring. }
      rewrite sum_opp. unfold resE.
      change (fun s => pb_a_V_ri (ps s) * get (ev_edot (evalEv (ps s) (x s))) i + get (ev_pl_vecd (evalEv (ps s) (x s))) i - get (ev_d_lat (evalEv (ps s) (x s))) i)
        with (fun s => pb_a_V_ri p * get (ev_edot (v s)) i + get (vecsVMa 5 n (sg_P (pb_sg p)) (ev_gdot (v s))) i - get (ev_d_lat (v s)) i).
      assert (H1 := D_edot i L). assert (H2 := D_Mg 5 (sg_P (pb_sg p)) i L). assert (H3 := D_dlat i L).
      eapply D_eq; [dauto|]. cbv beta. change (vecsMABT 5 5 n (sg_P (pb_sg p)) (dgdot_deps p (v t))) with (dpl_deps_symm p (v t)). ring.
    - assert (L3 : (i - 5 < 3)%nat) by lia.
      rewrite (sum_ext 5 _ (fun j => pb_dt p * (get2 5 (dpl_deps_skew p (v t)) (i - 5) j * de j) - pb_dt p * ev_ee_fac (v t) *
          ((get2 5 (ev_A_e (v t)) (i - 5) j * pb_dt_ri p - get2 5 (M35_d_AAoB_dA (ev_edot (v t))) (i - 5) j) * de j))).
      2:{ intros j Hj. unfold jacobian0. rewrite EP. cbv zeta beta iota. rewrite get2_tab2 by lia. destruct (Nat.ltb_spec i 5); [lia|].
          unfold sc, de. assert (Hj' := Hj). apply Nat.ltb_lt in Hj'. rewrite Hj'. change (dpl_deps_skew (ps t) (v t)) with (dpl_deps_skew p (v t)).
          change (pb_dt (ps t)) with (pb_dt p). change (pb_dt_ri (ps t)) with (pb_dt_ri p). rops. ring. }
      rewrite sum_minus, !sum_scal_l.
      rewrite (sum_ext 3 _ (fun e => (if Nat.eqb (i - 5) e then - pb_dt p * get2 3 (snd (dxi_parts (ps t) (v t))) (i - 5) e + 1 else - pb_dt p * get2 3 (snd (dxi_parts (ps t) (v t))) (i - 5) e) * get (ofV3 u) e)).
      2:{ intros j Hj. unfold jacobian0. rewrite EP. cbv zeta beta iota. rewrite get2_tab2 by lia. destruct (Nat.ltb_spec i 5); [lia|].
          destruct (Nat.ltb_spec (5 + j) 5); [lia|]. unfold sc. destruct (Nat.ltb_spec (5 + j) 5); [lia|]. rewrite U by assumption. replace (5 + j - 5)%nat with j by lia.
          cbn [fst snd]; destruct (Nat.eqb_spec i (5 + j)), (Nat.eqb_spec (i - 5) j); try lia; reflexivity. }
      rewrite (sum_kron 3 (fun e => - pb_dt p * get2 3 (snd (dxi_parts (ps t) (v t))) (i - 5) e)) by assumption.
      rewrite (sum_ext 3 _ (fun e => - pb_dt p * (get2 3 (snd (dxi_parts (ps t) (v t))) (i - 5) e * get (ofV3 u) e))) by (intros; ring). rewrite sum_scal_l.
      unfold resW.
      change (fun s => get (ev_xi (evalEv (ps s) (x s))) (i - 5) - pb_dt (ps s) * (get (ev_w_lat (evalEv (ps s) (x s))) (i - 5) - get (ev_pl_wvec (evalEv (ps s) (x s))) (i - 5) +
          ev_ee_fac (evalEv (ps s) (x s)) * get (ev_ee_wvec (evalEv (ps s) (x s))) (i - 5)))
        with (fun s => get (ev_xi (v s)) (i - 5) - pb_dt p * (get (ev_w_lat (v s)) (i - 5) - get (vecsVMa 3 n (sg_Q (pb_sg p)) (ev_gdot (v s))) (i - 5) + ev_ee_fac (v t) * get (ev_ee_wvec (v s)) (i - 5))).
      assert (H0 : D (fun s => get (ev_xi (v s)) (i - 5)) t (get (ofV3 u) (i - 5))).
      { destruct dV_xi as (X0 & X1 & X2). destruct (i - 5)%nat as [|[|[|]]]; try lia; assumption. }
      assert (H1 := D_wlat (i - 5) L3). assert (H2 := D_Mg 3 (sg_Q (pb_sg p)) (i - 5) L3). assert (H3 := D_ee (i - 5) L3).
      eapply D_eq; [dauto|]. cbv beta. change (vecsMABT 3 5 n (sg_Q (pb_sg p)) (dgdot_deps p (v t))) with (dpl_deps_skew p (v t)). ring.
  Qed.
End Curve.
