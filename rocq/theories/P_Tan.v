(** The tangent stiffness is the derivative of the stress along solutions (C36): one crystal update. *)
From Coq Require Import List ZArith Bool Lia PeanoNat Reals Lra.
From Coquelicot Require Import Coquelicot.
From Verif Require Import Num Arr NumR Util SlipGeom Hard Elast Evptn MatModel SpecTensor P_Tensor P_Deriv P_Jac P_Latop P_Stress SpecApi SpecStep P_Step P_Jac2 P_Eos P_Sngl2 SpecTan.
Import ListNotations.
Local Open Scope R_scope.

(** ** change of basis *)
Definition mv6 (M : list R) (u : list R) : list R := tab 6 (fun i => sum 6 (fun j => get2 6 M i j * get u j)).
Lemma conv_col (r0 r1 r2 r3 r4 r5 : R) E : is_sym E ->
  fold_right Rplus 0 (map (fun q => nth q [r0 * (s2 / 2) - r1 * (s2 * s3 / 6) + r5 * (s3 / 3); - (r0 * (s2 / 2)) - r1 * (s2 * s3 / 6) + r5 * (s3 / 3);
    s2 * s3 / 3 * r1 + r5 * (s3 / 3); r4 * (s2 / 2); r3 * (s2 / 2); r2 * (s2 / 2)] 0 * nth q (eng E) 0) [0; 1; 2; 3; 4; 5]%nat) =
  sum 6 (fun j => nth j [r0; r1; r2; r3; r4; r5] 0 * get (vec6 E) j).
Proof. intros H. symc E H. unfold eng, vec6, vec5. specR. rarr. specR. cbn [fold_right map nth]. field_s. Qed.
Lemma conv_R M E : is_sym E -> stiff (fun r q => get (mtan_conv_sd_svec true M) (6 * r + q)) E = ten6 (mv6 M (vec6 E)).
Proof.
  intros H.
  set (m := fun i j => get2 6 M i j).
  set (C := fun i j : nat => match i with
        | 0%nat => s2 / 2 * m 0%nat j - s2 * s3 / 6 * m 1%nat j + s3 / 3 * m 5%nat j
        | 1%nat => - (s2 / 2 * m 0%nat j) - s2 * s3 / 6 * m 1%nat j + s3 / 3 * m 5%nat j
        | 2%nat => s2 * s3 / 3 * m 1%nat j + s3 / 3 * m 5%nat j
        | 3%nat => s2 / 2 * m 4%nat j | 4%nat => s2 / 2 * m 3%nat j | _ => s2 / 2 * m 2%nat j end).
  assert (RR : forall r, (r < 6)%nat -> fold_right Rplus 0 (map (fun q => get (mtan_conv_sd_svec true M) (6 * r + q) * nth q (eng E) 0) [0; 1; 2; 3; 4; 5]%nat) =
     sum 6 (fun j => C r j * get (vec6 E) j)).
  { intros r Hr. transitivity (sum 6 (fun j => nth j [C r 0%nat; C r 1%nat; C r 2%nat; C r 3%nat; C r 4%nat; C r 5%nat] 0 * get (vec6 E) j)).
    2:{ apply sum_ext. intros j Hj. do 6 (destruct j as [|j]; [reflexivity|]). lia. }
    rewrite <- conv_col by exact H. apply (f_equal (fold_right Rplus 0)). apply map_ext_in. intros q Hq. f_equal.
    assert (Hq6 : (q < 6)%nat) by (cbn in Hq; lia). clear Hq.
    assert (EC : forall j, (j < 6)%nat -> forall r, (r < 6)%nat -> get2 6 (tab2 6 6 (fun i j =>
        let t3 := (sqr3i * get2 6 M 5 j)%num in let t1 := (sqr2i * get2 6 M 0 j)%num in let t2 := (sqr6i * get2 6 M 1 j)%num in
        match i with 0 => t1 - t2 + t3 | 1 => - t1 - t2 + t3 | 2 => sqr2b3 * get2 6 M 1 j + t3
        | 3 => sqr2i * get2 6 M 4 j | 4 => sqr2i * get2 6 M 3 j | _ => sqr2i * get2 6 M 2 j end)%num) r j = C r j).
    { intros j Hj r' Hr'. rewrite get2_tab2 by assumption. unfold C, m. do 6 (destruct r' as [|r']; [reflexivity|]). lia. }
    replace (6 * r + q)%nat with (r * 6 + q)%nat by lia. change (get (mtan_conv_sd_svec true M) (r * 6 + q)) with (get2 6 (mtan_conv_sd_svec true M) r q).
    unfold mtan_conv_sd_svec. cbv zeta. rewrite get2_tab2 by assumption. cbv zeta in EC.
    do 6 (destruct q as [|q]; [rewrite !EC by lia; cbn [nth]; rops; ring|]). lia. }
  unfold stiff, sym6. rewrite !RR by lia. clear RR.
  unfold mv6. set (u := vec6 E). clearbody u. clear H.
  set (y := fun i => sum 6 (fun j => m i j * get u j)).
  change (tab 6 (fun i => sum 6 (fun j => get2 6 M i j * get u j))) with [y 0; y 1; y 2; y 3; y 4; y 5]%nat.
  clearbody m.
  assert (A : forall r, sum 6 (fun j => C r j * get u j) = match r with
        | 0%nat => s2 / 2 * y 0%nat - s2 * s3 / 6 * y 1%nat + s3 / 3 * y 5%nat
        | 1%nat => - (s2 / 2 * y 0%nat) - s2 * s3 / 6 * y 1%nat + s3 / 3 * y 5%nat
        | 2%nat => s2 * s3 / 3 * y 1%nat + s3 / 3 * y 5%nat
        | 3%nat => s2 / 2 * y 4%nat | 4%nat => s2 / 2 * y 3%nat | _ => s2 / 2 * y 2%nat end).
  { intros r. unfold C, y. set (g := get u). clearbody g. clear. destruct r as [|[|[|[|[|r]]]]]; unfold sum; cbn [fold_left seq]; rops; ring. }
  rewrite !A. clear A. generalize (y 0%nat) (y 1%nat) (y 2%nat) (y 3%nat) (y 4%nat) (y 5%nat). clear. intros y0 y1 y2 y3 y4 y5.
  unfold ten6, ten5. specR. meq; field_s.
Qed.

Lemma D_unique f t a b : D f t a -> D f t b -> a = b.
Proof. intros H1 H2. rewrite <- (is_derive_unique f t a H1). exact (is_derive_unique f t b H2). Qed.
Lemma nth_get (l : list R) k : nth k l 0 = get l k.
Proof. reflexivity. Qed.

Lemma dM_ten6 f t d' : dl 6 f t d' -> dM (fun s => ten6 (f s)) t (ten6 d').
Proof.
  intros H. assert (H5 : D (fun s => get (f s) 5) t (get d' 5)) by (apply (H 5%nat); lia).
  assert (H0 : dl 5 f t d') by (intros k Hk; apply (H k); lia).
  exact (dM_add _ _ _ _ _ (dM_ten5 _ _ _ H0) (dM_scalc _ (basis 5) _ _ H5)).
Qed.

Section Tan1.
  Variables (p : Prob R) (d : R -> list R) (x : R -> list R) (t : R) (dd dx : list R) (law : nat -> R -> R).
  Hypothesis Hx : dl 8 x t dx.
  Hypothesis Hd : dl 5 d t dd.
  Hypothesis Ld : forall s, List.length (d s) = 5%nat.
  Hypothesis Ldd : List.length dd = 5%nat.
  Hypothesis HQ : List.length (pb_Cn_quat p) = 4%nat /\ norm2 (pb_Cn_quat p) = 1.
  Hypothesis Lw : List.length (pb_w_veccp_sm p) = 3%nat.
  Let n := sg_nslip (pb_sg p).
  Let ps s := with_d p (d s).
  Let v s := evalEv (ps s) (x s).
  Hypothesis Hlaw : forall tau k, List.length tau = n -> (k < n)%nat -> get (fst (fst (k_evalGdots (pb_kin p) tau (pb_kin_vals p)))) k = law k (get tau k).
  Hypothesis Hdlaw : forall k, (k < n)%nat -> D (law k) (get (ev_taua (v t)) k) (get (ev_dgdot_dtau (v t)) k).
  Hypothesis Hxi : / 10 ^ 9 <= norm3 (toV3 (ev_xi (v t))).
  Hypothesis HR : forall i, (i < 8)%nat -> D (fun s => res0 (ps s) (x s) i) t 0.
  Variables (lu : LUSolver R) (sol : list R).
  Hypothesis HE : solves_exactly lu.
  Hypothesis HS : lu 8%nat (jacobian0 (ps t) (v t)) (mtan_rhs_T (v t)) 5%nat = Some sol.

  Lemma tan_dir q : (q < 8)%nat -> sum 5 (fun j => get2 8 sol j q * get dd j) = sc q * get dx q.
  Proof.
    intros Hq. destruct (HE _ _ _ _ _ HS) as [H1 H2].
    set (y := tab 8 (fun q => sc q * get dx q - sum 5 (fun j => get2 8 sol j q * get dd j))).
    assert (Y : nth q y 0 = 0).
    { apply H2; [apply tab_length| |exact Hq]. intros i Hi. rewrite <- sum_fold.
      rewrite (sum_ext 8 _ (fun q => get2 8 (jacobian0 (ps t) (v t)) i q * (sc q * get dx q) - sum 5 (fun j => get2 8 (jacobian0 (ps t) (v t)) i q * get2 8 sol j q * get dd j))).
      2:{ intros k Hk. rewrite !nth_get. unfold y. rewrite get_tab by assumption. unfold get2. rewrite Rmult_minus_distr_l. f_equal. rewrite <- sum_scal_l. apply sum_ext. intros; ring. }
      rewrite sum_minus, sum_exchange.
      rewrite (sum_ext 5 _ (fun j => get2 8 (mtan_rhs_T (v t)) j i * get dd j)).
      2:{ intros j Hj. rewrite sum_scal_r. f_equal. rewrite sum_fold. exact (H1 j i Hj Hi). }
      assert (E := D_unique _ _ _ _ (HR i Hi) (D_res0 p d x t dd dx law Hx Hd Ld Ldd HQ Lw Hlaw Hdlaw Hxi i Hi)).
      apply Rminus_diag_eq. fold (ps t) in E. fold (v t) in E.
      match type of E with 0 = ?a - ?b => assert (E' : a = b) by lra; clear E end.
      refine (eq_trans E' _). clear E'. unfold mtan_rhs_T. destruct (Nat.ltb_spec i 5) as [L|L].
      - apply sum_ext. intros j Hj. rewrite get2_tab2 by assumption. apply Nat.ltb_lt in L. rewrite L. reflexivity.
      - symmetry. apply sum_zero. intros j Hj. rewrite get2_tab2 by assumption. destruct (Nat.ltb_spec i 5); [lia|]. change (nZ 0) with 0. ring. }
    unfold y in Y. rewrite nth_get, get_tab in Y by assumption. lra.
  Qed.

  (** stress along the curve *)
  Let sig s := el_getCauchy (ev_T (v s)) (pb_detV_ri p).
  Let S s := cong (rotq (ev_C_quat (v s))) (ten6 (sig s)).
  Let de k := e_scale * get dx k.
  Let dsig := tab 6 (fun k => if Nat.eqb k 5 then (if el_hex (pb_el p) then pb_detV_ri p * pb_a_V_ri p * el_K_sdax3 (pb_el p) * de 1 else 0)
    else pb_detV_ri p * pb_a_V_ri p * get (el_K_diag (pb_el p)) k * de k).
  Lemma D_T5 : D (fun s => get (ev_T (v s)) 5) t (if el_hex (pb_el p) then pb_a_V_ri p * el_K_sdax3 (pb_el p) * de 1 else 0).
  Proof.
    assert (H := D_ef p d x t dd dx Hx Ldd HQ Lw 1%nat ltac:(lia)).
    set (c0 := - s3 * exp (s3 * (s3 * ln (pb_a_V p))) * pb_p_EOS p).
    apply (D_ext (fun s => c0 + if el_hex (pb_el p) then el_K_sdax3 (pb_el p) * (pb_a_V_ri p * get (ev_e_f (v s)) 1) else 0)).
    - intros s. change (ev_T (v s)) with (elastNEtoT p (ev_e_f (v s))). unfold elastNEtoT, c0. rewrite P_Sngl2.get_el_eval_5 by reflexivity. reflexivity.
    - destruct (el_hex (pb_el p)); [|eapply D_eq; [dauto|cbv beta; ring]].
      fold (ps t) (v t) in H. fold de in H. change (fun s => get (ev_e_f (evalEv (with_d p (d s)) (x s))) 1) with (fun s => get (ev_e_f (v s)) 1) in H.
      eapply D_eq; [dauto|cbv beta; ring].
  Qed.
  Lemma D_sig : dl 6 sig t dsig.
  Proof.
    intros k Hk. unfold dsig. rewrite get_tab by assumption.
    apply (D_ext (fun s => pb_detV_ri p * get (ev_T (v s)) k)); [intros s; unfold sig, el_getCauchy; rewrite get_tab by assumption; reflexivity|].
    destruct (Nat.eqb_spec k 5).
    - subst k. eapply D_eq; [apply D_scal; exact D_T5|]. destruct (el_hex (pb_el p)); ring.
    - eapply D_eq; [apply D_scal; exact (D_T p d x t dd dx Hx Ldd HQ Lw k ltac:(lia))|]. fold (de k). unfold de. ring.
  Qed.

  Let C s := rotq (ev_C_quat (v s)).
  Let u := mkV (r_scale * get dx 5) (r_scale * get dx 6) (r_scale * get dx 7).
  Let dq := quat_prod (pb_Cn_quat p) (dA (toV3 (ev_xi (v t))) u).
  Let B := dR (ev_C_quat (v t)) dq.
  Lemma D_C' : dM C t B.
  Proof. exact (D_C p d x t dd dx Hx Ldd HQ Lw Hxi). Qed.
  Let A := add3 (mul3 (mul3 B (ten5 (sig t))) (tr3 (C t))) (mul3 (mul3 (C t) (ten5 (sig t))) (tr3 B)).
  (** components of the stress in the sample frame *)
  Let U s := vec5 (cong (C s) (ten5 (sig s))) ++ [get (sig s) 5].
  Let dU := tab 6 (fun k => if Nat.eqb k 5 then get dsig 5 else get (vec5 A) k + get (vec5 (cong (C t) (ten5 dsig))) k).
  Lemma D_U : dl 6 U t dU.
  Proof.
    intros k Hk. unfold dU. rewrite get_tab by assumption. destruct (Nat.eqb_spec k 5).
    - subst k. apply (D_sig 5%nat). lia.
    - assert (Hk5 : (k < 5)%nat) by lia.
      apply (D_ext (fun s => get (vec5 (cong (C s) (ten5 (sig s)))) k)).
      { intros s. unfold U. rewrite get_app1; [reflexivity|]. exact Hk5. }
      assert (H5 : dl 5 sig t dsig) by (intros j Hj; apply (D_sig j); lia).
      assert (H := dl_vec5 _ _ _ (dM_mul _ _ _ _ _ (dM_mul _ _ _ _ _ D_C' (dM_ten5 _ _ _ H5)) (dM_tr _ _ _ D_C')) k Hk5).
      eapply D_eq; [exact H|]. rewrite !vec5_get by assumption. rewrite <- inner_add_l. apply (f_equal (fun A => inner A (basis k))).
      unfold A, cong. generalize (ten5 (sig t)) (ten5 dsig) B (C t). clear. intros a1 a2 a3 a4. destruct a1, a2, a3, a4. spec. meq; ring.
  Qed.

  Variable mt : list R.
  Hypothesis HM : mtan_vecds lu (ps t) (x t) = Some mt.
  Lemma mt_row i : (i < 6)%nat -> sum 6 (fun j => get2 6 mt i j * get (dd ++ [0]) j) = get dU i.
  Proof.
    intros Hi. unfold mtan_vecds in HM. fold (v t) in HM. rewrite HS in HM.
    destruct (dxi_parts (ps t) (v t)) as [[dCq x1] x2] eqn:EP.
    cbv zeta in HM. apply (f_equal (fun o => match o with Some l => l | None => [] end)) in HM. cbv beta iota in HM.
    change (pb_el (ps t)) with (pb_el p) in HM. change (pb_detV_ri (ps t)) with (pb_detV_ri p) in HM. change (pb_a_V_ri (ps t)) with (pb_a_V_ri p) in HM.
    set (temp := el_multCauchyDif _ _ _ _) in HM. set (m0 := qr6x6_pre_mul _ _ _) in HM.
    set (dCI := tab2 4 5 _) in HM. set (dS := vecsMAB 5 4 9 _ _) in HM. rewrite <- HM. clear HM.
    assert (E6 : forall f : nat -> R, sum 6 f = sum 5 f + f 5%nat) by (intros f; apply sum_S_R).
    rewrite E6. rewrite (get_app2 dd [0] 5) by lia. rewrite Ldd. change (get [0] (5 - 5)) with 0. rewrite Rmult_0_r, Rplus_0_r.
    assert (TM : forall q, (q < 6)%nat -> sum 5 (fun j => get2 6 temp q j * get dd j) = get dsig q).
    { intros q Hq. unfold dsig. rewrite get_tab by assumption. unfold temp, el_multCauchyDif.
      destruct (Nat.eqb_spec q 5).
      - destruct (el_hex (pb_el p)).
        + unfold de. replace e_scale with (sc 1) by reflexivity. rewrite <- (tan_dir 1%nat) by lia. rewrite <- sum_scal_l. apply sum_ext. intros j Hj.
          rewrite get2_tab2 by lia. destruct (Nat.eqb_spec j 5); [lia|]. subst q. cbn [Nat.eqb]. change iTvecHex with 1%nat. rewrite get2_tab2 by lia. rops. ring.
        + apply sum_zero. intros j Hj. rewrite get2_tab2 by lia. destruct (Nat.eqb_spec j 5); [lia|]. subst q. cbn [Nat.eqb]. change (nZ 0) with 0. ring.
      - assert (Hq5 : (q < 5)%nat) by lia. unfold de. assert (ES : e_scale = sc q) by (unfold sc; apply Nat.ltb_lt in Hq5; now rewrite Hq5).
        rewrite ES, <- (tan_dir q) by lia. rewrite <- sum_scal_l. apply sum_ext. intros j Hj.
        rewrite get2_tab2 by lia. destruct (Nat.eqb_spec j 5); [lia|]. destruct (Nat.eqb_spec q 5); [lia|]. rewrite get2_tab2 by lia. rops. ring. }
    unfold dU. rewrite get_tab by assumption. destruct (Nat.eqb_spec i 5).
    - subst i. rewrite <- (TM 5%nat) by lia. apply sum_ext. intros j Hj. rewrite get2_tab2 by lia. cbn [Nat.ltb Nat.leb andb]. 
      rewrite get_app1 by lia. unfold m0, qr6x6_pre_mul, get2. rewrite get_app2 by (rewrite tab2_length; lia). rewrite tab2_length.
      replace (5 * 6 + j - 5 * 6)%nat with j by lia. rewrite get_tab by lia. reflexivity.
    - assert (Hi5 : (i < 5)%nat) by lia.
      rewrite (sum_ext 5 _ (fun j => get2 5 (vecsMAB 5 5 4 dS dCI) i j * get dd j + sum 5 (fun q => get2 5 (ev_qr5x5 (v t)) i q * (get2 6 temp q j * get dd j)))).
      2:{ intros j Hj. rewrite get2_tab2 by lia. assert (Hi' := Hi5). assert (Hj' := Hj). apply Nat.ltb_lt in Hi'. apply Nat.ltb_lt in Hj'. rewrite Hi', Hj'. cbn [andb].
          rewrite get_app1 by lia. unfold m0, qr6x6_pre_mul. unfold get2 at 1. rewrite get_app1 by (rewrite tab2_length; lia).
          change (get (tab2 5 6 ?f) (i * 6 + j)) with (get2 6 (tab2 5 6 f) i j). rewrite get2_tab2 by lia. rops. 
          rewrite (sum_ext 5 (fun q => get2 5 (ev_qr5x5 (v t)) i q * (get2 6 temp q j * get dd j)) (fun q => get2 5 (ev_qr5x5 (v t)) i q * get2 6 temp q j * get dd j)) by (intros; ring).
          rewrite sum_scal_r. ring. }
      rewrite sum_plus, sum_exchange. f_equal.
      + rewrite mv_MAB by assumption.
        rewrite (sum_ext 4 _ (fun q => get2 4 dS i q * get dq q)).
        2:{ intros q Hq. f_equal. rewrite (sum_ext 5 _ (fun j => sum 3 (fun w => get2 4 dCq w q * (get2 8 sol j (5 + w) * get dd j)))).
            2:{ intros j Hj. unfold dCI. rewrite get2_tab2 by assumption. rewrite <- sum_scal_r. apply sum_ext. intros; rops; ring. }
            rewrite sum_exchange. rewrite (sum_ext 3 _ (fun w => get2 4 dCq w q * get (ofV3 u) w)).
            2:{ intros w Hw. rewrite sum_scal_l. f_equal. rewrite tan_dir by lia. destruct w as [|[|[|]]]; try lia; reflexivity. }
            assert (PQ := part_quat (pb_d_vecd_sm (ps t)) (pb_w_veccp_sm p) (toV3 (ev_xi (v t))) (pb_Cn_quat p) (ev_C_quat (v t)) u Hxi q Hq).
            unfold v in PQ at 1. rewrite <- ev_xi_V3 in PQ. fold (v t) in PQ.
            change (eval_d_dxi_impl_quat (pb_d_vecd_sm (ps t)) (pb_w_veccp_sm p) (ev_xi (v t)) (pb_Cn_quat p) (quat_to_tensor (ev_C_quat (v t))) (ev_C_quat (v t)))
              with (dxi_parts (ps t) (v t)) in PQ. rewrite EP in PQ. exact PQ. }
        unfold dS. rewrite mv_MAB by assumption.
        assert (EB : forall k, (k < 9)%nat -> sum 4 (fun e => get2 4 (d_quat_to_tensor (ev_C_quat (v t))) k e * get dq e) = get (ofM3 B) k).
        { intros k Hk. unfold B, dR. rewrite ofM3_toM3 by reflexivity. unfold vecsVMa. rewrite get_tab by assumption. reflexivity. }
        rewrite (sum_ext 9 _ (fun k => get2 9 (d_rot_mat_vecd_smop (ev_C_matx (v t)) (sig t)) i k * get (ofM3 B) k)).
        2:{ intros k Hk. rewrite EB by assumption. reflexivity. }
        set (s5 := tab 5 (fun k => get (sig t) k)).
        change (d_rot_mat_vecd_smop (ev_C_matx (v t)) (sig t)) with (d_rot_mat_vecd_smop (ev_C_matx (v t)) s5).
        assert (ES : sum 9 (fun k => get2 9 (d_rot_mat_vecd_smop (ev_C_matx (v t)) s5) i k * get (ofM3 B) k) = get (vecsVMa 5 9 (d_rot_mat_vecd_smop (ev_C_matx (v t)) s5) (ofM3 B)) i)
          by (unfold vecsVMa; rewrite get_tab by assumption; reflexivity).
        rewrite ES. unfold v at 1. rewrite ev_Cm by exact HQ. fold (ps t). fold (v t). rewrite smop_R by reflexivity. reflexivity.
      + rewrite (sum_ext 5 _ (fun q => get2 5 (ev_qr5x5 (v t)) i q * get dsig q)).
        2:{ intros q Hq. rewrite sum_scal_l. rewrite TM by lia. reflexivity. }
        set (s5 := tab 5 (fun k => get dsig k)).
        rewrite (sum_ext 5 _ (fun q => get2 5 (ev_qr5x5 (v t)) i q * get s5 q)) by (intros q Hq; unfold s5; rewrite get_tab by assumption; reflexivity).
        change (ten5 dsig) with (ten5 s5).
        assert (E5 : get (vecsVMa 5 5 (rmat (C t)) s5) i = sum 5 (fun q => get2 5 (rmat (C t)) i q * get s5 q)) by (unfold vecsVMa; rewrite get_tab by assumption; reflexivity).
        assert (EV : s5 = vec5 (ten5 s5)) by (symmetry; apply vec5_ten5; reflexivity).
        change (ev_qr5x5 (v t)) with (get_rot_mat_vecd (ev_C_matx (v t))). unfold v at 1. rewrite ev_Cm by exact HQ. fold (ps t). fold (v t).
        change (get_rot_mat_vecd (ofM3 (rotq (ev_C_quat (v t))))) with (rmat (C t)). rewrite <- E5, EV at 1.
        rewrite rmat_apply; [reflexivity|exact (proj1 (ev_C_rot (ps t) HQ (x t)))|apply ten5_dev].
  Qed.
  Lemma S_U s : S s = ten6 (U s).
  Proof.
    destruct (ev_C_rot (ps s) HQ (x s)) as [O _]. fold (v s) in O. fold (C s) in O.
    unfold S, U. fold (C s). set (w := sig s). clearbody w.
    assert (E : forall a r, List.length a = 5%nat -> ten6 (a ++ [r]) = add3 (ten5 a) (scal3 r (basis 5))).
    { intros a r La. explode a. reflexivity. }
    rewrite E by reflexivity. rewrite ten5_vec5 by (apply cong_sym, (proj1 (ten5_dev _))).
    assert (T0 : trace (cong (C s) (ten5 w)) = 0) by (rewrite cong_trace by exact O; exact (proj2 (ten5_dev w))).
    unfold dev3. rewrite T0. change (ten6 w) with (add3 (ten5 w) (scal3 (get w 5) (basis 5))). rewrite cong_add.
    assert (B5 : scal3 (get w 5) (basis 5) = scal3 (get w 5 * (s3 / 3)) I3) by (clear; specR; meq; ring).
    rewrite B5, cong_scal, (cong_I _ O). generalize (cong (C s) (ten5 w)) (get w 5 * (s3 / 3)). clear. intros M r. destruct M. spec. meq; field.
  Qed.
  Lemma D_S : dM S t (ten6 dU).
  Proof. apply (dM_ext (fun s => ten6 (U s))); [intros s; symmetry; apply S_U|]. apply dM_ten6. exact D_U. Qed.
  Lemma tan_apply bulk Dd : is_dev Dd -> dd = vec5 Dd -> pb_dt_ri p * pb_dt p = 1 ->
    stiff (fun r q => get (mtanSD_of (ps t) bulk mt) (6 * r + q)) (scal3 (pb_dt p) Dd) = ten6 dU.
  Proof.
    intros HD Edd Hdt. unfold mtanSD_of. rewrite conv_R.
    2:{ destruct HD as [H _]. revert H. clear. intros H. unfold is_sym in *. destruct Dd. unfold tr3 in *. cbn in *. injection H as ? ? ? ? ? ?. subst. reflexivity. }
    replace dU with (tab 6 (fun i => get dU i)) by reflexivity. unfold mv6. f_equal. apply tab_ext. intros i Hi. rewrite <- mt_row by assumption.
    assert (V6 : vec6 (scal3 (pb_dt p) Dd) = tab 6 (fun k => pb_dt p * get (dd ++ [0]) k)).
    { rewrite Edd. destruct HD as [H1 H2]. revert H1 H2. generalize (pb_dt p). clear. intros r H1 H2. symc Dd H1. unfold vec6, vec5 in *. specR. rarr. specR. meq; try ring. transitivity (r * s3 / 3 * (a00 + a11 + a22)); [field|rewrite H2; ring]. }
    rewrite V6. change (sum 6 (fun j => ?f j)) with (sum 6 f).
    assert (E6 : forall f : nat -> R, sum 6 f = sum 5 f + f 5%nat) by (intros f; apply sum_S_R). rewrite !E6.
    rewrite (get_app2 dd [0] 5) by lia. rewrite Ldd. change (get [0] (5 - 5)) with 0. rewrite !get_tab by lia. rewrite (get_app2 dd [0] 5) by lia. rewrite Ldd. change (get [0] (5 - 5)) with 0.
    rewrite !Rmult_0_r, !Rplus_0_r.
    apply sum_ext. intros j Hj. rewrite get_tab by lia. unfold get2. rewrite get_upd_other by (unfold iSvecS; lia). rewrite get_tab by lia.
    change (pb_dt_ri (ps t)) with (pb_dt_ri p). rops. transitivity (pb_dt_ri p * pb_dt p * (get mt (i * 6 + j) * get (dd ++ [0]) j)); [ring|rewrite Hdt; ring].
  Qed.
End Tan1.

Lemma mt_col5 lu (p : Prob R) x mt i : mtan_vecds lu p x = Some mt -> (i < 5)%nat -> get2 6 mt i 5 = 0.
Proof.
  intros HM Hi. unfold mtan_vecds in HM. destruct lu as [sol|]; [|discriminate]. destruct dxi_parts as [[dCq x1] x2].
  cbv zeta in HM. apply (f_equal (fun o => match o with Some l => l | None => [] end)) in HM. cbv beta iota in HM. rewrite <- HM. clear HM.
  rewrite get2_tab2 by lia. rewrite Bool.andb_false_r. unfold qr6x6_pre_mul. unfold get2 at 1. rewrite get_app1 by (rewrite tab2_length; lia).
  change (get (tab2 5 6 ?f) (i * 6 + 5)) with (get2 6 (tab2 5 6 f) i 5). rewrite get2_tab2 by lia. apply sum_zero. intros q Hq.
  unfold el_multCauchyDif. rewrite get2_tab2 by lia. cbn [Nat.eqb]. change (nZ 0) with 0. rops. ring.
Qed.
Lemma tan_vol lu (p : Prob R) x mt bulk : mtan_vecds lu p x = Some mt ->
  stiff (fun r q => get (mtanSD_of p bulk mt) (6 * r + q)) I3 = scal3 (3 * bulk) I3.
Proof.
  intros HM. unfold mtanSD_of. rewrite conv_R by reflexivity.
  assert (V : vec6 I3 = [0; 0; 0; 0; 0; s3]) by (unfold vec6, vec5; specR; cbn [app]; meq; field_s).
  rewrite V. unfold mv6.
  set (M := upd _ _ _).
  assert (HL : List.length mt = 36%nat).
  { unfold mtan_vecds in HM. destruct lu as [sol|]; [|discriminate]. destruct dxi_parts as [[dCq x1] x2]. cbv zeta in HM.
    apply (f_equal (fun o => match o with Some l => l | None => [] end)) in HM. cbv beta iota in HM. rewrite <- HM. apply tab2_length. }
  assert (E : forall i, (i < 6)%nat -> sum 6 (fun j => get2 6 M i j * get [0; 0; 0; 0; 0; s3] j) = if Nat.eqb i 5 then 3 * bulk * s3 else 0).
  { intros i Hi. rewrite sum_S_R. rewrite (sum_zero 5) by (intros j Hj; do 5 (destruct j as [|j]; [cbn [get nth]; ring|]); lia).
    change (get [0; 0; 0; 0; 0; s3] 5) with s3. destruct (Nat.eqb_spec i 5).
    - subst i. unfold M, get2. unfold iSvecS. rewrite get_upd_same by (rewrite tab_length; lia). change (@three R RNum) with 3. rops. ring.
    - unfold M, get2. unfold iSvecS. rewrite get_upd_other by lia. rewrite get_tab by lia. change (get mt (i * 6 + 5)) with (get2 6 mt i 5).
      rewrite (mt_col5 lu p x mt i HM) by lia. rops. ring. }
  replace (tab 6 _) with [0; 0; 0; 0; 0; 3 * bulk * s3].
  2:{ unfold tab. cbn [seq map]. rewrite !E by lia. reflexivity. }
  clear. unfold ten6, ten5. specR. meq; field_s.
Qed.
