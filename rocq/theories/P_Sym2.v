(** Two equivalent orientations: the system given to the solver (C22). *)
From Coq Require Import List ZArith Bool Lia PeanoNat Reals Lra.
From Verif Require Import Num Arr NumR Util SlipGeom Hard Elast Evptn SpecTensor P_Tensor P_Latop P_Stress SpecStep SpecJac SpecSym P_Step P_Energy P_Jac P_Jac2 P_Frame P_Sym P_Sym1.
Import ListNotations.
Local Open Scope R_scope.

(** the crystal update seen from the orientation turned by the unit quaternion [q] on the lattice side *)
Definition sym_prob (q : list R) (p : Prob R) : Prob R :=
  {| pb_sg := pb_sg p; pb_kin := pb_kin p; pb_el := pb_el p; pb_dt := pb_dt p; pb_detV := pb_detV p; pb_eVref := pb_eVref p; pb_p_EOS := pb_p_EOS p; pb_tK := pb_tK p;
     pb_a_V := pb_a_V p; pb_dt_ri := pb_dt_ri p; pb_a_V_ri := pb_a_V_ri p; pb_detV_ri := pb_detV_ri p;
     pb_hdn_scale := pb_hdn_scale p; pb_epsdot_scale_inv := pb_epsdot_scale_inv p; pb_rotincr_scale_inv := pb_rotincr_scale_inv p;
     pb_kin_vals := pb_kin_vals p; pb_e_vecd_n := vec5 (cong (tr3 (rotq q)) (ten5 (pb_e_vecd_n p)));
     pb_Cn_quat := quat_prod (pb_Cn_quat p) q; pb_d_vecd_sm := pb_d_vecd_sm p; pb_w_veccp_sm := pb_w_veccp_sm p |}.

Lemma list5_eq (a : list R) S l : is_orth S -> List.length a = 5%nat -> List.length l = 5%nat -> (forall i, (i < 5)%nat -> get a i = rm 5 (rmat S) (get l) i) -> a = vec5 (cong (tr3 S) (ten5 l)).
Proof.
  intros HS La Ll H. apply list_get_ext; [exact La|]. intros i Hi. rewrite La in Hi. rewrite get_lin5 by assumption. now apply H.
Qed.
Lemma list3_eq (a : list R) S l : List.length a = 3%nat -> List.length l = 3%nat -> (forall i, (i < 3)%nat -> get a i = rm 3 (ofM3 S) (get l) i) -> a = ofV3 (mulv (tr3 S) (toV3 l)).
Proof.
  intros La Ll H. apply list_get_ext; [exact La|]. intros i Hi. rewrite La in Hi. rewrite get_lin3 by assumption. now apply H.
Qed.
Lemma map_len S x : List.length (sym_map S x) = 8%nat. Proof. reflexivity. Qed.
Lemma get_map5 S x i : is_orth S -> List.length x = 8%nat -> (i < 5)%nat -> get (sym_map S x) i = rm 5 (rmat S) (get x) i.
Proof.
  intros HS L Hi. unfold sym_map. rewrite get_app1 by (cbn; lia).
  assert (E : ten5 x = ten5 (sub x 0 5)) by (explode x; reflexivity).
  rewrite E, get_lin5 by (try (rewrite sub_length by lia); assumption || reflexivity).
  apply rm_ext. intros j Hj. rewrite get_sub by assumption. reflexivity.
Qed.
Lemma get_map3 S x i : List.length x = 8%nat -> (i < 3)%nat -> get (sym_map S x) (5 + i) = rm 3 (ofM3 S) (fun j => get x (5 + j)) i.
Proof.
  intros L Hi. unfold sym_map. rewrite get_app2 by (cbn; lia). replace (5 + i - List.length _)%nat with i by (cbn; lia).
  change (mkV (nth 5 x 0) (nth 6 x 0) (nth 7 x 0)) with (toV3 [get x 5; get x 6; get x 7]).
  rewrite get_lin3 by (assumption || reflexivity). apply rm_ext. intros j Hj. destruct j as [|[|[|]]]; try lia; reflexivity.
Qed.
Lemma map_ext8 S (a : list R) x : is_orth S -> List.length a = 8%nat -> List.length x = 8%nat ->
  (forall i, (i < 5)%nat -> get a i = rm 5 (rmat S) (get x) i) -> (forall i, (i < 3)%nat -> get a (5 + i) = rm 3 (ofM3 S) (fun j => get x (5 + j)) i) -> a = sym_map S x.
Proof.
  intros HS La Lx H1 H2. apply list_get_ext; [rewrite La; reflexivity|]. intros i Hi. rewrite La in Hi.
  destruct (Nat.lt_ge_cases i 5) as [L|L]; [rewrite get_map5 by assumption; now apply H1|].
  replace i with (5 + (i - 5))%nat by lia. rewrite get_map3 by (assumption || lia). apply H2. lia.
Qed.

Lemma vec5_cong_dev Q X : is_orth Q -> vec5 (cong Q X) = vec5 (cong Q (ten5 (vec5 X))).
Proof.
  intros HQ. rewrite (vec5_tab (cong Q X)), (vec5_tab (cong Q (ten5 (vec5 X)))). apply tab_ext. intros i Hi. rewrite !cong_adj.
  assert (D : is_dev (cong (tr3 Q) (basis i))) by (apply cong_dev; [apply orth_tr; exact HQ|now apply basis_dev]).
  rewrite <- (expand_dev X _ D), <- (expand_dev (ten5 (vec5 X)) _ D). apply sum_ext. intros j Hj. f_equal. rewrite <- !vec5_get by assumption. rewrite vec5_ten5 by reflexivity. reflexivity.
Qed.

Section Sym.
  Variables (p : Prob R) (q : list R) (sg : nat -> nat) (ep : nat -> R).
  Let S := rotq q.
  Let n := sg_nslip (pb_sg p).
  Hypothesis Lq : List.length q = 4%nat.
  Hypothesis Nq : SpecTensor.norm2 q = 1.
  Hypothesis HQ : List.length (pb_Cn_quat p) = 4%nat /\ SpecTensor.norm2 (pb_Cn_quat p) = 1.
  Hypothesis Ld : List.length (pb_d_vecd_sm p) = 5%nat.
  Hypothesis Lw : List.length (pb_w_veccp_sm p) = 3%nat.
  Hypothesis Le : List.length (pb_e_vecd_n p) = 5%nat.
  Hypothesis Hsg : renumbers n sg.
  Hypothesis Hep : forall k, (k < n)%nat -> ep k * ep k = 1.
  Hypothesis HP : forall i k, (i < 5)%nat -> (k < n)%nat -> get2 n (sg_P (pb_sg p)) i (sg k) = ep k * rm 5 (rmat S) (fun j => get2 n (sg_P (pb_sg p)) j k) i.
  Hypothesis HW : forall i k, (i < 3)%nat -> (k < n)%nat -> get2 n (sg_Q (pb_sg p)) i (sg k) = ep k * rm 3 (ofM3 S) (fun j => get2 n (sg_Q (pb_sg p)) j k) i.
  Hypothesis HK : forall i j, (i < 5)%nat -> (j < 5)%nat -> get2 5 (rmat S) j i * (get (el_K_diag (pb_el p)) i - get (el_K_diag (pb_el p)) j) = 0.
  Hypothesis Hhex : el_hex (pb_el p) = true -> forall i, (i < 5)%nat ->
    get2 5 (rmat S) 1 i = (if Nat.eqb i 1 then 1 else 0) /\ get2 5 (rmat S) i 1 = (if Nat.eqb i 1 then 1 else 0).
  Hypothesis Hlaw : forall tau tau', List.length tau = n -> List.length tau' = n -> (forall k, (k < n)%nat -> get tau' (sg k) = ep k * get tau k) ->
    forall k, (k < n)%nat -> get (fst (fst (k_evalGdots (pb_kin p) tau' (pb_kin_vals p)))) (sg k) = ep k * get (fst (fst (k_evalGdots (pb_kin p) tau (pb_kin_vals p)))) k /\
      get (snd (fst (k_evalGdots (pb_kin p) tau' (pb_kin_vals p)))) (sg k) = get (snd (fst (k_evalGdots (pb_kin p) tau (pb_kin_vals p)))) k.
  Let p' := sym_prob q p.
  Let R5 := rm 5 (rmat S).
  Let R3 := rm 3 (ofM3 S).
  Lemma S_rot : is_rot S. Proof. exact (rotq_rot q Lq Nq). Qed.
  Lemma S_orth : is_orth S. Proof. exact (proj1 S_rot). Qed.
  Lemma HQ' : List.length (pb_Cn_quat p') = 4%nat /\ SpecTensor.norm2 (pb_Cn_quat p') = 1.
  Proof. destruct HQ as [L N]. split; [reflexivity|]. change (SpecTensor.norm2 (quat_prod (pb_Cn_quat p) q) = 1). rewrite norm2_prod by assumption. rewrite N, Nq. ring. Qed.
  Lemma e_n_get i : (i < 5)%nat -> get (pb_e_vecd_n p') i = R5 (get (pb_e_vecd_n p)) i.
  Proof. intros Hi. change (pb_e_vecd_n p') with (vec5 (cong (tr3 S) (ten5 (pb_e_vecd_n p)))). apply get_lin5; [exact S_orth|exact Le|exact Hi]. Qed.
  Lemma K_comm f i : (i < 5)%nat -> get (el_K_diag (pb_el p)) i * R5 f i = R5 (fun j => get (el_K_diag (pb_el p)) j * f j) i.
  Proof.
    intros Hi. unfold R5, rm. rewrite <- sum_scal_l. apply sum_ext. intros j Hj. specialize (HK i j Hi Hj). 
    apply Rminus_diag_uniq. transitivity (get2 5 (rmat S) j i * (get (el_K_diag (pb_el p)) i - get (el_K_diag (pb_el p)) j) * f j); [ring|]. rewrite HK. ring.
  Qed.
  Lemma sum_sg f : sum n (fun k => f (sg k)) = sum n f.
  Proof. destruct Hsg. now apply sum_perm. Qed.

  Section At.
    Variable x : list R.
    Hypothesis Lx : List.length x = 8%nat.
    Let x' := sym_map S x.
    Let v := evalEv p x.
    Let v' := evalEv p' x'.
    Lemma ef_get i : (i < 5)%nat -> get (ev_e_f v') i = R5 (get (ev_e_f v)) i.
    Proof.
      intros Hi. assert (E : forall p y k, (k < 5)%nat -> get (ev_e_f (evalEv p y)) k = e_scale * get y k + get (pb_e_vecd_n p) k).
      { intros p0 y k Hk. unfold evalEv. cbn [ev_e_f]. unfold vecsVapb, vecsVxa, x_e. rewrite !get_tab, get_sub by assumption. reflexivity. }
      unfold v', v. rewrite E by assumption. unfold x'. rewrite get_map5 by (assumption || apply S_orth). rewrite e_n_get by assumption.
      unfold R5. rewrite (rm_ext 5 _ (get (ev_e_f (evalEv p x))) (fun j => e_scale * get x j + get (pb_e_vecd_n p) j)) by (intros; now apply E).
      rewrite rm_plus, rm_scal. reflexivity.
    Qed.
    Lemma ef_list : ev_e_f v' = vec5 (cong (tr3 S) (ten5 (ev_e_f v))).
    Proof. apply list5_eq; [exact S_orth|reflexivity|reflexivity|exact ef_get]. Qed.
    Lemma edot_get i : (i < 5)%nat -> get (ev_edot v') i = R5 (get (ev_edot v)) i.
    Proof.
      intros Hi. assert (E : forall p y k, (k < 5)%nat -> get (ev_edot (evalEv p y)) k = pb_dt_ri p * e_scale * get y k).
      { intros p0 y k Hk. unfold evalEv. cbn [ev_edot]. unfold vecsVsa, vecsVxa, x_e. rewrite !get_tab, get_sub by assumption. change (e_scale * get y k * pb_dt_ri p0 = pb_dt_ri p0 * e_scale * get y k). ring. }
      unfold v', v. rewrite E by assumption. unfold x'. rewrite get_map5 by (assumption || apply S_orth). change (pb_dt_ri p') with (pb_dt_ri p).
      unfold R5. rewrite (rm_ext 5 _ (get (ev_edot (evalEv p x))) (fun j => pb_dt_ri p * e_scale * get x j)) by (intros; now apply E).
      rewrite rm_scal. reflexivity.
    Qed.
    Lemma edot_list : ev_edot v' = vec5 (cong (tr3 S) (ten5 (ev_edot v))).
    Proof. apply list5_eq; [exact S_orth|reflexivity|reflexivity|exact edot_get]. Qed.
    Lemma xi_get i : (i < 3)%nat -> get (ev_xi v') i = R3 (get (ev_xi v)) i.
    Proof.
      intros Hi. assert (E : forall p y k, (k < 3)%nat -> get (ev_xi (evalEv p y)) k = r_scale * get y (5 + k)).
      { intros p0 y k Hk. unfold evalEv. cbn [ev_xi]. unfold vecsVxa, x_r. rewrite !get_tab, get_sub by assumption. reflexivity. }
      unfold v', v. rewrite E by assumption. unfold x'. rewrite get_map3 by assumption.
      unfold R3. rewrite (rm_ext 3 _ (get (ev_xi (evalEv p x))) (fun j => r_scale * get x (5 + j))) by (intros; now apply E).
      rewrite rm_scal. reflexivity.
    Qed.
    Lemma xi_list : ev_xi v' = ofV3 (mulv (tr3 S) (toV3 (ev_xi v))).
    Proof. apply list3_eq; [reflexivity|reflexivity|exact xi_get]. Qed.
    Lemma T_get i : (i < 5)%nat -> get (ev_T v') i = R5 (get (ev_T v)) i.
    Proof.
      intros Hi. set (t0 := if el_hex (pb_el p) then get (elastNEtoT p (tab 5 (fun _ => 0))) 1 else 0).
      assert (E : forall e k, (k < 5)%nat -> get (elastNEtoT p e) k = pb_a_V_ri p * (get (el_K_diag (pb_el p)) k * get e k) + (if Nat.eqb k 1 then t0 else 0)).
      { intros e k Hk. unfold t0. unfold elastNEtoT, el_eval. destruct (el_hex (pb_el p)); unfold vecsVAdiagB, vecsVxa, iTvecHex, iSvecS;
          clear - Hk; destruct k as [|[|[|[|[|]]]]]; try lia; rarr; cbn [Nat.eqb]; ring. }
      change (ev_T v') with (elastNEtoT p (ev_e_f v')). change (ev_T v) with (elastNEtoT p (ev_e_f v)).
      rewrite E by assumption. rewrite ef_get, K_comm by assumption. unfold R5 at 2.
      rewrite (rm_ext 5 _ (get (elastNEtoT p (ev_e_f v))) (fun j => pb_a_V_ri p * (get (el_K_diag (pb_el p)) j * get (ev_e_f v) j) + (if Nat.eqb j 1 then t0 else 0))) by (intros; now apply E).
      rewrite rm_plus, rm_scal. f_equal.
      assert (D : rm 5 (rmat S) (fun j => if Nat.eqb j 1 then t0 else 0) i = t0 * get2 5 (rmat S) 1 i).
      { unfold rm, sum. cbn [fold_left seq Nat.eqb]. rops. ring. }
      refine (eq_trans _ (eq_sym D)). unfold t0. destruct (el_hex (pb_el p)) eqn:EX.
      - rewrite (proj1 (Hhex eq_refl i Hi)). destruct (Nat.eqb i 1); ring.
      - destruct (Nat.eqb i 1); ring.
    Qed.
    Lemma tau_get k : (k < n)%nat -> get (ev_taua v') (sg k) = ep k * get (ev_taua v) k.
    Proof.
      intros Hk. assert (Hs : (sg k < n)%nat) by now apply Hsg.
      change (ev_taua v') with (vecsVaTM 5 n (ev_T v') (sg_P (pb_sg p))). change (ev_taua v) with (vecsVaTM 5 n (ev_T v) (sg_P (pb_sg p))).
      unfold vecsVaTM. rewrite !get_tab by assumption. rewrite <- (rm_iso5 S (get (ev_T v)) (fun j => get2 n (sg_P (pb_sg p)) j k) S_orth).
      rewrite <- sum_scal_l. apply sum_ext. intros j Hj. rewrite T_get, HP by assumption. unfold R5. rops. ring.
    Qed.
    Lemma gd_get k : (k < n)%nat -> get (ev_gdot v') (sg k) = ep k * get (ev_gdot v) k /\ get (ev_dgdot_dtau v') (sg k) = get (ev_dgdot_dtau v) k.
    Proof. intros Hk. apply (Hlaw (ev_taua v) (ev_taua v')); [apply tab_length|apply tab_length|exact tau_get|exact Hk]. Qed.
    Lemma Mg m M i (Hm : (i < m)%nat) (Rm : nat -> (nat -> R) -> R) (f f' : nat -> R) :
      (forall k, (k < n)%nat -> get2 n M i (sg k) = ep k * Rm k (fun j => get2 n M j k)) -> (forall k, (k < n)%nat -> f' (sg k) = ep k * f k) ->
      sum n (fun k => get2 n M i k * f' k) = sum n (fun k => Rm k (fun j => get2 n M j k) * f k).
    Proof.
      intros H1 H2. rewrite <- (sum_sg (fun k => get2 n M i k * f' k)). apply sum_ext. intros k Hk. rewrite H1, H2 by assumption.
      transitivity (ep k * ep k * (Rm k (fun j => get2 n M j k) * f k)); [ring|]. rewrite Hep by assumption. ring.
    Qed.
    Lemma Psum f f' i : (i < 5)%nat -> (forall k, (k < n)%nat -> f' (sg k) = ep k * f k) ->
      sum n (fun k => get2 n (sg_P (pb_sg p)) i k * f' k) = R5 (fun j => sum n (fun k => get2 n (sg_P (pb_sg p)) j k * f k)) i.
    Proof.
      intros Hi Hf. rewrite (Mg 5 (sg_P (pb_sg p)) i Hi (fun _ g => R5 g i) f f') by (intros; [now apply HP]|| assumption).
      unfold R5. rewrite rm_sum. apply sum_ext. intros k Hk. rewrite Rmult_comm, <- rm_scal. apply rm_ext. intros; ring.
    Qed.
    Lemma Qsum f f' i : (i < 3)%nat -> (forall k, (k < n)%nat -> f' (sg k) = ep k * f k) ->
      sum n (fun k => get2 n (sg_Q (pb_sg p)) i k * f' k) = R3 (fun j => sum n (fun k => get2 n (sg_Q (pb_sg p)) j k * f k)) i.
    Proof.
      intros Hi Hf. rewrite (Mg 3 (sg_Q (pb_sg p)) i Hi (fun _ g => R3 g i) f f') by (intros; [now apply HW]|| assumption).
      unfold R3. rewrite rm_sum. apply sum_ext. intros k Hk. rewrite Rmult_comm, <- rm_scal. apply rm_ext. intros; ring.
    Qed.
    Lemma pl_get i : (i < 5)%nat -> get (ev_pl_vecd v') i = R5 (get (ev_pl_vecd v)) i.
    Proof.
      intros Hi. change (ev_pl_vecd v') with (vecsVMa 5 n (sg_P (pb_sg p)) (ev_gdot v')). change (ev_pl_vecd v) with (vecsVMa 5 n (sg_P (pb_sg p)) (ev_gdot v)).
      unfold vecsVMa. rewrite get_tab by assumption. refine (eq_trans (Psum (get (ev_gdot v)) (get (ev_gdot v')) i Hi _) _); [intros k Hk; now apply gd_get|].
      apply rm_ext. intros j Hj. rewrite get_tab by assumption. reflexivity.
    Qed.
    Lemma plw_get i : (i < 3)%nat -> get (ev_pl_wvec v') i = R3 (get (ev_pl_wvec v)) i.
    Proof.
      intros Hi. change (ev_pl_wvec v') with (vecsVMa 3 n (sg_Q (pb_sg p)) (ev_gdot v')). change (ev_pl_wvec v) with (vecsVMa 3 n (sg_Q (pb_sg p)) (ev_gdot v)).
      unfold vecsVMa. rewrite get_tab by assumption. refine (eq_trans (Qsum (get (ev_gdot v)) (get (ev_gdot v')) i Hi _) _); [intros k Hk; now apply gd_get|].
      apply rm_ext. intros j Hj. rewrite get_tab by assumption. reflexivity.
    Qed.
    Lemma ee_get i : (i < 3)%nat -> get (ev_ee_wvec v') i = R3 (get (ev_ee_wvec v)) i.
    Proof.
      intros Hi. change (ev_ee_wvec v') with (vecsVMa 3 5 (M35_d_AAoB_dA (ev_e_f v')) (ev_edot v')). rewrite ef_list, edot_list.
      rewrite ee_turn by (apply S_rot || reflexivity). apply get_lin3; [apply tab_length|exact Hi].
    Qed.
    Hypothesis Ho : off (toV3 (ev_xi v)).
    Lemma C_turn : ev_C_quat v' = quat_prod (ev_C_quat v) q.
    Proof.
      change (ev_C_quat v') with (quat_prod (quat_prod (pb_Cn_quat p) q) (emap_to_quat (ev_xi v'))).
      change (ev_C_quat v) with (quat_prod (pb_Cn_quat p) (emap_to_quat (ev_xi v))). rewrite xi_list.
      destruct HQ as [L4 _]. rewrite <- !qp_assoc by (assumption || reflexivity). rewrite emap_turn by assumption.
      unfold v. rewrite <- ev_xi_V3. reflexivity.
    Qed.
    Lemma d_list : ev_d_lat v' = vec5 (cong (tr3 S) (ten5 (ev_d_lat v))).
    Proof.
      assert (LC : List.length (ev_C_quat v) = 4%nat) by reflexivity.
      assert (E : forall p y, List.length (pb_Cn_quat p) = 4%nat /\ SpecTensor.norm2 (pb_Cn_quat p) = 1 -> List.length (pb_d_vecd_sm p) = 5%nat ->
        ev_d_lat (evalEv p y) = vec5 (cong (tr3 (rotq (ev_C_quat (evalEv p y)))) (ten5 (pb_d_vecd_sm p)))).
      { intros p0 y H1 H2. pose proof (ev_C_rot p0 H1 y) as [OC _]. pose proof (ev_Cm p0 H1 y) as M.
        change (ev_d_lat (evalEv p0 y)) with (vecsVMTa 5 (get_rot_mat_vecd (ev_C_matx (evalEv p0 y))) (pb_d_vecd_sm p0)). rewrite M.
        change (get_rot_mat_vecd (ofM3 (rotq (ev_C_quat (evalEv p0 y))))) with (rmat (rotq (ev_C_quat (evalEv p0 y)))).
        rewrite <- rmat_apply_T by (assumption || apply ten5_dev). rewrite vec5_ten5 by exact H2. reflexivity. }
      unfold v' at 1. rewrite E by (apply HQ' || exact Ld). fold v'. rewrite C_turn. unfold v at 2. rewrite E by assumption. fold v.
      rewrite rotq_prod by assumption. pose proof (ev_C_rot p HQ x) as [OC _]. fold v in OC.
      rewrite SpecTensor.ten5_vec5 by (apply cong_dev; [apply orth_tr; exact OC|apply ten5_dev]).
      change (pb_d_vecd_sm p') with (pb_d_vecd_sm p). rewrite SpecTensor.tr3_mul, cong_mul. reflexivity.
    Qed.
    Lemma d_get i : (i < 5)%nat -> get (ev_d_lat v') i = R5 (get (ev_d_lat v)) i.
    Proof. intros Hi. rewrite d_list. apply get_lin5; [exact S_orth|reflexivity|exact Hi]. Qed.
    Lemma w_get i : (i < 3)%nat -> get (ev_w_lat v') i = R3 (get (ev_w_lat v)) i.
    Proof.
      intros Hi. assert (LC : List.length (ev_C_quat v) = 4%nat) by reflexivity.
      assert (E : forall p y, List.length (pb_Cn_quat p) = 4%nat /\ SpecTensor.norm2 (pb_Cn_quat p) = 1 -> List.length (pb_w_veccp_sm p) = 3%nat ->
        ev_w_lat (evalEv p y) = ofV3 (mulv (tr3 (rotq (ev_C_quat (evalEv p y)))) (toV3 (pb_w_veccp_sm p)))).
      { intros p0 y H1 H2. pose proof (ev_Cm p0 H1 y) as M.
        change (ev_w_lat (evalEv p0 y)) with (vecsVMTa 3 (ev_C_matx (evalEv p0 y)) (pb_w_veccp_sm p0)). rewrite M, <- mat3_apply_T. f_equal.
        destruct (pb_w_veccp_sm p0) as [|? [|? [|? [|]]]]; try discriminate H2. reflexivity. }
      assert (L : ev_w_lat v' = ofV3 (mulv (tr3 S) (toV3 (ev_w_lat v)))).
      { unfold v' at 1. rewrite E by (apply HQ' || exact Lw). fold v'. rewrite C_turn. unfold v at 2. rewrite E by assumption. fold v.
        rewrite rotq_prod by assumption. change (pb_w_veccp_sm p') with (pb_w_veccp_sm p). rewrite SpecTensor.tr3_mul, mulv_mul. reflexivity. }
      rewrite L. apply get_lin3; [reflexivity|exact Hi].
    Qed.
    Lemma resE_turn i : (i < 5)%nat -> resE p' x' i = R5 (resE p x) i.
    Proof.
      intros Hi. unfold resE. fold v v'. change (pb_a_V_ri p') with (pb_a_V_ri p). rewrite edot_get, pl_get, d_get by assumption.
      unfold R5. rewrite rm_minus, rm_plus, rm_scal. reflexivity.
    Qed.
    Lemma resW_turn i : (i < 3)%nat -> resW p' x' i = R3 (resW p x) i.
    Proof.
      intros Hi. unfold resW. fold v v'. change (pb_dt p') with (pb_dt p). change (ev_ee_fac v') with (ev_ee_fac v). rewrite xi_get, plw_get, w_get, ee_get by assumption.
      unfold R3. rewrite rm_minus, rm_scal, rm_plus, rm_minus, rm_scal. reflexivity.
    Qed.
    Lemma residual_len p0 y : List.length (residual p0 y : list R) = 8%nat.
    Proof. reflexivity. Qed.
    Lemma residual_turn : residual p' x' = sym_map S (residual p x).
    Proof.
      apply map_ext8; [exact S_orth|reflexivity|reflexivity| |].
      - intros i Hi. rewrite residual_res0 by lia. unfold res0. assert (B := Hi). apply Nat.ltb_lt in B. rewrite B.
        rewrite resE_turn by assumption. change (pb_epsdot_scale_inv p') with (pb_epsdot_scale_inv p). unfold R5. rewrite <- rm_scal. apply rm_ext. intros j Hj.
        rewrite residual_res0 by lia. unfold res0. apply Nat.ltb_lt in Hj. rewrite Hj. reflexivity.
      - intros i Hi. rewrite residual_res0 by lia. unfold res0. destruct (Nat.ltb_spec (5 + i) 5); [lia|]. replace (5 + i - 5)%nat with i by lia.
        rewrite resW_turn by assumption. change (pb_rotincr_scale_inv p') with (pb_rotincr_scale_inv p). unfold R3. rewrite <- rm_scal. apply rm_ext. intros j Hj.
        rewrite residual_res0 by lia. unfold res0. destruct (Nat.ltb_spec (5 + j) 5); [lia|]. replace (5 + j - 5)%nat with j by lia. reflexivity.
    Qed.

    (** the Jacobian *)
    Variable u : list R.
    Hypothesis Lu : List.length u = 8%nat.
    Let u' := sym_map S u.
    Lemma dtau_turn k : (k < n)%nat -> dtau p' u' (sg k) = ep k * dtau p u k.
    Proof.
      intros Hk. unfold dtau. change (pb_el p') with (pb_el p). change (pb_a_V_ri p') with (pb_a_V_ri p). change (pb_sg p') with (pb_sg p). fold n.
      rewrite (sum_ext 5 _ (fun j => ep k * (R5 (fun i => get2 n (sg_P (pb_sg p)) i k) j * R5 (fun i => get (el_K_diag (pb_el p)) i * (pb_a_V_ri p * (e_scale * get u i))) j))).
      - rewrite sum_scal_l. f_equal. unfold R5. rewrite (rm_iso5 S _ _ S_orth). apply sum_ext. intros j Hj. ring.
      - intros j Hj. rewrite HP by assumption. fold R5. rewrite <- K_comm by assumption. unfold u'. rewrite get_map5 by (assumption || apply S_orth). fold R5.
        unfold R5 at 4. rewrite !rm_scal. fold R5. ring.
    Qed.
    Lemma dquat_turn : dquat p' x' u' = quat_prod (dquat p x u) q.
    Proof.
      unfold dquat. fold v v'.
      assert (EU : tab 3 (fun k => r_scale * get u' (5 + k)) = ofV3 (mulv (tr3 S) (toV3 (tab 3 (fun k => r_scale * get u (5 + k)))))).
      { apply list3_eq; [reflexivity|reflexivity|]. intros i Hi. rewrite get_tab by assumption. unfold u'. rewrite get_map3 by assumption. rewrite <- rm_scal. apply rm_ext.
        intros j Hj. rewrite get_tab by assumption. reflexivity. }
      rewrite EU, xi_list. change (pb_Cn_quat p') with (quat_prod (pb_Cn_quat p) q). destruct HQ as [L4 _].
      rewrite <- !qp_assoc by (assumption || reflexivity). f_equal. rewrite dmap_turn by assumption. unfold v. rewrite <- ev_xi_V3. reflexivity.
    Qed.
    Let act p x u i := sum 8 (fun j => get2 8 (jacobian0 p (evalEv p x)) i j * (sc j * get u j)).
    Lemma dgd_turn k : (k < n)%nat -> get (ev_dgdot_dtau v') (sg k) * dtau p' u' (sg k) = ep k * (get (ev_dgdot_dtau v) k * dtau p u k).
    Proof. intros Hk. rewrite dtau_turn by assumption. destruct (gd_get k Hk) as [_ E]. rewrite E. ring. Qed.
    Lemma act5 i : (i < 5)%nat -> act p' x' u' i = R5 (act p x u) i.
    Proof.
      intros Hi. unfold act. rewrite actE by assumption. fold v'. change (pb_sg p') with (pb_sg p). fold n.
      rewrite (Psum (fun k => get (ev_dgdot_dtau v) k * dtau p u k) (fun k => get (ev_dgdot_dtau v') k * dtau p' u' k) i Hi dgd_turn).
      assert (LC : List.length (ev_C_quat v) = 4%nat) by reflexivity.
      rewrite dquat_turn, C_turn. rewrite dR_right, rotq_prod by (assumption || reflexivity). rewrite dcongT_right. change (pb_d_vecd_sm p') with (pb_d_vecd_sm p).
      rewrite vec5_cong_dev by (apply orth_tr, S_orth). fold S. rewrite get_lin5 by (assumption || reflexivity || apply S_orth).
      unfold u'. rewrite get_map5 by (assumption || apply S_orth). change (pb_a_V_ri p') with (pb_a_V_ri p). change (pb_dt_ri p') with (pb_dt_ri p).
      unfold R5. rewrite (rm_ext 5 _ (fun i0 => sum 8 (fun j => get2 8 (jacobian0 p (evalEv p x)) i0 j * (sc j * get u j)))
         (fun i0 => sum n (fun k => get2 n (sg_P (pb_sg p)) i0 k * (get (ev_dgdot_dtau v) k * dtau p u k)) + pb_a_V_ri p * pb_dt_ri p * (e_scale * get u i0)
            - get (vec5 (dcongT (rotq (ev_C_quat v)) (dR (ev_C_quat v) (dquat p x u)) (ten5 (pb_d_vecd_sm p)))) i0)) by (intros j Hj; exact (actE p x u Ld Lw j Hj)).
      rewrite rm_minus, rm_plus, !rm_scal. reflexivity.
    Qed.
    Lemma act3 i : (i < 3)%nat -> act p' x' u' (5 + i) = R3 (fun j => act p x u (5 + j)) i.
    Proof.
      intros Hi. unfold act. rewrite actW by assumption. fold v'. change (pb_sg p') with (pb_sg p). fold n.
      rewrite (Qsum (fun k => get (ev_dgdot_dtau v) k * dtau p u k) (fun k => get (ev_dgdot_dtau v') k * dtau p' u' k) i Hi dgd_turn).
      assert (LC : List.length (ev_C_quat v) = 4%nat) by reflexivity.
      rewrite dquat_turn, C_turn. rewrite dR_right by (assumption || reflexivity). fold S. rewrite SpecTensor.tr3_mul, mulv_mul. change (pb_w_veccp_sm p') with (pb_w_veccp_sm p).
      assert (DE : tab 5 (fun k => e_scale * get u' k) = vec5 (cong (tr3 S) (ten5 (tab 5 (fun k => e_scale * get u k))))).
      { apply list5_eq; [exact S_orth|reflexivity|reflexivity|]. intros k Hk. rewrite get_tab by assumption. unfold u'. rewrite get_map5 by (assumption || apply S_orth).
        rewrite <- rm_scal. apply rm_ext. intros j Hj. now rewrite get_tab. }
      rewrite DE, ef_list, edot_list, !ee_turn by (apply S_rot || reflexivity). rewrite !get_lin3 by (assumption || reflexivity).
      replace (ofV3 (mulv (tr3 S) (mulv (tr3 (dR (ev_C_quat v) (dquat p x u))) (toV3 (pb_w_veccp_sm p))))) with
        (ofV3 (mulv (tr3 S) (toV3 (ofV3 (mulv (tr3 (dR (ev_C_quat v) (dquat p x u))) (toV3 (pb_w_veccp_sm p))))))) by (destruct (mulv (tr3 (dR (ev_C_quat v) (dquat p x u))) (toV3 (pb_w_veccp_sm p))); reflexivity).
      rewrite get_lin3 by (assumption || reflexivity). rewrite get_tab by assumption. unfold u'. rewrite get_map3 by assumption.
      change (pb_dt p') with (pb_dt p). change (pb_dt_ri p') with (pb_dt_ri p). change (ev_ee_fac v') with (ev_ee_fac v).
      unfold R3. rewrite (rm_ext 3 _ (fun j => sum 8 (fun j0 => get2 8 (jacobian0 p (evalEv p x)) (5 + j) j0 * (sc j0 * get u j0)))
        (fun i => pb_dt p * sum n (fun k => get2 n (sg_Q (pb_sg p)) i k * (get (ev_dgdot_dtau v) k * dtau p u k))
          - pb_dt p * ev_ee_fac v * (pb_dt_ri p * get (vecsVMa 3 5 (M35_d_AAoB_dA (ev_e_f v)) (tab 5 (fun k => e_scale * get u k))) i - get (vecsVMa 3 5 (M35_d_AAoB_dA (ev_edot v)) (tab 5 (fun k => e_scale * get u k))) i)
          + r_scale * get u (5 + i) - pb_dt p * get (ofV3 (mulv (tr3 (dR (ev_C_quat v) (dquat p x u))) (toV3 (pb_w_veccp_sm p)))) i)).
      2:{ intros j Hj. refine (eq_trans (actW p x u Ld Lw j Hj) _). rewrite get_tab by assumption. reflexivity. }
      rewrite rm_minus, rm_plus, rm_minus, !rm_scal, rm_minus, rm_scal. reflexivity.
    Qed.
    Lemma mv_get M w i : (i < 8)%nat -> get (mv 8 M w) i = sum 8 (fun j => get2 8 M i j * get w j).
    Proof.
      intros Hi. change (mv 8 M w) with (tab 8 (fun i => fold_right Rplus 0 (map (fun j => nth (i * 8 + j) M 0 * nth j w 0) (seq 0 8)))).
      rewrite get_tab by assumption. rewrite sum_fold. reflexivity.
    Qed.
    Lemma jac_turn : mv 8 (jacobian p' x') u' = sym_map S (mv 8 (jacobian p x) u).
    Proof.
      assert (E : forall p y w i, (i < 8)%nat -> get (mv 8 (jacobian p y) w) i = (if Nat.ltb i 5 then pb_epsdot_scale_inv p else pb_rotincr_scale_inv p) * act p y w i).
      { intros p0 y w i Hi. rewrite mv_get by assumption. unfold act. rewrite <- sum_scal_l. apply sum_ext. intros j Hj. rewrite jac0_get by assumption. ring. }
      apply map_ext8; [exact S_orth|reflexivity|reflexivity| |].
      - intros i Hi. rewrite E by lia. assert (B := Hi). apply Nat.ltb_lt in B. rewrite B. rewrite act5 by assumption.
        change (pb_epsdot_scale_inv p') with (pb_epsdot_scale_inv p). unfold R5. rewrite <- rm_scal. apply rm_ext. intros j Hj. rewrite E by lia. apply Nat.ltb_lt in Hj. rewrite Hj. reflexivity.
      - intros i Hi. rewrite E by lia. destruct (Nat.ltb_spec (5 + i) 5); [lia|]. rewrite act3 by assumption.
        change (pb_rotincr_scale_inv p') with (pb_rotincr_scale_inv p). unfold R3. rewrite <- rm_scal. apply rm_ext. intros j Hj. rewrite E by lia. destruct (Nat.ltb_spec (5 + j) 5); [lia|]. reflexivity.
    Qed.
  End At.
End Sym.
