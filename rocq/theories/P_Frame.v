(** Frame indifference: turning the sample frame turns the answer of the crystal update and changes nothing else (C21). *)
From Coq Require Import List ZArith Bool Lia PeanoNat Reals Lra FunctionalExtensionality String.
From Verif Require Import P_Demo P_Latop.
From Verif Require Import Num Arr NumR Util SlipGeom Eos Hard KinVoce KinKMBalD Elast Evptn MatModel Cases SpecTensor
  SpecElast SpecSlip P_Tensor P_Elast P_Eos P_Sngl P_Sngl2 P_Sngl3 P_Batch P_Batch2 P_Batch3 P_Batch4 P_Api P_Builtin SpecApi P_Hist SpecStress P_Stress
  SpecKin SpecKinApi SpecStep P_Call P_Step P_Step2 P_Energy P_Jac P_Jac2.
Import ListNotations.
Local Open Scope R_scope.

Lemma qp_assoc a b c : List.length a = 4%nat -> List.length b = 4%nat -> List.length c = 4%nat -> quat_prod a (quat_prod b c) = quat_prod (quat_prod a b) c.
Proof. intros. explode a. explode b. explode c. unfold quat_prod. rarr. meq; ring. Qed.
Lemma dR_form p0 p1 p2 p3 d0 d1 d2 d3 : dR [p0; p1; p2; p3] [d0; d1; d2; d3] =
  mk3 (2 * (p0 * d0 + p1 * d1 - p2 * d2 - p3 * d3)) (2 * (p1 * d2 + p2 * d1 - p0 * d3 - p3 * d0)) (2 * (p1 * d3 + p3 * d1 + p0 * d2 + p2 * d0))
      (2 * (p1 * d2 + p2 * d1 + p0 * d3 + p3 * d0)) (2 * (p0 * d0 - p1 * d1 + p2 * d2 - p3 * d3)) (2 * (p2 * d3 + p3 * d2 - p0 * d1 - p1 * d0))
      (2 * (p1 * d3 + p3 * d1 - p0 * d2 - p2 * d0)) (2 * (p2 * d3 + p3 * d2 + p0 * d1 + p1 * d0)) (2 * (p0 * d0 - p1 * d1 - p2 * d2 + p3 * d3)).
Proof.
  unfold dR, d_quat_to_tensor, vecsVMa, tab, toM3, sum. cbn [seq map fold_left]. unfold get2. cbn [get nth Nat.mul Nat.add]. rops. f_equal; ring.
Qed.
Lemma qp_form p0 p1 p2 p3 d0 d1 d2 d3 : quat_prod [p0; p1; p2; p3] [d0; d1; d2; d3] =
  [p0 * d0 - p1 * d1 - p2 * d2 - p3 * d3; p0 * d1 + p1 * d0 + p2 * d3 - p3 * d2; p0 * d2 - p1 * d3 + p2 * d0 + p3 * d1; p0 * d3 + p1 * d2 - p2 * d1 + p3 * d0].
Proof. reflexivity. Qed.
Lemma dR_left q p d : List.length q = 4%nat -> List.length p = 4%nat -> List.length d = 4%nat ->
  dR (quat_prod q p) (quat_prod q d) = mul3 (rotq q) (dR p d).
Proof.
  intros. explode q. explode p. explode d. rewrite rotq_form, !qp_form, !dR_form. cbv [mul3 a00 a01 a02 a10 a11 a12 a20 a21 a22]. f_equal; ring.
Qed.
Lemma dcongT_left Q C B A : is_orth Q -> dcongT (mul3 Q C) (mul3 Q B) (cong Q A) = dcongT C B A.
Proof.
  intros [H1 H2]. unfold dcongT, cong. rewrite !tr3_mul, !mul3_assoc.
  rewrite <- (mul3_assoc (tr3 Q) Q (mul3 A _)), <- !(mul3_assoc (tr3 Q) Q), H2, !mul3_1l. reflexivity.
Qed.

Lemma demap_length (xi : list R) : List.length (dquat_demap_T xi) = 12%nat.
Proof. unfold dquat_demap_T. cbv zeta. destruct (nltb _ _); [destruct (nltb _ _)|]; reflexivity. Qed.
Section Parts.
  Variables (d w xi : list R) (Cn Cq : list R).
  Hypothesis Lq : List.length Cq = 4%nat.
  Hypothesis Ln : List.length Cn = 4%nat.
  Let parts := eval_d_dxi_impl_quat d w xi Cn (quat_to_tensor Cq) Cq.
  Definition dqe (e : nat) : list R := quat_prod Cn (sub (dquat_demap_T xi) (4 * e) 4).
  Lemma row_quat e q : (e < 3)%nat -> (q < 4)%nat -> get2 4 (fst (fst parts)) e q = get (dqe e) q.
  Proof.
    intros He Hq. change (fst (fst parts)) with (dqe 0 ++ dqe 1 ++ dqe 2).
    assert (L : forall e, List.length (dqe e) = 4%nat) by reflexivity. unfold get2, get. set (f := dqe) in *. clearbody f.
    destruct e as [|[|[|]]]; try lia.
    - rewrite app_nth1 by (rewrite L; lia). reflexivity.
    - rewrite app_nth2 by (rewrite L; lia). rewrite app_nth1 by (rewrite !L; lia). rewrite L. f_equal; lia.
    - rewrite app_nth2 by (rewrite L; lia). rewrite app_nth2 by (rewrite !L; lia). rewrite !L. f_equal; lia.
  Qed.
  Let dCm := vecsMABT 9 3 4 (d_quat_to_tensor Cq) (fst (fst parts)).
  Lemma row_mat k e : (k < 9)%nat -> (e < 3)%nat -> get2 3 dCm k e = get (ofM3 (dR Cq (dqe e))) k.
  Proof.
    intros Hk He. unfold dCm, vecsMABT. rewrite get2_tab2 by assumption. unfold dR. rewrite ofM3_toM3 by reflexivity. unfold vecsVMa. rewrite get_tab by assumption.
    apply sum_ext. intros j Hj. rewrite row_quat by assumption. reflexivity.
  Qed.
  Lemma row_d i e : List.length d = 5%nat -> (i < 5)%nat -> (e < 3)%nat ->
    get2 3 (snd (fst parts)) i e = get (vec5 (dcongT (rotq Cq) (dR Cq (dqe e)) (ten5 d))) i.
  Proof.
    intros Ld Hi He. rewrite <- latop_R by assumption. change (snd (fst parts)) with (vecsMAB 5 3 9 (d_rot_mat_vecd_latop (quat_to_tensor Cq) d) dCm).
    unfold vecsMAB. rewrite get2_tab2 by assumption. unfold vecsVMa. rewrite get_tab by assumption.
    assert (EC : quat_to_tensor Cq = ofM3 (rotq Cq)).
    { symmetry. apply ofM3_toM3. explode Cq. reflexivity. }
    rewrite EC. apply sum_ext. intros j Hj. rewrite row_mat by assumption. reflexivity.
  Qed.
  Lemma row_w i e : List.length w = 3%nat -> (i < 3)%nat -> (e < 3)%nat ->
    get2 3 (snd parts) i e = get (ofV3 (mulv (tr3 (dR Cq (dqe e))) (toV3 w))) i.
  Proof.
    intros Lw Hi He. rewrite <- wlatop_R. change (snd parts) with (vecsMAB 3 3 9 (d_rot_mat_wveccp_latop w) dCm).
    unfold vecsMAB. rewrite get2_tab2 by assumption. unfold vecsVMa. rewrite get_tab by assumption.
    replace (ofV3 (toV3 w)) with w by (explode w; reflexivity).
    apply sum_ext. intros j Hj. rewrite row_mat by assumption. reflexivity.
  Qed.
End Parts.

Lemma list2_ext n m (A B : list R) : List.length A = (n * m)%nat -> List.length B = (n * m)%nat -> (0 < m)%nat ->
  (forall i j, (i < n)%nat -> (j < m)%nat -> get2 m A i j = get2 m B i j) -> A = B.
Proof.
  intros LA LB Hm H. apply list_get_ext; [congruence|]. intros k Hk. rewrite LA in Hk.
  pose proof (Nat.div_mod k m ltac:(lia)) as E. pose proof (Nat.mod_upper_bound k m ltac:(lia)) as U.
  assert (D : (k / m < n)%nat) by (apply Nat.div_lt_upper_bound; lia).
  specialize (H _ _ D U). unfold get2 in H. replace (k / m * m + k mod m)%nat with k in H by lia. exact H.
Qed.

(** the parts of the derivative that see the sample frame do not change when it is turned *)
Lemma parts_turn q d w xi Cn Cq : List.length q = 4%nat -> is_orth (rotq q) -> List.length d = 5%nat -> List.length w = 3%nat -> List.length Cn = 4%nat -> List.length Cq = 4%nat ->
  let P := eval_d_dxi_impl_quat d w xi Cn (quat_to_tensor Cq) Cq in
  let Cq' := quat_prod q Cq in
  let P' := eval_d_dxi_impl_quat (vec5 (cong (rotq q) (ten5 d))) (ofV3 (mulv (rotq q) (toV3 w))) xi (quat_prod q Cn) (quat_to_tensor Cq') Cq' in
  snd (fst P') = snd (fst P) /\ snd P' = snd P.
Proof.
  intros Lq HQ Ld Lw Ln Lc P Cq' P'.
  assert (LM : forall e, (e < 3)%nat -> List.length (sub (dquat_demap_T xi) (4 * e) 4) = 4%nat).
  { intros e He. apply sub_length. rewrite demap_length. lia. }
  assert (ED : forall e, (e < 3)%nat -> dR Cq' (dqe xi (quat_prod q Cn) e) = mul3 (rotq q) (dR Cq (dqe xi Cn e))).
  { intros e He. unfold dqe. rewrite <- qp_assoc by (assumption || apply LM, He). apply dR_left; [assumption|assumption|reflexivity]. }
  assert (DV : is_dev (cong (rotq q) (ten5 d))) by (apply cong_dev; [exact HQ|apply ten5_dev]).
  split.
  - apply (list2_ext 5 3); [apply tab2_length|apply tab2_length|lia|]. intros i j Hi Hj.
    unfold P', P. rewrite !row_d by (assumption || reflexivity). rewrite ED by assumption. unfold Cq'. rewrite rotq_prod by assumption.
    rewrite SpecTensor.ten5_vec5 by exact DV. now rewrite dcongT_left.
  - apply (list2_ext 3 3); [apply tab2_length|apply tab2_length|lia|]. intros i j Hi Hj.
    unfold P', P. rewrite !row_w by (assumption || reflexivity). rewrite ED by assumption.
    f_equal. f_equal. rewrite tr3_mul. generalize (toV3 w). intros v. replace (toV3 (ofV3 (mulv (rotq q) v))) with (mulv (rotq q) v) by (destruct v; reflexivity).
    rewrite mulv_mul. f_equal. rewrite <- mulv_mul. destruct HQ as [_ H2]. rewrite H2. apply mulv_I.
Qed.

(** the crystal update as seen from a frame turned by the unit quaternion [q] *)
Definition turn_prob (q : list R) (p : Prob R) : Prob R :=
  {| pb_sg := pb_sg p; pb_kin := pb_kin p; pb_el := pb_el p; pb_dt := pb_dt p; pb_detV := pb_detV p; pb_eVref := pb_eVref p; pb_p_EOS := pb_p_EOS p; pb_tK := pb_tK p;
     pb_a_V := pb_a_V p; pb_dt_ri := pb_dt_ri p; pb_a_V_ri := pb_a_V_ri p; pb_detV_ri := pb_detV_ri p;
     pb_hdn_scale := pb_hdn_scale p; pb_epsdot_scale_inv := pb_epsdot_scale_inv p; pb_rotincr_scale_inv := pb_rotincr_scale_inv p;
     pb_kin_vals := pb_kin_vals p; pb_e_vecd_n := pb_e_vecd_n p;
     pb_Cn_quat := quat_prod q (pb_Cn_quat p); pb_d_vecd_sm := vec5 (cong (rotq q) (ten5 (pb_d_vecd_sm p)));
     pb_w_veccp_sm := ofV3 (mulv (rotq q) (toV3 (pb_w_veccp_sm p))) |}.

Section Turn.
  Variables (p : Prob R) (q : list R).
  Hypothesis Lq : List.length q = 4%nat.
  Hypothesis Nq : SpecTensor.norm2 q = 1.
  Hypothesis HQ : List.length (pb_Cn_quat p) = 4%nat /\ SpecTensor.norm2 (pb_Cn_quat p) = 1.
  Hypothesis Ld : List.length (pb_d_vecd_sm p) = 5%nat.
  Hypothesis Lw : List.length (pb_w_veccp_sm p) = 3%nat.
  Let p' := turn_prob q p.
  Let Q := rotq q.
  Lemma turn_orth : is_orth Q. Proof. apply (rotq_rot q Lq Nq). Qed.
  Lemma turn_C x : ev_C_quat (evalEv p' x) = quat_prod q (ev_C_quat (evalEv p x)).
  Proof.
    change (ev_C_quat (evalEv p' x)) with (quat_prod (quat_prod q (pb_Cn_quat p)) (emap_to_quat (vecsVxa 3 r_scale (x_r x)))).
    change (ev_C_quat (evalEv p x)) with (quat_prod (pb_Cn_quat p) (emap_to_quat (vecsVxa 3 r_scale (x_r x)))).
    symmetry. apply qp_assoc; [exact Lq|apply HQ|]. reflexivity.
  Qed.
  Lemma turn_d x : ev_d_lat (evalEv p' x) = ev_d_lat (evalEv p x).
  Proof.
    pose proof (ev_C_unit p HQ x) as [LC _].
    pose proof (ev_C_rot p HQ x) as RC.
    pose proof turn_orth as OQ.
    assert (DD : is_dev (ten5 (pb_d_vecd_sm p))) by apply ten5_dev.
    assert (E1 : ev_d_lat (evalEv p' x) = vecsVMTa 5 (rmat (rotq (ev_C_quat (evalEv p' x)))) (vec5 (cong Q (ten5 (pb_d_vecd_sm p))))).
    { unfold rmat, rotq. rewrite ofM3_toM3 by reflexivity. reflexivity. }
    assert (E2 : ev_d_lat (evalEv p x) = vecsVMTa 5 (rmat (rotq (ev_C_quat (evalEv p x)))) (vec5 (ten5 (pb_d_vecd_sm p)))).
    { unfold rmat, rotq. rewrite ofM3_toM3 by reflexivity. rewrite vec5_ten5 by exact Ld. reflexivity. }
    rewrite E1, E2, turn_C, (rotq_prod _ _ Lq LC).
    destruct RC as [OC _].
    rewrite rmat_apply_T; [|apply orth_mul; assumption|apply cong_dev; assumption].
    rewrite rmat_apply_T by assumption.
    f_equal. rewrite tr3_mul, cong_mul. f_equal. rewrite <- cong_mul. destruct OQ as [_ O2]. unfold Q in *. rewrite O2. apply cong_1.
  Qed.
  Lemma turn_w x : ev_w_lat (evalEv p' x) = ev_w_lat (evalEv p x).
  Proof.
    pose proof (ev_C_unit p HQ x) as [LC _].
    pose proof turn_orth as OQ.
    assert (W : pb_w_veccp_sm p = ofV3 (toV3 (pb_w_veccp_sm p))).
    { clear -Lw. destruct (pb_w_veccp_sm p) as [|? [|? [|? [|]]]]; try discriminate Lw. reflexivity. }
    assert (E1 : ev_w_lat (evalEv p' x) = vecsVMTa 3 (ofM3 (rotq (ev_C_quat (evalEv p' x)))) (ofV3 (mulv Q (toV3 (pb_w_veccp_sm p))))).
    { unfold rotq. rewrite ofM3_toM3 by reflexivity. reflexivity. }
    assert (E2 : ev_w_lat (evalEv p x) = vecsVMTa 3 (ofM3 (rotq (ev_C_quat (evalEv p x)))) (ofV3 (toV3 (pb_w_veccp_sm p)))).
    { unfold rotq. rewrite ofM3_toM3 by reflexivity. rewrite <- W. reflexivity. }
    rewrite E1, E2, turn_C, (rotq_prod _ _ Lq LC), !mat3_apply_T.
    rewrite tr3_mul, mulv_mul. f_equal. f_equal. rewrite <- mulv_mul. destruct OQ as [_ O2]. unfold Q in *. rewrite O2. apply mulv_I.
  Qed.
  Lemma turn_residual x : residual p' x = residual p x.
  Proof. unfold residual. rewrite turn_d, turn_w. reflexivity. Qed.
  Lemma turn_parts x : snd (fst (dxi_parts p' (evalEv p' x))) = snd (fst (dxi_parts p (evalEv p x))) /\ snd (dxi_parts p' (evalEv p' x)) = snd (dxi_parts p (evalEv p x)).
  Proof.
    pose proof (ev_C_unit p HQ x) as [LC _].
    assert (E1 : dxi_parts p' (evalEv p' x) = eval_d_dxi_impl_quat (vec5 (cong (rotq q) (ten5 (pb_d_vecd_sm p)))) (ofV3 (mulv (rotq q) (toV3 (pb_w_veccp_sm p)))) (ev_xi (evalEv p x))
        (quat_prod q (pb_Cn_quat p)) (quat_to_tensor (ev_C_quat (evalEv p' x))) (ev_C_quat (evalEv p' x))) by reflexivity.
    rewrite E1, turn_C.
    apply (parts_turn q (pb_d_vecd_sm p) (pb_w_veccp_sm p) (ev_xi (evalEv p x)) (pb_Cn_quat p) (ev_C_quat (evalEv p x)) Lq turn_orth Ld Lw (proj1 HQ) LC).
  Qed.
  Lemma turn_jac0 x : jacobian0 p' (evalEv p' x) = jacobian0 p (evalEv p x).
  Proof.
    destruct (turn_parts x) as [A B]. unfold jacobian0.
    destruct (dxi_parts p' (evalEv p' x)) as [[a b] c]. destruct (dxi_parts p (evalEv p x)) as [[a' b'] c'].
    cbn [fst snd] in A, B. subst b c. reflexivity.
  Qed.
  Lemma turn_RJ : computeRJ p' = computeRJ p.
  Proof.
    apply functional_extensionality. intros x. unfold computeRJ, jacobian. rewrite turn_residual, turn_jac0. reflexivity.
  Qed.
End Turn.

(** ** One point *)
Lemma dot_turn q a b : List.length q = 4%nat -> SpecTensor.norm2 q = 1 -> List.length a = 4%nat -> List.length b = 4%nat ->
  vecsyadotb 4 (quat_prod q a) (quat_prod q b) = vecsyadotb 4 a b.
Proof.
  intros Lq Nq La Lb. explode q. explode a. explode b. rewrite !qp_form. unfold SpecTensor.norm2 in Nq. cbn in Nq.
  unfold vecsyadotb. rewrite !sum_S_R. unfold sum. cbn [seq fold_left]. rarr.
  match type of Nq with ?n = 1 => set (N := n) in Nq end.
  match goal with |- _ = ?r => transitivity (N * r); [unfold N; clear; rops; ring|rewrite Nq; rops; ring] end.
Qed.
Lemma final_turn q a b : List.length q = 4%nat -> SpecTensor.norm2 q = 1 -> List.length a = 4%nat -> List.length b = 4%nat ->
  quat_final (quat_prod q a) (quat_prod q b) = quat_prod q (quat_final a b).
Proof.
  intros Lq Nq La Lb. unfold quat_final. rewrite dot_turn by assumption. destruct Rltb; [|reflexivity].
  explode q. explode a. cbn [map]. rewrite !qp_form. cbn [map]. repeat f_equal; ring.
Qed.
Lemma list6_split (u : list R) : List.length u = 6%nat -> exists v x, u = v ++ [x] /\ List.length v = 5%nat.
Proof. intros L. explode u. exists [x; x0; x1; x2; x3], x4. split; reflexivity. Qed.
Lemma stress_turn q c u : List.length q = 4%nat -> SpecTensor.norm2 q = 1 -> List.length c = 4%nat -> SpecTensor.norm2 c = 1 -> List.length u = 6%nat ->
  sym6 (get (stress_out (quat_prod q c) u)) = cong (rotq q) (sym6 (get (stress_out c u))) /\
  get (stress_out (quat_prod q c) u) 6 = get (stress_out c u) 6.
Proof.
  intros Lq Nq Lc Nc Lu. destruct (list6_split u Lu) as (v & x & -> & Lv).
  assert (N1 : SpecTensor.norm2 (quat_prod q c) = 1) by (rewrite norm2_prod by assumption; rewrite Nq, Nc; ring).
  rewrite !stress_out_law by (assumption || reflexivity). rewrite rotq_prod by assumption. rewrite cong_mul.
  set (A := cong (rotq c) (ten6 (v ++ [x]))). assert (HA : is_sym A) by apply cong_sym, ten6_sym.
  pose proof (rotq_rot q Lq Nq) as [OQ _].
  rewrite (sym6_svecP (cong (rotq q) A)) by (apply cong_sym; exact HA). rewrite (sym6_svecP A HA), dev3_cong by exact OQ. split; [reflexivity|].
  change (get (svecP (cong (rotq q) A)) 6) with (- (trace (cong (rotq q) A) / 3)). rewrite cong_trace by exact OQ. reflexivity.
Qed.

Lemma norm_turn q D : List.length q = 4%nat -> SpecTensor.norm2 q = 1 -> is_dev D ->
  vecNorm 5 (vec5 (cong (rotq q) D)) = vecNorm 5 (vec5 D).
Proof.
  intros Lq Nq HD. pose proof (rotq_rot q Lq Nq) as [OQ _]. rewrite !norm_vec5 by (try apply cong_dev; assumption).
  unfold norm3t. rewrite cong_inner by exact OQ. reflexivity.
Qed.

Section Point.
  Variables (m : Mat R) (dt : R) (q d d' w w' vr vr' : list R) (pt pt' : Pt R).
  Hypothesis Lq : List.length q = 4%nat.
  Hypothesis Nq : SpecTensor.norm2 q = 1.
  Hypothesis Hd : svecToVecd d' = vec5 (cong (rotq q) (ten5 (svecToVecd d))).
  Hypothesis Hw : w' = ofV3 (mulv (rotq q) (toV3 w)).
  Hypothesis V0 : get vr' 0 = get vr 0.
  Hypothesis V1 : get vr' 1 = get vr 1.
  Hypothesis V3 : get vr' 3 = get vr 3.
  Hypothesis HE : get (pt_eInt pt') 0 = get (pt_eInt pt) 0.
  Hypothesis HS : get (pt_stress pt') 6 = get (pt_stress pt) 6.
  Hypothesis Hs : sub (pt_hist pt') iHistLbE 5 = sub (pt_hist pt) iHistLbE 5.
  Hypothesis HH : sub (pt_hist pt') iHistLbH (k_nH (m_kin m)) = sub (pt_hist pt) iHistLbH (k_nH (m_kin m)).
  Hypothesis HG : sub (pt_hist pt') (iHistLbGdot (k_nH (m_kin m))) (sg_nslip (m_sg m)) = sub (pt_hist pt) (iHistLbGdot (k_nH (m_kin m))) (sg_nslip (m_sg m)).
  Hypothesis HQ : snglQuatN (pt_hist pt') = quat_prod q (snglQuatN (pt_hist pt)).
  Lemma upd_turn : snglUpd m vr' (pt_eInt pt') (pt_stress pt') = snglUpd m vr (pt_eInt pt) (pt_stress pt).
  Proof. unfold snglUpd. rewrite V1, V3, HE, HS. reflexivity. Qed.
  Lemma tk_turn : snglTkelv m vr' (pt_eInt pt') = snglTkelv m vr (pt_eInt pt).
  Proof. unfold snglTkelv. rewrite V0, HE. reflexivity. Qed.
  Lemma deff_turn : vecd_Deff (svecToVecd d') = vecd_Deff (svecToVecd d).
  Proof.
    unfold vecd_Deff. change ntvec with 5%nat. f_equal. rewrite Hd, norm_turn by (assumption || apply ten5_dev). rewrite vec5_ten5 by reflexivity. reflexivity.
  Qed.
  Lemma prob_turn h_u : snglProb m dt d' w' vr' pt' h_u = turn_prob q (snglProb m dt d w vr pt h_u).
  Proof.
    unfold snglProb. rewrite upd_turn, tk_turn, V1, Hs, HQ. unfold mkProb.
    assert (EN : vecNorm 5 (svecToVecd d') = vecNorm 5 (svecToVecd d)).
    { rewrite Hd, norm_turn by (assumption || apply ten5_dev). rewrite vec5_ten5 by reflexivity. reflexivity. }
    rewrite EN. unfold turn_prob. cbn [pb_sg pb_kin pb_el pb_dt pb_detV pb_eVref pb_p_EOS pb_tK pb_a_V pb_dt_ri pb_a_V_ri pb_detV_ri pb_hdn_scale
      pb_epsdot_scale_inv pb_rotincr_scale_inv pb_kin_vals pb_e_vecd_n pb_Cn_quat pb_d_vecd_sm pb_w_veccp_sm].
    rewrite <- Hd, <- Hw. reflexivity.
  Qed.
End Point.
