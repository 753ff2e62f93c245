(** The residual of the crystal update in tensor form (C45). *)
From Coq Require Import List ZArith Bool Lia PeanoNat Reals Lra String.
From Verif Require Import Num Arr NumR Util SlipGeom Eos Hard KinVoce KinKMBalD Elast Evptn MatModel Cases SpecTensor
  SpecElast SpecSlip P_Tensor P_Elast P_Eos P_Sngl P_Sngl2 P_Sngl3 P_Batch P_Batch2 P_Batch3 P_Api P_Builtin SpecApi P_Hist SpecStress P_Stress
  SpecKin SpecKinApi SpecStep.
Import ListNotations.
Local Open Scope R_scope.

(** ** tensor algebra *)
Definition cof3 (A : M3) : M3 :=
  mk3 (a11 A * a22 A - a12 A * a21 A) (a12 A * a20 A - a10 A * a22 A) (a10 A * a21 A - a11 A * a20 A)
      (a02 A * a21 A - a01 A * a22 A) (a00 A * a22 A - a02 A * a20 A) (a01 A * a20 A - a00 A * a21 A)
      (a01 A * a12 A - a02 A * a11 A) (a02 A * a10 A - a00 A * a12 A) (a00 A * a11 A - a01 A * a10 A).
Lemma mul3_assoc A B C : mul3 (mul3 A B) C = mul3 A (mul3 B C).
Proof. destruct A, B, C. spec. meq; ring. Qed.
Lemma mul3_I A : mul3 A I3 = A.
Proof. destruct A. spec. meq; ring. Qed.
Lemma mul3_Il A : mul3 I3 A = A.
Proof. destruct A. spec. meq; ring. Qed.
Lemma tr3_mul A B : tr3 (mul3 A B) = mul3 (tr3 B) (tr3 A).
Proof. destruct A, B. spec. meq; ring. Qed.
Lemma cof_rot A : is_rot A -> cof3 A = A.
Proof.
  intros [[H1 H2] H3].
  assert (E : mul3 (tr3 (cof3 A)) A = scal3 (det3 A) I3) by (clear; destruct A; unfold cof3; spec; meq; ring).
  rewrite H3 in E. assert (E' : tr3 (cof3 A) = tr3 A).
  { transitivity (mul3 (tr3 (cof3 A)) (mul3 A (tr3 A))); [now rewrite H1, mul3_I|].
    rewrite <- mul3_assoc, E. destruct A. clear. spec. meq; ring. }
  apply (f_equal tr3) in E'. now rewrite !tr3_tr in E'.
Qed.
Lemma cong_axial A w : is_rot A -> cong A (axial w) = axial (mulv A w).
Proof.
  intros H. transitivity (axial (mulv (cof3 A) w)); [|now rewrite cof_rot].
  clear. destruct A, w. unfold cof3. spec. meq; ring.
Qed.
Lemma rot_tr A : is_rot A -> is_rot (tr3 A).
Proof.
  intros [[H1 H2] H3]. repeat split; rewrite ?tr3_tr; try assumption. rewrite <- H3. clear. destruct A. spec. ring.
Qed.
Lemma rot_mul A B : is_rot A -> is_rot B -> is_rot (mul3 A B).
Proof.
  intros [[H1 H2] H3] [[H4 H5] H6]. repeat split.
  - rewrite tr3_mul, mul3_assoc, <- (mul3_assoc B), H4, mul3_Il. exact H1.
  - rewrite tr3_mul, mul3_assoc, <- (mul3_assoc (tr3 A)), H2, mul3_Il. exact H5.
  - transitivity (det3 A * det3 B); [clear; destruct A, B; spec; ring|rewrite H3, H6; ring].
Qed.
Lemma inner_sub A B k : inner (sub3 A B) k = inner A k - inner B k.
Proof. destruct A, B, k. unfold sub3. spec. ring. Qed.
Lemma inner_scal x A k : inner (scal3 x A) k = x * inner A k.
Proof. destruct A, k. spec. ring. Qed.
Lemma inner_slip n g f k : inner (slip_sum n g f) k = sum n (fun i => g i * inner (f i) k).
Proof.
  rewrite sum_fold. unfold slip_sum. generalize (seq 0 n). intros l. induction l as [|i l IH]; cbn [fold_right map].
  - clear. destruct k. spec. ring.
  - now rewrite add3_comp, inner_scal, IH.
Qed.
Lemma inner_ten5 e k : List.length e = 5%nat -> (k < 5)%nat -> inner (ten5 e) (basis k) = get e k.
Proof. intros L H. rewrite <- vec5_get by assumption. now rewrite vec5_ten5. Qed.
(** entries of a sum of skew tensors *)
Lemma slip_axial n g f (q : nat -> V3) : (forall i, (i < n)%nat -> f i = axial (q i)) ->
  slip_sum n g f = axial (mkV (sum n (fun i => g i * v0 (q i))) (sum n (fun i => g i * v1 (q i))) (sum n (fun i => g i * v2 (q i)))).
Proof.
  intros H. rewrite !sum_fold. unfold slip_sum.
  assert (H' : forall i, In i (seq 0 n) -> f i = axial (q i)) by (intros i Hi; apply in_seq in Hi; apply H; lia).
  revert H'. clear H. generalize (seq 0 n). intros l. induction l as [|i l IH]; intros H; cbn [fold_right map].
  - spec. meq; ring.
  - rewrite IH by (intros; apply H; now right). rewrite H by now left. destruct (q i). spec. meq; ring.
Qed.
Lemma ee_wvec_spec e ed : List.length e = 5%nat -> List.length ed = 5%nat ->
  commutator (ten5 ed) (ten5 e) = axial (toV3 (vecsVMa 3 5 (M35_d_AAoB_dA e) ed)).
Proof.
  intros L1 L2. explode e. explode ed. unfold commutator, sub3, vecsVMa, M35_d_AAoB_dA. rarr. unfold ten5. specR. cbn [nth].
  meq; field_s.
Qed.

(** ** the residual *)
Section Res.
  Variable p : Prob R.
  Variables (D : M3) (w : V3) (n : nat) (s m : nat -> V3).
  Hypothesis HD : is_dev D.
  Hypothesis Hd : pb_d_vecd_sm p = vec5 D.
  Hypothesis Hw : pb_w_veccp_sm p = ofV3 w.
  Hypothesis Hn : sg_nslip (pb_sg p) = n.
  Hypothesis HS : schmid_data (sg_P (pb_sg p)) (sg_Q (pb_sg p)) n m s.
  Hypothesis HQ : List.length (pb_Cn_quat p) = 4%nat /\ norm2 (pb_Cn_quat p) = 1.
  Hypothesis HE : List.length (pb_e_vecd_n p) = 5%nat.
  Hypothesis Hdt : pb_dt_ri p = 1 / pb_dt p.
  Hypothesis Hdt0 : pb_dt p <> 0.
  Hypothesis Ha : pb_a_V_ri p = 1 / pb_a_V p.
  Hypothesis Ha0 : pb_a_V p <> 0.
  Variable x : list R.
  Let v := evalEv p x.
  Let C := rotq (ev_C_quat v).
  Let E0 := ten5 (pb_e_vecd_n p).
  Let E1 := ten5 (ev_e_f v).
  Let xi := toV3 (ev_xi v).
  Let g := get (ev_gdot v).

  Lemma ev_xi_V3 : ev_xi v = ofV3 xi.
  Proof. unfold xi, v, evalEv. cbn [ev_xi]. unfold vecsVxa. reflexivity. Qed.
  Lemma ev_C_unit : List.length (ev_C_quat v) = 4%nat /\ norm2 (ev_C_quat v) = 1.
  Proof.
    unfold v, evalEv. cbn [ev_C_quat]. change (vecsVxa 3 r_scale (x_r x)) with (ev_xi v). rewrite ev_xi_V3.
    unfold get_c_quat. split; [reflexivity|].
    destruct HQ as [L1 N1]. destruct (emap_quat_unit xi) as [N2 L2]. rewrite norm2_prod by assumption. rewrite N1, N2. ring.
  Qed.
  Lemma ev_C_rot : is_rot C.
  Proof. apply rotq_rot; apply ev_C_unit. Qed.
  Lemma ev_C_comp : C = mul3 (rotq (pb_Cn_quat p)) (rotq (emap_to_quat (ofV3 xi))).
  Proof.
    unfold C. unfold v, evalEv. cbn [ev_C_quat]. change (vecsVxa 3 r_scale (x_r x)) with (ev_xi v). rewrite ev_xi_V3.
    unfold get_c_quat. apply rotq_prod; [apply HQ|apply emap_quat_unit].
  Qed.
  Lemma ev_Cm : ev_C_matx v = ofM3 C.
  Proof.
    unfold C, rotq. change (ev_C_matx v) with (quat_to_tensor (ev_C_quat v)). symmetry. apply ofM3_toM3.
    destruct ev_C_unit as [L _]. destruct (ev_C_quat v) as [|? [|? [|? [|? [|]]]]]; try discriminate L. reflexivity.
  Qed.
  Lemma ev_edot_V : ev_edot v = tab 5 (fun k => (get (ev_e_f v) k - get (pb_e_vecd_n p) k) / pb_dt p).
  Proof.
    unfold v, evalEv. cbn [ev_edot ev_e_f]. unfold vecsVsa, vecsVapb. apply tab_ext. intros k Hk. rewrite get_tab by assumption.
    rewrite Hdt. rops. field. exact Hdt0.
  Qed.
  Lemma ev_e_f_len : List.length (ev_e_f v) = 5%nat.
  Proof. reflexivity. Qed.
  Lemma erate_ten : erate (pb_dt p) E0 E1 = ten5 (ev_edot v).
  Proof.
    rewrite ev_edot_V. unfold E0, E1. pose proof ev_e_f_len as L. set (e := ev_e_f v) in *. clearbody e. set (e0 := pb_e_vecd_n p) in *.
    clearbody e0. explode e. explode e0. unfold erate, sub3, ten5. rarr. specR. cbn [nth]. meq; field; exact Hdt0.
  Qed.

  Lemma res_strain k : (k < 5)%nat ->
    get (residual p x) k = pb_epsdot_scale_inv p * inner (strain_gap (pb_dt p) (pb_a_V p) E0 E1 C D n s m g) (basis k).
  Proof.
    intros Hk. unfold residual. fold v. rewrite get_app1 by (rewrite tab_length; exact Hk). rewrite get_tab by assumption.
    cbn [nmul nadd nsub RNum]. f_equal. unfold strain_gap. rewrite inner_sub, add3_comp, inner_scal, erate_ten, inner_ten5, inner_slip; [|reflexivity|assumption].
    assert (EL : get (ev_d_lat v) k = inner (cong (tr3 C) D) (basis k)).
    { change (ev_d_lat v) with (vecsVMTa 5 (get_rot_mat_vecd (ev_C_matx v)) (pb_d_vecd_sm p)). rewrite ev_Cm, Hd.
      change (get_rot_mat_vecd (ofM3 C)) with (rmat C). rewrite rmat_apply_T by (assumption || apply ev_C_rot). now apply vec5_get. }
    assert (EP : get (ev_pl_vecd v) k = sum n (fun i => g i * inner (symp (outer (s i) (m i))) (basis k))).
    { change (ev_pl_vecd v) with (vecsVMa 5 (sg_nslip (pb_sg p)) (sg_P (pb_sg p)) (ev_gdot v)). unfold vecsVMa. rewrite get_tab by assumption. rewrite Hn.
      apply sum_ext. intros i Hi. destruct HS as (_ & _ & H). specialize (H i Hi). destruct H as (HP & _).
      rewrite <- (HP k Hk). unfold g, get2, get. cbn [nundef RNum nmul]. ring. }
    rewrite EL, EP, Ha. unfold Rdiv. ring.
  Qed.
  Lemma res_spin : get (residual p x) 5 = pb_rotincr_scale_inv p * a21 (spin_gap (pb_dt p) (pb_a_V p) E0 E1 C w xi n s m g) /\
    get (residual p x) 6 = pb_rotincr_scale_inv p * a02 (spin_gap (pb_dt p) (pb_a_V p) E0 E1 C w xi n s m g) /\
    get (residual p x) 7 = pb_rotincr_scale_inv p * a10 (spin_gap (pb_dt p) (pb_a_V p) E0 E1 C w xi n s m g).
  Proof.
    assert (EW : ev_w_lat v = ofV3 (mulv (tr3 C) w)).
    { change (ev_w_lat v) with (vecsVMTa 3 (ev_C_matx v) (pb_w_veccp_sm p)). rewrite ev_Cm, Hw. apply mat3_apply_T. }
    assert (EP : ev_pl_wvec v = ofV3 (mkV (sum n (fun i => g i * v0 (mkV (nth i (sg_Q (pb_sg p)) 0) (nth (n + i) (sg_Q (pb_sg p)) 0) (nth (2 * n + i) (sg_Q (pb_sg p)) 0))))
        (sum n (fun i => g i * v1 (mkV (nth i (sg_Q (pb_sg p)) 0) (nth (n + i) (sg_Q (pb_sg p)) 0) (nth (2 * n + i) (sg_Q (pb_sg p)) 0))))
        (sum n (fun i => g i * v2 (mkV (nth i (sg_Q (pb_sg p)) 0) (nth (n + i) (sg_Q (pb_sg p)) 0) (nth (2 * n + i) (sg_Q (pb_sg p)) 0)))))).
    { change (ev_pl_wvec v) with (vecsVMa 3 (sg_nslip (pb_sg p)) (sg_Q (pb_sg p)) (ev_gdot v)). rewrite Hn. unfold vecsVMa, ofV3, tab. cbn [seq map v0 v1 v2].
      unfold get2, g, get. cbn [nundef RNum nmul Nat.mul].
      meq; apply sum_ext; intros i Hi; rewrite Rmult_comm; repeat (f_equal; try lia). }
    assert (EE : commutator (ten5 (ev_edot v)) E1 = axial (toV3 (ev_ee_wvec v))).
    { unfold E1. rewrite ee_wvec_spec; reflexivity. }
    assert (EG : spin_gap (pb_dt p) (pb_a_V p) E0 E1 C w xi n s m g =
       sub3 (axial xi) (scal3 (pb_dt p) (add3 (sub3 (axial (mulv (tr3 C) w)) (axial (toV3 (ev_pl_wvec v)))) (scal3 (/ (2 * pb_a_V p * pb_a_V p)) (axial (toV3 (ev_ee_wvec v))))))).
    { unfold spin_gap. rewrite cong_axial by (apply rot_tr, ev_C_rot).
      rewrite (slip_axial n g _ (fun i => mkV (nth i (sg_Q (pb_sg p)) 0) (nth (n + i) (sg_Q (pb_sg p)) 0) (nth (2 * n + i) (sg_Q (pb_sg p)) 0))).
      2:{ intros i Hi. destruct HS as (_ & _ & H). specialize (H i Hi). destruct H as (_ & HA). now rewrite HA. }
      rewrite EP. rewrite erate_ten, EE. reflexivity. }
    rewrite EG. unfold residual. fold v. rewrite !get_app2 by (rewrite tab_length; lia). rewrite !tab_length. cbn [Nat.sub]. rewrite !get_tab by lia.
    rewrite EW. change (ev_ee_fac v) with (onehalf * pb_a_V_ri p * pb_a_V_ri p)%num. rewrite Ha, ev_xi_V3, onehalf_R.
    set (pw := ev_pl_wvec v). set (ew := ev_ee_wvec v). clearbody pw ew xi.
    assert (S : forall l j, nth j l 0 = get l j) by reflexivity.
    unfold sub3, toV3. rewrite !S. clear S. set (mw := mulv (tr3 C) w). clearbody mw. destruct mw as [b0 b1 b2], xi as [y0 y1 y2]. cbn [a21 a02 a10 add3 scal3 axial v0 v1 v2 ofV3]. unfold get.
    cbn [nth nundef nmul nadd nsub ndiv RNum ofV3 v0 v1 v2]. change (@nZ R RNum 1) with 1. repeat split; f_equal; field; exact Ha0.
  Qed.
End Res.
