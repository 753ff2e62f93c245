(** A crystal that is not deformed: elastic energy decays, rest and rigid spin (C23, C24, C47). *)
From Coq Require Import List ZArith Bool Lia PeanoNat Reals Lra String.
From Verif Require Import Num Arr NumR Util SlipGeom Eos Hard KinVoce KinKMBalD Elast Evptn MatModel Cases SpecTensor
  SpecElast SpecSlip P_Tensor P_Elast P_Eos P_Sngl P_Sngl2 P_Sngl3 P_Batch P_Batch2 P_Batch3 P_Batch4 P_Api P_Builtin SpecApi P_Hist SpecStress P_Stress
  SpecKin SpecKinApi SpecStep SpecEnergy P_KinV P_Kin4 P_Call P_Slip P_SlipH P_Demo P_Step P_Step2 P_Step3 P_Energy.
Import ListNotations.
Local Open Scope R_scope.

Lemma inner_nn A : 0 <= inner A A.
Proof.
  destruct A as [x0 x1 x2 x3 x4 x5 x6 x7 x8]. unfold inner. cbn [a00 a01 a02 a10 a11 a12 a20 a21 a22].
  pose proof (Rle_0_sqr x0). pose proof (Rle_0_sqr x1). pose proof (Rle_0_sqr x2). pose proof (Rle_0_sqr x3). pose proof (Rle_0_sqr x4).
  pose proof (Rle_0_sqr x5). pose proof (Rle_0_sqr x6). pose proof (Rle_0_sqr x7). pose proof (Rle_0_sqr x8). unfold Rsqr in *. lra.
Qed.
Lemma inner_self0 A : inner A A = 0 -> A = Z3.
Proof.
  destruct A as [x0 x1 x2 x3 x4 x5 x6 x7 x8]. unfold inner. cbn [a00 a01 a02 a10 a11 a12 a20 a21 a22]. intros E.
  pose proof (Rle_0_sqr x0). pose proof (Rle_0_sqr x1). pose proof (Rle_0_sqr x2). pose proof (Rle_0_sqr x3). pose proof (Rle_0_sqr x4).
  pose proof (Rle_0_sqr x5). pose proof (Rle_0_sqr x6). pose proof (Rle_0_sqr x7). pose proof (Rle_0_sqr x8). unfold Rsqr in *.
  assert (Q : forall x, x * x = 0 -> x = 0) by (intros x Hx; apply Rmult_integral in Hx; destruct Hx; assumption).
  unfold Z3. apply mk3_eq; apply Q; lra.
Qed.
Lemma diff_scal x A B : sub3 (scal3 x A) (scal3 x B) = scal3 x (sub3 A B). Proof. un3. meq; ring. Qed.
Lemma split_alg v A B C g : v <> 0 ->
  scal3 v (add3 (scal3 (/ v) (add3 A B)) (scal3 g C)) = add3 A (scal3 v (add3 (scal3 (/ v) B) (scal3 g C))).
Proof. intros H. un3. meq; field; assumption. Qed.
Lemma inner_sub4 A B C D : inner (sub3 A B) (sub3 C D) = inner A C - inner A D - inner B C + inner B D. Proof. un3. ring. Qed.
Lemma inner_subr A C D : inner A (sub3 C D) = inner C A - inner D A. Proof. un3. ring. Qed.

Section CR.
  Variables (hs : Solver R) (c : MClass R) (b : BCall) (i : nat) (pars : list R).
  Hypothesis G : good hs c b.
  Hypothesis Hi : (i < b_n b)%nat.
  Hypothesis U : in_use c (b_s b) pars.
  Let s := b_s b. Let m := b_m b. Let m1 := b_m1 b.
  Variables (md sd : nat -> V3) (law : nat -> R -> R) (ref : R).
  Hypothesis HSys : systems hs c pars md sd.
  Hypothesis HLaw : slip_law hs c pars (tKel s m1 i) (strength s m1 i) law ref.
  Hypothesis Hv : 0 < vNew s m i.
  Hypothesis HA : accurate (b_solver b).
  Hypothesis Hdt : 0 < b_dt b.
  Hypothesis Hq : SpecTensor.norm2 (quat s m i) <> 0.
  Hypothesis HD : devRate s m i = Z3.
  Hypothesis Htol : 0 <= nth 2 pars 0.
  Let e1 := eInt s m i - delv s m i * pres s m i.
  Hypothesis HU : unloaded c pars (vNew s m i) e1.
  Let K := kirch_after c pars b i.
  Let v := vNew s m i.
  Let a := Rpower v (1 / 3).
  Let F0 := scal3 (/ a) (dev_strain s m i).
  Let F1 := scal3 (/ a) (dev_strain s m1 i).
  Let err := b_dt b * (nth 2 pars 0 * rate_scale ref (b_dt b) (devRate s m i) * abs5 K).
  Lemma HT0 : trace (devRate s m i) = 0. Proof. rewrite HD. spec3. ring. Qed.

  (** without deformation the Kirchhoff stress is Hooke's law of the shape change, up to pressure *)
  Lemma kirch_split : exists x, is_sym x /\ K = add3 (p_hooke c pars F1) x /\ dev3 x = Z3.
  Proof.
    exists (scal3 v (latStress c pars v e1 (scal3 (ln v / 3) I3))). split; [|split; [|exact HU]].
    - apply sym_scal, latStress_sym, sym_scal. reflexivity.
    - unfold K, kirch_after. fold s m m1. fold v. fold e1. unfold latStress, latStrain. fold a.
      change (ten5 (map (fun k => val s m1 AH i (4 + k)) [0; 1; 2; 3; 4]%nat)) with (dev_strain s m1 i). fold F1.
      rewrite hooke_lin. assert (v <> 0) by (unfold v; lra).
      apply split_alg. assumption.
  Qed.
  Lemma kirch_inner E : is_dev E -> inner K E = inner (p_hooke c pars F1) E.
  Proof.
    intros HE. destruct kirch_split as (x & _ & -> & Hx). rewrite inner_add_l. rewrite <- (dev_inner x E HE), Hx, inner_Zl. ring.
  Qed.
  Lemma kirch_abs5 : abs5 K = abs5 (p_hooke c pars F1).
  Proof. unfold abs5. f_equal. apply map_ext_in. intros k Hk. apply in_seq in Hk. rewrite kirch_inner by (apply basis_dev; lia). reflexivity. Qed.
  Lemma F_dev : is_dev F0 /\ is_dev F1.
  Proof. split; apply dev_scal, dev_strain_dev. Qed.
  Lemma relax_inner : inner (p_hooke c pars F1) (sub3 F1 F0) <= err.
  Proof.
    destruct (work_bound hs c b i pars G Hi U md sd law ref HSys HLaw Hv HA Hdt Hq HT0 Htol) as [W _].
    assert (EW : end_work b i = 0). { unfold end_work. fold s m m1. rewrite HD, inner_Zr. ring. }
    rewrite EW, Rplus_0_l in W. fold s m in W.
    assert (EE : elastic_work c pars b i = inner (p_hooke c pars F1) (sub3 F1 F0)).
    { unfold elastic_work. fold K s m m1. fold v. fold a.
      replace (scal3 (/ a) (sub3 (dev_strain s m1 i) (dev_strain s m i))) with (sub3 F1 F0).
      - apply kirch_inner. apply dev_sub; apply F_dev.
      - unfold F1, F0. apply diff_scal. }
    rewrite EE in W. unfold err. exact W.
  Qed.

  Hypothesis HP : pos_def (p_hooke c pars).
  Lemma pd_nonneg A : is_sym A -> 0 <= inner A (p_hooke c pars A).
  Proof.
    intros H. destruct (Req_dec (inner A A) 0) as [E|E].
    - apply inner_self0 in E. subst A. rewrite inner_Zl. lra.
    - left. apply HP; [assumption|]. intros ->. apply E. apply inner_Zl.
  Qed.
  Lemma relax_energy : elastic_energy c pars v (dev_strain s m1 i) <= elastic_energy c pars v (dev_strain s m i) + err.
  Proof.
    unfold elastic_energy. fold a. fold F0 F1. pose proof relax_inner as R. destruct F_dev as [D0 D1].
    pose proof (pd_nonneg (sub3 F1 F0) (proj1 (dev_sub _ _ D1 D0))) as P.
    pose proof (hooke_energy c pars F0 F1 (proj1 D0) (proj1 D1)) as SY.
    assert (E : p_hooke c pars (sub3 F1 F0) = sub3 (p_hooke c pars F1) (p_hooke c pars F0)).
    { unfold sub3. rewrite hooke_lin, hooke_scal. reflexivity. }
    rewrite E in P. clear E.
    pose proof (inner_sub4 F1 F0 (p_hooke c pars F1) (p_hooke c pars F0)) as X1. pose proof (inner_subr (p_hooke c pars F1) F1 F0) as X2.
    rewrite X1 in P. rewrite X2 in R. rewrite (inner_comm (p_hooke c pars F0) F1) in SY. lra.
  Qed.

  (** start from a stress-free crystal *)
  Hypothesis HE0 : dev_strain s m i = Z3.
  Lemma rest_bound lam Lam : 0 < lam -> 0 <= Lam -> (forall A, is_dev A -> lam * inner A A <= inner A (p_hooke c pars A)) ->
    (forall A, is_dev A -> abs5 (p_hooke c pars A) <= Lam * norm3t A) ->
    norm3t F1 <= b_dt b * (nth 2 pars 0 * rate_scale ref (b_dt b) (devRate s m i)) * (Lam / lam).
  Proof.
    intros Hl HL0 HL HB. pose proof relax_inner as R. unfold err in R. rewrite kirch_abs5 in R.
    assert (E0 : F0 = Z3) by (unfold F0; rewrite HE0; apply scal3_Z). rewrite E0, sub3_Z in R.
    destruct F_dev as [_ D1]. specialize (HL F1 D1). specialize (HB F1 D1). rewrite inner_comm in R.
    set (B := nth 2 pars 0 * rate_scale ref (b_dt b) (devRate s m i)) in *.
    assert (B0 : 0 <= B). { apply Rmult_le_pos; [assumption|]. left. apply rate_scale_pos; [exact (law_ref _ _ _ _ _ _ _ HLaw)|assumption]. }
    assert (N : norm3t F1 * norm3t F1 = inner F1 F1).
    { unfold norm3t. apply sqrt_sqrt, inner_nn. }
    assert (N0 : 0 <= norm3t F1) by apply sqrt_pos.
    set (x := norm3t F1) in *. rewrite <- N in HL. clearbody x B.
    assert (H : lam * (x * x) <= b_dt b * (B * (Lam * x))).
    { eapply Rle_trans; [exact HL|]. eapply Rle_trans; [exact R|]. apply Rmult_le_compat_l; [lra|]. apply Rmult_le_compat_l; assumption. }
    destruct (Req_dec x 0) as [->|Hx].
    - repeat apply Rmult_le_pos; try lra. left. now apply Rinv_0_lt_compat.
    - assert (0 < x) by lra. apply Rmult_le_reg_r with (r := lam * x); [apply Rmult_lt_0_compat; lra|].
      replace (b_dt b * B * (Lam / lam) * (lam * x)) with (b_dt b * (B * (Lam * x))) by (field; lra). lra.
  Qed.

  (** exact solution *)
  Hypothesis Hex : nth 2 pars 0 = 0.
  Lemma rest_strain : dev_strain s m1 i = Z3.
  Proof.
    pose proof relax_inner as R. unfold err in R. rewrite Hex, !Rmult_0_l, Rmult_0_r in R.
    assert (E0 : F0 = Z3) by (unfold F0; rewrite HE0; apply scal3_Z). rewrite E0, sub3_Z, inner_comm in R.
    destruct F_dev as [_ D1]. pose proof (HP F1 (proj1 D1)) as P.
    assert (E1 : F1 = Z3).
    { destruct (Req_dec (inner F1 F1) 0) as [E|E]; [now apply inner_self0|]. exfalso.
      assert (F1 <> Z3) by (intros X; apply E; rewrite X; apply inner_Zl). specialize (P H). lra. }
    apply scal3_0 in E1; [exact E1|]. apply Rinv_neq_0_compat, Rgt_not_eq, exp_pos.
  Qed.
  Lemma rest_stress : devStress s m1 i = Z3.
  Proof.
    destruct (call_hooke hs c b i pars G Hi U Hv Hq) as [[C HC] HH]. destruct (HH C (or_introl HC)) as [RC DS]. fold s m m1 in DS. rewrite DS.
    destruct kirch_split as (x & _ & EK & Hx).
    assert (E1 : F1 = Z3) by (unfold F1; rewrite rest_strain; apply scal3_Z).
    assert (EZ : p_hooke c pars Z3 = Z3). { rewrite <- (scal3_Z 0) at 1. rewrite hooke_scal. generalize (p_hooke c pars Z3). intros A. clear. un3. meq; ring. }
    rewrite E1, EZ in EK. rewrite add3_Zl in EK. subst x. unfold K, kirch_after in Hx. fold s m m1 in Hx. rewrite dev3_scal in Hx.
    apply scal3_0 in Hx; [|apply Rgt_not_eq; exact Hv]. fold e1 in Hx |- *. etransitivity; [apply f_equal; exact Hx|]. apply cong_Z.
  Qed.
  Lemma rest_tau k : (k < c_nslip c)%nat -> tau_after c pars b i (sd k) (md k) = 0.
  Proof.
    intros Hk. change (inner K (outer (sd k) (md k)) = 0).
    rewrite inner_comm, <- (symp_inner (outer (sd k) (md k)) K) by apply kirch_sym. rewrite inner_comm, kirch_inner.
    - assert (E1 : F1 = Z3) by (unfold F1; rewrite rest_strain; apply scal3_Z).
      assert (EZ : p_hooke c pars Z3 = Z3). { rewrite <- (scal3_Z 0) at 1. rewrite hooke_scal. generalize (p_hooke c pars Z3). intros A. clear. un3. meq; ring. }
      rewrite E1, EZ. apply inner_Zl.
    - apply dev_symp. apply (sys_legal hs c b pars G U md sd HSys). exact Hk.
  Qed.
  Lemma rest_spin C0 : / 10 ^ 90 < norm3 (scalv (b_dt b) (spin s m i)) \/ scalv (b_dt b) (spin s m i) = mkV 0 0 0 ->
    rotates (unit4 (quat s m i)) C0 -> rotates (quat s m1 i) (mul3 (turn (scalv (b_dt b) (spin s m i))) C0).
  Proof.
    intros HW H0. destruct (call_solves hs c b i pars G Hi U md sd law ref HSys HLaw Hv HA Hdt Hq HT0) as (C0' & C1 & xi & H0' & H1 & EC & _ & HS).
    fold s m m1 in H0', H1, HS.
    apply rotates_rotq in H0, H0'; try reflexivity. rewrite <- H0 in H0'. subst C0'.
    rewrite rest_strain, HE0 in HS. rewrite Hex, Rmult_0_l, Rmult_0_r in HS.
    assert (EG : spin_gap (b_dt b) (Rpower (vNew s m i) (1 / 3)) Z3 Z3 C1 (spin s m i) xi (c_nslip c) sd md (fun k => law k (tau_after c pars b i (sd k) (md k)))
                 = sub3 (axial xi) (scal3 (b_dt b) (cong (tr3 C1) (axial (spin s m i))))).
    { unfold spin_gap. rewrite slip_zero.
      - assert (ER : erate (b_dt b) Z3 Z3 = Z3) by (unfold erate; rewrite sub3_Z; apply scal3_Z). rewrite ER.
        assert (EQ : commutator Z3 Z3 = Z3) by (unfold commutator; rewrite mul3_Z, sub3_Z; reflexivity). rewrite EQ, scal3_Z, sub3_Z, add3_Z. reflexivity.
      - intros k Hk. rewrite rest_tau by assumption. apply (law_zero _ _ _ _ _ _ _ HLaw). }
    rewrite EG in HS. clear EG. destruct HS as (S1 & S2 & S3).
    assert (RC0 : is_rot C0).
    { rewrite H0. apply rotq_rot; [reflexivity|]. rewrite <- normalize_unit4 by reflexivity. apply P_Sngl2.normalize_unit; [reflexivity|exact Hq]. }
    assert (R1 : is_rot C1) by (rewrite EC; apply rot_mul; [assumption|apply turn_rot]).
    assert (EX : axial xi = scal3 (b_dt b) (cong (tr3 C1) (axial (spin s m i)))).
    { rewrite cong_axial in * by now apply rot_tr. set (u := mulv (tr3 C1) (spin s m i)) in *. clearbody u. clear - S1 S2 S3.
      assert (Q : forall x, Rabs x <= 0 -> x = 0) by (intros x Hx; destruct (Req_dec x 0); [assumption|]; pose proof (Rabs_pos_lt x H); lra).
      apply Q in S1, S2, S3. un3. meq; lra. }
    rewrite EC in EX. pose proof (spin_unique C0 xi (spin s m i) (b_dt b) RC0 HW EX) as SU. rewrite <- SU, <- EC. exact H1.
  Qed.
  Lemma rest_rates : b_mtan b = true \/ last_at_answer (b_solver b) -> forall k, (k < c_nslip c)%nat -> val s m1 AH i (14 + k) = 0.
  Proof.
    intros HL k Hk. unfold s, m1. rewrite (call_rates hs c b i pars G Hi U md sd law ref HSys HLaw Hv HL k Hk).
    rewrite rest_tau by assumption. apply (law_zero _ _ _ _ _ _ _ HLaw).
  Qed.
End CR.
