(** A deformation that leads to a given end state (C74). *)
From Coq Require Import List ZArith Bool Lia PeanoNat Reals Lra String.
From Verif Require Import Num Arr NumR Util SlipGeom Eos Hard KinVoce KinKMBalD Elast Evptn MatModel Cases SpecTensor
  SpecElast SpecSlip P_Tensor P_Elast P_Eos P_Sngl P_Sngl2 P_Sngl3 P_Batch P_Batch2 P_Batch3 P_Batch4 P_Api P_Builtin SpecApi P_Hist SpecStress P_Stress
  SpecKin SpecKinApi SpecStep SpecEnergy P_KinV P_Hard P_Kin4 P_Call P_Slip P_SlipH P_Demo P_Demo2 P_Demo3 P_Step P_Step2 P_Step3 P_Energy P_Rest P_Rigid
  P_Rigid2 P_Rigid3 P_Rigid4 SpecElastic P_Elastic P_Load SpecReach P_Reach.
Import ListNotations.
Local Open Scope R_scope.

Definition is_skew (A : M3) : Prop := tr3 A = scal3 (-1) A.
Definition axl (A : M3) : V3 := mkV (a21 A) (a02 A) (a10 A).
Lemma skew_axial A : is_skew A -> axial (axl A) = A.
Proof.
  unfold is_skew, axl, axial, tr3, scal3. destruct A. cbn. intros H. injection H. intros. meq; lra.
Qed.
Lemma axial_skew w : is_skew (axial w). Proof. destruct w. unfold is_skew, axial, tr3, scal3. cbn. meq; ring. Qed.
Lemma skew_add A B : is_skew A -> is_skew B -> is_skew (add3 A B).
Proof. unfold is_skew. intros H K. destruct A, B. unfold tr3, scal3, add3 in *. cbn in *. injection H. injection K. intros. meq; lra. Qed.
Lemma skew_scal y A : is_skew A -> is_skew (scal3 y A).
Proof. unfold is_skew. intros H. destruct A. unfold tr3, scal3 in *. cbn in *. injection H. intros. meq; nra. Qed.
Lemma skew_cong C A : is_skew A -> is_skew (cong C A).
Proof. unfold is_skew, cong. intros H. rewrite !tr3_mul, tr3_tr, H. destruct A, C. unfold mul3, scal3, tr3. cbn. meq; ring. Qed.
Lemma skew_skwp A : is_skew (skwp A).
Proof. destruct A. unfold is_skew, skwp, tr3, scal3, add3. cbn. meq; field. Qed.
Lemma skew_comm A B : is_sym A -> is_sym B -> is_skew (commutator A B).
Proof.
  unfold is_sym, is_skew, commutator, sub3. intros H K. destruct A, B. unfold tr3, scal3, add3, mul3 in *. cbn in *. injection H. injection K. intros. subst. meq; ring.
Qed.
Lemma skew_Z : is_skew Z3. Proof. unfold is_skew, Z3, tr3, scal3. cbn. meq; ring. Qed.
Lemma skew_slip n g f : (forall k, (k < n)%nat -> is_skew (f k)) -> is_skew (slip_sum n g f).
Proof.
  intros H. unfold slip_sum. assert (H' : forall k, In k (seq 0 n) -> is_skew (f k)) by (intros k Hk; apply in_seq in Hk; apply H; lia).
  revert H'. generalize (seq 0 n). intros l. induction l as [|k l IH]; intros H'; [apply skew_Z|]. cbn [fold_right].
  apply skew_add; [apply skew_scal, H'; now left|apply IH; intros; apply H'; now right].
Qed.
Lemma dev_add A B : is_dev A -> is_dev B -> is_dev (add3 A B).
Proof. intros [H1 H2] [K1 K2]. destruct A, B. unfold is_dev, is_sym, tr3, trace, add3 in *. cbn in *. injection H1. injection K1. intros. split; [meq; lra|lra]. Qed.
Lemma dev_scal y A : is_dev A -> is_dev (scal3 y A).
Proof. intros [H1 H2]. destruct A. unfold is_dev, is_sym, tr3, trace, scal3 in *. cbn in *. injection H1. intros. split; [meq; nra|]. replace (y * _ + _ + _) with (y * (a00 + a11 + a22)) by ring. rewrite H2. ring. Qed.
Lemma dev_Z : is_dev Z3. Proof. split; [reflexivity|]. unfold trace. cbn. ring. Qed.
Lemma dev_slip n g f : (forall k, (k < n)%nat -> is_dev (f k)) -> is_dev (slip_sum n g f).
Proof.
  intros H. unfold slip_sum. assert (H' : forall k, In k (seq 0 n) -> is_dev (f k)) by (intros k Hk; apply in_seq in Hk; apply H; lia).
  revert H'. generalize (seq 0 n). intros l. induction l as [|k l IH]; intros H'; [apply dev_Z|]. cbn [fold_right].
  apply dev_add; [apply dev_scal, H'; now left|apply IH; intros; apply H'; now right].
Qed.
Lemma dev_symp s m : dotv m s = 0 -> is_dev (symp (outer s m)).
Proof.
  intros H. destruct s, m. unfold is_dev, is_sym, symp, outer, tr3, trace, scal3, add3, dotv in *. cbn in *. split; [meq; ring|]. lra.
Qed.
Lemma cong_back C A : is_orth C -> cong (tr3 C) (cong C A) = A.
Proof. intros [_ H]. rewrite <- cong_mul, H. apply cong_1. Qed.

Lemma sub_self A : sub3 A A = Z3. Proof. un3. meq; ring. Qed.
Lemma spin_cancel dt (A B K : M3) : dt <> 0 -> sub3 A (scal3 dt (add3 (sub3 (add3 (scal3 (/ dt) A) (sub3 B K)) B) K)) = Z3.
Proof. intros H. un3. meq; field; assumption. Qed.
Section To.
  Variables (dt a : R) (E0 E1 C1 : M3) (xi : V3) (n : nat) (sd md : nat -> V3) (g : nat -> R).
  Hypothesis Hdt : dt <> 0.
  Hypothesis HC : is_orth C1.
  Hypothesis H0 : is_dev E0.
  Hypothesis H1 : is_dev E1.
  Hypothesis HS : forall k, (k < n)%nat -> dotv (md k) (sd k) = 0.
  Lemma dev_erate : is_dev (erate dt E0 E1).
  Proof. unfold erate, sub3. apply dev_scal, dev_add; [assumption|now apply dev_scal]. Qed.
  Lemma rate_to_dev : is_dev (rate_to dt a E0 E1 C1 n sd md g).
  Proof.
    unfold rate_to. apply cong_dev; [assumption|]. apply dev_add; [apply dev_scal, dev_erate|]. apply dev_slip. intros k Hk. apply dev_symp, HS, Hk.
  Qed.
  Lemma rate_to_gap : strain_gap dt a E0 E1 C1 (rate_to dt a E0 E1 C1 n sd md g) n sd md g = Z3.
  Proof. unfold strain_gap, rate_to. rewrite cong_back by assumption. apply sub_self. Qed.
  Lemma spin_to_skew : is_skew (spin_to dt a E0 E1 C1 xi n sd md g).
  Proof.
    unfold spin_to. apply skew_cong, skew_add; [apply skew_scal, axial_skew|]. unfold sub3. apply skew_add.
    - apply skew_slip. intros. apply skew_skwp.
    - apply skew_scal, skew_scal, skew_comm; [apply dev_erate|apply H1].
  Qed.
  Lemma spin_to_gap w : axial w = spin_to dt a E0 E1 C1 xi n sd md g -> spin_gap dt a E0 E1 C1 w xi n sd md g = Z3.
  Proof. intros H. unfold spin_gap. rewrite H. unfold spin_to. rewrite cong_back by assumption. now apply spin_cancel. Qed.
End To.

(** memories that differ in the prescribed deformation only *)
Definition same_but_load (m m' : Mem R) : Prop := forall x, x <> AD -> x <> AW -> m' x = m x.
Section Inputs.
  Variables (hs : Solver R) (c : MClass R) (pars : list R) (s : MM R) (m m' : Mem R) (i : nat) (dt : R) (md sd : nat -> V3) (C0 E1 : M3) (law : nat -> R -> R) (ref : R) (xi : V3).
  Hypothesis HS : same_but_load m m'.
  Lemma load_val x k : x <> AD -> x <> AW -> val s m' x i k = val s m x i k.
  Proof. intros A B. unfold val. now rewrite HS. Qed.
  Lemma load_startable h1 : startable hs c pars s m i dt h1 C0 law ref -> startable hs c pars s m' i dt h1 C0 law ref.
  Proof.
    intros (A1 & A2 & A3 & A4 & A5 & A6).
    assert (Q : quat s m' i = quat s m i) by (unfold quat; cbn [map]; rewrite !load_val by discriminate; reflexivity).
    assert (H : strength s m' i = strength s m i) by (unfold strength; rewrite !load_val by discriminate; reflexivity).
    assert (G : slip_rates c s m' i = slip_rates c s m i) by (unfold slip_rates; apply map_ext; intros k; apply load_val; discriminate).
    assert (V : vNew s m' i = vNew s m i) by (unfold vNew; rewrite !load_val by discriminate; reflexivity).
    assert (F : eInt s m' i = eInt s m i) by (unfold eInt; rewrite !load_val by discriminate; reflexivity).
    unfold startable. rewrite Q, H, V, F, G. exact (conj A1 (conj A2 (conj A3 (conj A4 (conj A5 A6))))).
  Qed.
  Hypothesis Hdt : dt <> 0.
  Hypothesis HQ : norm2 (quat s m i) <> 0.
  Hypothesis HC : rotates (unit4 (quat s m i)) C0.
  Hypothesis HE : is_dev E1.
  Hypothesis HO : forall k, (k < c_nslip c)%nat -> dotv (md k) (sd k) = 0.
  Let a := Rpower (vNew s m i) (1 / 3).
  Let g := end_rate c pars s m i md sd law E1.
  Let C1 := mul3 C0 (turn xi).
  Lemma load_C1 : is_orth C1.
  Proof.
    destruct (unit4_unit (quat s m i) eq_refl HQ) as [U1 U2]. apply orth_mul; [|apply turn_rot].
    rewrite (rotates_rotq _ _ U1 HC). apply (rotq_rot _ U1 U2).
  Qed.
  Lemma load_exact : devRate s m' i = rate_to dt a (dev_strain s m i) E1 C1 (c_nslip c) sd md g ->
    axial (spin s m' i) = spin_to dt a (dev_strain s m i) E1 C1 xi (c_nslip c) sd md g ->
    exact_step c pars s m' i dt md sd C0 law E1 xi.
  Proof.
    intros HD HW.
    assert (V : vNew s m' i = vNew s m i) by (unfold vNew; rewrite !load_val by discriminate; reflexivity).
    assert (F : dev_strain s m' i = dev_strain s m i) by (unfold dev_strain; cbn [map]; rewrite !load_val by discriminate; reflexivity).
    assert (GG : end_rate c pars s m' i md sd law E1 = g).
    { unfold g, end_rate, eInt, delv, pres, vNew. rewrite !load_val by discriminate. reflexivity. }
    pose proof load_C1 as HC1.
    assert (D0 : is_dev (dev_strain s m i)) by apply ten5_dev.
    unfold exact_step. cbv zeta. rewrite V, F, GG. fold a C1. split; [rewrite HD; apply rate_to_dev; assumption|]. split; [assumption|]. split.
    - rewrite HD. now apply rate_to_gap.
    - now apply spin_to_gap.
  Qed.
  Lemma load_inputs : exists D w, is_dev D /\ D = rate_to dt a (dev_strain s m i) E1 C1 (c_nslip c) sd md g /\
    axial w = spin_to dt a (dev_strain s m i) E1 C1 xi (c_nslip c) sd md g.
  Proof.
    pose proof load_C1 as HC1. assert (D0 : is_dev (dev_strain s m i)) by apply ten5_dev.
    exists (rate_to dt a (dev_strain s m i) E1 C1 (c_nslip c) sd md g), (axl (spin_to dt a (dev_strain s m i) E1 C1 xi (c_nslip c) sd md g)).
    split; [now apply rate_to_dev|]. split; [reflexivity|]. apply skew_axial, spin_to_skew; assumption.
  Qed.
End Inputs.

(** the end state determines the deformation *)
Lemma gap_eq A B : sub3 A B = Z3 -> A = B.
Proof. destruct A, B. unfold sub3, add3, scal3, Z3. cbn. intros H. injection H. intros. meq; lra. Qed.
Lemma scal_inj y A B : y <> 0 -> scal3 y A = scal3 y B -> A = B.
Proof. intros Hy. destruct A, B. unfold scal3. cbn. intros H. injection H. intros. meq; (eapply Rmult_eq_reg_l; [eassumption|assumption]). Qed.
Lemma add_inj A B K : add3 A K = add3 B K -> A = B.
Proof. destruct A, B, K. unfold add3. cbn. intros H. injection H. intros. meq; lra. Qed.
Lemma sub_inj A B K : sub3 A K = sub3 B K -> A = B.
Proof. unfold sub3. apply add_inj. Qed.
Lemma cong_inj C A B : is_orth C -> cong (tr3 C) A = cong (tr3 C) B -> A = B.
Proof.
  intros [H _] E. apply (f_equal (cong C)) in E. rewrite <- !cong_mul, H, !cong_1 in E. exact E.
Qed.
Lemma gaps_inj dt a E0 E1 C1 D D' w w' xi n sd md g : dt <> 0 -> is_orth C1 ->
  strain_gap dt a E0 E1 C1 D n sd md g = Z3 -> strain_gap dt a E0 E1 C1 D' n sd md g = Z3 ->
  spin_gap dt a E0 E1 C1 w xi n sd md g = Z3 -> spin_gap dt a E0 E1 C1 w' xi n sd md g = Z3 -> D = D' /\ w = w'.
Proof.
  intros Hdt HC A1 A2 B1 B2. unfold strain_gap, spin_gap in *. apply gap_eq in A1, A2, B1, B2. rewrite A1 in A2. rewrite B1 in B2. split; [exact (cong_inj C1 D D' HC A2)|].
  apply scal_inj in B2; [|exact Hdt]. apply add_inj, sub_inj in B2. apply cong_inj in B2; [|exact HC]. now apply axial_inj.
Qed.
Section Det.
  Variables (c : MClass R) (pars : list R) (s : MM R) (m m' : Mem R) (i : nat) (dt : R) (md sd : nat -> V3) (C0 E1 : M3) (law : nat -> R -> R) (xi : V3).
  Hypothesis HS : same_but_load m m'.
  Hypothesis Hdt : dt <> 0.
  Hypothesis HQ : norm2 (quat s m i) <> 0.
  Hypothesis HC : rotates (unit4 (quat s m i)) C0.
  Lemma load_det : exact_step c pars s m i dt md sd C0 law E1 xi -> exact_step c pars s m' i dt md sd C0 law E1 xi ->
    devRate s m i = devRate s m' i /\ spin s m i = spin s m' i.
  Proof.
    intros (_ & _ & A1 & B1) (_ & _ & A2 & B2). cbv zeta in *.
    assert (V : vNew s m' i = vNew s m i) by (unfold vNew; rewrite !(load_val s m m' i HS) by discriminate; reflexivity).
    assert (F : dev_strain s m' i = dev_strain s m i) by (unfold dev_strain; cbn [map]; rewrite !(load_val s m m' i HS) by discriminate; reflexivity).
    assert (GG : end_rate c pars s m' i md sd law E1 = end_rate c pars s m i md sd law E1).
    { unfold end_rate, eInt, delv, pres, vNew. rewrite !(load_val s m m' i HS) by discriminate. reflexivity. }
    rewrite V, F, GG in A2, B2. exact (gaps_inj _ _ _ _ _ _ _ _ _ _ _ _ _ _ Hdt (load_C1 s m i C0 xi HQ HC) A1 A2 B1 B2).
  Qed.
End Det.
