(** Dissipation inequality of one step and its consequences for an undeformed crystal (C23, C24, C46, C47). *)
From Coq Require Import List ZArith Bool Lia PeanoNat Reals Lra String.
From Verif Require Import Num Arr NumR Util SlipGeom Eos Hard KinVoce KinKMBalD Elast Evptn MatModel Cases SpecTensor
  SpecElast SpecSlip P_Tensor P_Elast P_Eos P_Sngl P_Sngl2 P_Sngl3 P_Batch P_Batch2 P_Batch3 P_Batch4 P_Api P_Builtin SpecApi P_Hist SpecStress P_Stress
  SpecKin SpecKinApi SpecStep SpecEnergy P_KinV P_Kin4 P_Call P_Slip P_SlipH P_Demo P_Step P_Step2 P_Step3.
Import ListNotations.
Local Open Scope R_scope.

Ltac spec3 := cbv beta iota zeta delta [sub3 cong inner trace det3 outer axial dotv crossv mulv mul3 add3 scal3 tr3 I3 Z3 symp skwp dev3
       a00 a01 a02 a10 a11 a12 a20 a21 a22 v0 v1 v2] in *.
Ltac un3 := repeat match goal with A : M3 |- _ => destruct A | x : V3 |- _ => destruct x end; spec3.

Lemma symp_sym A : is_sym (symp A).
Proof. unfold is_sym. un3. meq; ring. Qed.
Lemma symp_inner A B : is_sym B -> inner (symp A) B = inner A B.
Proof. unfold is_sym. intros H. un3. injection H as H1 H2 _ H3 _ _. subst. field. Qed.
Lemma trace_add A B : trace (add3 A B) = trace A + trace B. Proof. un3. ring. Qed.
Lemma trace_scal x A : trace (scal3 x A) = x * trace A. Proof. un3. ring. Qed.
Lemma sym_add A B : is_sym A -> is_sym B -> is_sym (add3 A B).
Proof. unfold is_sym. intros H1 H2. transitivity (add3 (tr3 A) (tr3 B)); [un3; reflexivity|now rewrite H1, H2]. Qed.
Lemma sym_scal x A : is_sym A -> is_sym (scal3 x A).
Proof. unfold is_sym. intros H1. transitivity (scal3 x (tr3 A)); [un3; reflexivity|now rewrite H1]. Qed.
Lemma dev_add A B : is_dev A -> is_dev B -> is_dev (add3 A B).
Proof. intros [H1 H2] [H3 H4]. split; [now apply sym_add|]. rewrite trace_add, H2, H4. ring. Qed.
Lemma dev_scal x A : is_dev A -> is_dev (scal3 x A).
Proof. intros [H1 H2]. split; [now apply sym_scal|]. rewrite trace_scal, H2. ring. Qed.
Lemma dev_sub A B : is_dev A -> is_dev B -> is_dev (sub3 A B).
Proof. intros. unfold sub3. apply dev_add; [assumption|now apply dev_scal]. Qed.
Lemma dev_Z : is_dev Z3. Proof. split; [reflexivity|spec3; ring]. Qed.
Lemma dev_symp s m : dotv m s = 0 -> is_dev (symp (outer s m)).
Proof. intros H. split; [apply symp_sym|]. un3. lra. Qed.
Lemma dev_slip n g f : (forall k, (k < n)%nat -> is_dev (f k)) -> is_dev (slip_sum n g f).
Proof.
  intros H. unfold slip_sum. assert (H' : forall k, In k (seq 0 n) -> is_dev (f k)) by (intros k Hk; apply in_seq in Hk; apply H; lia).
  revert H'. generalize (seq 0 n). intros l. induction l as [|k l IH]; intros H'; cbn [fold_right]; [apply dev_Z|].
  apply dev_add; [apply dev_scal, H'; now left|]. apply IH. intros; apply H'; now right.
Qed.
Lemma slip_sum_inner n g f B : inner (slip_sum n g f) B = sum n (fun k => g k * inner (f k) B).
Proof. apply inner_slip. Qed.
Lemma sum_nonneg n f : (forall k, (k < n)%nat -> 0 <= f k) -> 0 <= sum n f.
Proof.
  induction n as [|n IH]; intros H; [cbn; lra|]. rewrite sum_S. assert (0 <= sum n f) by (apply IH; intros; apply H; lia).
  assert (0 <= f n) by (apply H; lia). rops. lra.
Qed.
Lemma gap_bound A B tol : is_dev A -> 0 <= tol -> dev_within A tol -> Rabs (inner A B) <= tol * abs5 B.
Proof.
  intros HA HT HW. rewrite (inner_comm A B), <- (expand_dev B A HA), sum5. unfold abs5. cbn [map seq fold_right].
  assert (Q : forall k, (k < 5)%nat -> Rabs (inner B (basis k) * inner A (basis k)) <= tol * Rabs (inner B (basis k))).
  { intros k Hk. rewrite Rabs_mult, Rmult_comm. apply Rmult_le_compat_r; [apply Rabs_pos|]. now apply HW. }
  pose proof (Q 0%nat ltac:(lia)). pose proof (Q 1%nat ltac:(lia)). pose proof (Q 2%nat ltac:(lia)). pose proof (Q 3%nat ltac:(lia)). pose proof (Q 4%nat ltac:(lia)).
  set (x0 := inner B (basis 0) * inner A (basis 0)) in *. set (x1 := inner B (basis 1) * inner A (basis 1)) in *.
  set (x2 := inner B (basis 2) * inner A (basis 2)) in *. set (x3 := inner B (basis 3) * inner A (basis 3)) in *. set (x4 := inner B (basis 4) * inner A (basis 4)) in *.
  pose proof (Rabs_triang (x0 + x1 + x2 + x3) x4). pose proof (Rabs_triang (x0 + x1 + x2) x3). pose proof (Rabs_triang (x0 + x1) x2). pose proof (Rabs_triang x0 x1). lra.
Qed.

(** inner product of the strain equation with a symmetric tensor [K] that resolves to [tau k] *)
Lemma gap_inner dt a E0 E1 C D n s m g K : dt <> 0 -> a <> 0 -> is_sym K ->
  dt * inner (strain_gap dt a E0 E1 C D n s m g) K =
  inner K (scal3 (/ a) (sub3 E1 E0)) + dt * sum n (fun k => g k * inner K (outer (s k) (m k))) - dt * inner (cong C K) D.
Proof.
  intros Hd Ha HK. unfold strain_gap, erate. rewrite inner_sub, inner_add_l, !inner_scal_l, slip_sum_inner, inner_scal_r.
  rewrite (inner_comm K (sub3 E1 E0)), (inner_comm (cong (tr3 C) D)), cong_adj.
  rewrite (sum_ext n (fun k => g k * inner (symp (outer (s k) (m k))) K) (fun k => g k * inner K (outer (s k) (m k))))
    by (intros k Hk; rewrite symp_inner by assumption; now rewrite inner_comm).
  field. split; assumption.
Qed.

Lemma dev_inner A B : is_dev B -> inner (dev3 A) B = inner A B.
Proof. intros [_ H]. un3. nra. Qed.
Lemma hooke_lin c pars A B : p_hooke c pars (add3 A B) = add3 (p_hooke c pars A) (p_hooke c pars B).
Proof. unfold p_hooke. destruct (hexagonal c); unfold hooke_hex, hooke_cubic; un3; meq; ring. Qed.
Lemma hooke_scal c pars x A : p_hooke c pars (scal3 x A) = scal3 x (p_hooke c pars A).
Proof. unfold p_hooke. destruct (hexagonal c); unfold hooke_hex, hooke_cubic; un3; meq; ring. Qed.
Lemma hooke_energy c pars : energy_law (p_hooke c pars).
Proof. unfold p_hooke. destruct (hexagonal c); [apply hex_sym|apply cubic_sym]. Qed.
Lemma basis1_sym : is_sym (basis 1).
Proof. unfold is_sym, basis. spec3. meq; ring. Qed.
Lemma latStress_sym c pars v e E : is_sym E -> is_sym (latStress c pars v e E).
Proof. intros H. unfold latStress. apply sym_add; apply sym_scal; [now apply p_hooke_sym|apply basis1_sym]. Qed.
Lemma latStrain_sym s m i v : is_sym (latStrain s m i v).
Proof. unfold latStrain. apply sym_add; apply sym_scal; [apply ten5_dev|reflexivity]. Qed.
Lemma kirch_sym c pars b i : is_sym (kirch_after c pars b i).
Proof. unfold kirch_after. apply sym_scal, latStress_sym, latStrain_sym. Qed.
Lemma dev_strain_dev s m i : is_dev (dev_strain s m i).
Proof. apply ten5_dev. Qed.

Lemma unloaded_cubic c pars v e : hexagonal c = false -> 0 < v -> unloaded c pars v e.
Proof.
  intros H Hv. unfold unloaded, latStress, p_ghex, p_hooke, hooke_cubic. rewrite H. unfold basis. set (x := / sqrt 6). clearbody x. spec3. meq; field; lra.
Qed.
Lemma unloaded_hex c pars e : hexagonal c = true -> nth 9 pars 0 = 0 \/ e = 0 -> unloaded c pars 1 e.
Proof.
  intros H Hg. unfold unloaded, latStress, p_ghex, p_hooke, hooke_hex. rewrite H, ln_1. assert (E : nth 9 pars 0 * e = 0) by (destruct Hg as [->| ->]; ring).
  rewrite E. unfold basis. set (x := / sqrt 6). clearbody x. spec3. meq; field; lra.
Qed.

Section Law.
  Variables (hs : Solver R) (c : MClass R) (pars : list R) (T h : R) (law : nat -> R -> R) (ref : R).
  Hypothesis HLaw : slip_law hs c pars T h law ref.
  Lemma law_pos : forall k t, (k < c_nslip c)%nat -> 0 <= t * law k t.
  Proof.
    intros k t Hk. destruct HLaw as [HC HG|HC PO|HC PO|HC PO Q1].
    - apply law_sign. lra.
    - exact (km_sign false false false false 1 _ 0 _ _ 0 PO t).
    - exact (km_sign true false false false 1 _ 0 _ _ 0 PO t).
    - assert (k < 24)%nat by (rewrite HC in Hk; exact Hk). exact (km_sign true true false false 24 _ 0 _ _ k (PO k H) t).
  Qed.
  Lemma law_zero : forall k, law k 0 = 0.
  Proof.
    intros k. assert (O : forall t, law k (- t) = - law k t).
    { intros t. destruct HLaw as [HC HG|HC PO|HC PO|HC PO Q1]; [apply law_odd|apply km_odd|apply km_odd|apply km_odd]. }
    specialize (O 0). rewrite Ropp_0 in O. lra.
  Qed.
  Lemma law_ref : 0 < ref.
  Proof.
    assert (Q : forall ga p1 n v, km_params_ok ga p1 n (kin_pars c pars) h T v -> 0 < km_ref n (kin_pars c pars) h).
    { intros ga p1 n v (R0 & R1 & R2 & R3 & R4 & R5 & R6 & R7 & R8 & R9 & _). unfold km_ref. pose proof (sqrt_lt_R0 _ R0).
      apply Rplus_lt_0_compat; [apply Rdiv_lt_0_compat|apply Rmult_lt_0_compat]; assumption. }
    destruct HLaw as [HC HG|HC PO|HC PO|HC PO Q1]; [assumption|exact (Q _ _ _ _ PO)|exact (Q _ _ _ _ PO)|exact (Q _ _ _ _ (PO 0%nat ltac:(lia)))].
  Qed.
End Law.

Lemma rate_scale_pos ref dt D : 0 < ref -> 0 < dt -> 0 < rate_scale ref dt D.
Proof. intros H1 H2. exact (proj2 (scale_law ref dt D H1 H2)). Qed.

Section CE.
  Variables (hs : Solver R) (c : MClass R) (b : BCall) (i : nat) (pars : list R).
  Hypothesis G : good hs c b.
  Hypothesis Hi : (i < b_n b)%nat.
  Hypothesis U : in_use c (b_s b) pars.
  Let s := b_s b. Let m := b_m b. Let m1 := b_m1 b.
  Variables (md sd : nat -> V3) (law : nat -> R -> R) (ref : R).
  Hypothesis HSys : systems hs c pars md sd.
  Hypothesis HLaw : slip_law hs c pars (tKel s m1 i) (strength s m1 i) law ref.
  Hypothesis Hv : 0 < vNew s m i.
  Hypothesis HA : accurate (b_solver b).
  Hypothesis Hdt : 0 < b_dt b.
  Hypothesis Hq : SpecTensor.norm2 (quat s m i) <> 0.
  Hypothesis HT : trace (devRate s m i) = 0.
  Hypothesis Htol : 0 <= nth 2 pars 0.
  Let K := kirch_after c pars b i.
  Let a := Rpower (vNew s m i) (1 / 3).
  Let bound := nth 2 pars 0 * rate_scale ref (b_dt b) (devRate s m i).

  Lemma a_pos : 0 < a. Proof. apply exp_pos. Qed.
  Lemma bound_nn : 0 <= bound.
  Proof. apply Rmult_le_pos; [assumption|]. left. apply rate_scale_pos; [exact (law_ref _ _ _ _ _ _ _ HLaw)|assumption]. Qed.
  Lemma sys_legal : legal_systems (c_nslip c) md sd.
  Proof.
    pose proof G as (HB & _). destruct (in_use_all hs c (b_s b) pars HB U) as (HR & HL & _ & sg & kin & hi & E1 & _).
    exact (proj2 (systems_data hs c pars md sd sg HSys HL E1)).
  Qed.
  Lemma work_bound : elastic_work c pars b i <= end_work b i + b_dt b * (bound * abs5 K) /\
    elastic_work c pars b i + b_dt b * sum (c_nslip c) (fun k => law k (tau_after c pars b i (sd k) (md k)) * tau_after c pars b i (sd k) (md k))
      <= end_work b i + b_dt b * (bound * abs5 K).
  Proof.
    destruct (call_solves hs c b i pars G Hi U md sd law ref HSys HLaw Hv HA Hdt Hq HT) as (C0 & C1 & xi & H0 & H1 & _ & HS & _).
    destruct (call_hooke hs c b i pars G Hi U Hv Hq) as [_ HH]. destruct (HH C1 (or_introl H1)) as [RC DS]. clear HH.
    fold s m m1 in HS, DS. fold a in HS.
    set (g := fun k => law k (tau_after c pars b i (sd k) (md k))) in *.
    pose proof (gap_inner (b_dt b) a (dev_strain s m i) (dev_strain s m1 i) C1 (devRate s m i) (c_nslip c) sd md g K) as GI.
    pose proof a_pos as Pa. specialize (GI ltac:(lra) ltac:(lra) (kirch_sym c pars b i)).
    assert (HDev : is_dev (devRate s m i)) by (split; [reflexivity|exact HT]).
    assert (GD : is_dev (strain_gap (b_dt b) a (dev_strain s m i) (dev_strain s m1 i) C1 (devRate s m i) (c_nslip c) sd md g)).
    { unfold strain_gap. apply dev_sub; [apply dev_add|].
      - apply dev_scal. unfold erate. apply dev_scal, dev_sub; apply dev_strain_dev.
      - apply dev_slip. intros k Hk. apply dev_symp. apply sys_legal. exact Hk.
      - apply cong_dev; [apply orth_tr; apply RC|exact HDev]. }
    pose proof (gap_bound _ K _ GD bound_nn HS) as GB.
    assert (EW : b_dt b * inner (cong C1 K) (devRate s m i) = end_work b i).
    { unfold end_work. fold s m m1. rewrite DS. f_equal. rewrite <- dev3_cong by apply RC. rewrite dev_inner by exact HDev.
      unfold K, kirch_after. fold s m m1. rewrite SpecTensor.cong_scal, inner_scal_l. reflexivity. }
    assert (EE : inner K (scal3 (/ a) (sub3 (dev_strain s m1 i) (dev_strain s m i))) = elastic_work c pars b i) by reflexivity.
    rewrite EW, EE in GI.
    assert (ES : sum (c_nslip c) (fun k => g k * inner K (outer (sd k) (md k))) = sum (c_nslip c) (fun k => g k * tau_after c pars b i (sd k) (md k))) by reflexivity.
    rewrite ES in GI.
    assert (SP : 0 <= sum (c_nslip c) (fun k => g k * tau_after c pars b i (sd k) (md k))).
    { apply sum_nonneg. intros k Hk. rewrite Rmult_comm. apply (law_pos _ _ _ _ _ _ _ HLaw); assumption. }
    set (S := sum _ _) in *. set (X := inner (strain_gap _ _ _ _ _ _ _ _ _ _) K) in *.
    assert (X <= bound * abs5 K) by (eapply Rle_trans; [apply Rle_abs|exact GB]).
    assert (b_dt b * X <= b_dt b * (bound * abs5 K)) by (apply Rmult_le_compat_l; lra).
    assert (0 <= b_dt b * S) by (apply Rmult_le_pos; lra).
    split; lra.
  Qed.
End CE.

(** ** tensors *)
Lemma sub3_Z A : sub3 A Z3 = A. Proof. un3. meq; ring. Qed.
Lemma scal3_Z x : scal3 x Z3 = Z3. Proof. spec3. meq; ring. Qed.
Lemma scal3_0 x A : x <> 0 -> scal3 x A = Z3 -> A = Z3.
Proof. intros H E. un3. injection E as E0 E1 E2 E3 E4 E5 E6 E7 E8. meq; (match goal with H' : x * ?y = 0 |- ?y = 0 => apply Rmult_integral in H'; destruct H'; [contradiction|assumption] end). Qed.
Lemma inner_Zr A : inner A Z3 = 0. Proof. un3. ring. Qed.
Lemma inner_Zl A : inner Z3 A = 0. Proof. un3. ring. Qed.
Lemma cong_Z C : cong C Z3 = Z3. Proof. un3. meq; ring. Qed.
Lemma add3_Z A : add3 A Z3 = A. Proof. un3. meq; ring. Qed.
Lemma add3_Zl A : add3 Z3 A = A. Proof. un3. meq; ring. Qed.
Lemma mul3_Z A : mul3 A Z3 = Z3. Proof. un3. meq; ring. Qed.
Lemma mul3_Zl A : mul3 Z3 A = Z3. Proof. un3. meq; ring. Qed.
Lemma dev3_add A B : dev3 (add3 A B) = add3 (dev3 A) (dev3 B). Proof. un3. meq; field. Qed.
Lemma slip_zero n g f : (forall k, (k < n)%nat -> g k = 0) -> slip_sum n g f = Z3.
Proof.
  intros H. unfold slip_sum. assert (H' : forall k, In k (seq 0 n) -> g k = 0) by (intros k Hk; apply in_seq in Hk; apply H; lia).
  revert H'. generalize (seq 0 n). intros l. induction l as [|k l IH]; intros H'; [reflexivity|]. cbn [fold_right].
  rewrite IH by (intros; apply H'; now right). rewrite (H' k) by now left. generalize (f k). intros A. un3. meq; ring.
Qed.
(** rotation vectors *)
Lemma turn_axis xi : / 10 ^ 90 < norm3 xi \/ xi = mkV 0 0 0 -> mulv (turn xi) xi = xi.
Proof.
  intros [H|H].
  - unfold turn. destruct (Rlt_dec _ _) as [_|N]; [|contradiction]. pose proof tiny_pos.
    pose proof (rodrigues_axis (unitv xi) (norm3 xi) (unitv_unit xi ltac:(lra))) as E.
    assert (X : xi = mkV (norm3 xi * v0 (unitv xi)) (norm3 xi * v1 (unitv xi)) (norm3 xi * v2 (unitv xi))).
    { unfold unitv. cbn [v0 v1 v2]. destruct xi as [a b c]. cbn [v0 v1 v2]. meq; field; lra. }
    rewrite X at 3. rewrite mulv_scal. 
    transitivity (let u := mulv (rodrigues (unitv xi) (norm3 xi)) (unitv xi) in mkV (norm3 xi * v0 u) (norm3 xi * v1 u) (norm3 xi * v2 u)); [|rewrite E; symmetry; exact X].
    destruct (unitv xi). reflexivity.
  - subst xi. destruct (turn _). unfold mulv. cbn. meq; ring.
Qed.
Lemma mulv_mul A B w : mulv (mul3 A B) w = mulv A (mulv B w). Proof. un3. meq; ring. Qed.
Lemma mulv_I w : mulv I3 w = w. Proof. un3. meq; ring. Qed.
Lemma mulv_scalv A x w : mulv A (scalv x w) = scalv x (mulv A w). Proof. unfold scalv. un3. meq; ring. Qed.
Lemma norm_mulv A w : is_orth A -> norm3 (mulv A w) = norm3 w.
Proof.
  intros [_ H]. unfold norm3. f_equal. transitivity (dotv w (mulv (mul3 (tr3 A) A) w)); [un3; ring|]. now rewrite H, mulv_I.
Qed.
Lemma rod_cong Q n t : is_rot Q -> mul3 (mul3 Q (rodrigues n t)) (tr3 Q) = rodrigues (mulv Q n) t.
Proof.
  intros HQ. pose proof (cong_axial Q n HQ) as EA. destruct HQ as [[H1 H2] _].
  change (cong Q (rodrigues n t) = rodrigues (mulv Q n) t). unfold rodrigues. rewrite !SpecTensor.cong_add, !SpecTensor.cong_scal, EA.
  assert (EI : cong Q I3 = I3). { unfold cong. rewrite SpecTensor.mul3_1r. exact H1. }
  rewrite EI. f_equal. f_equal. f_equal. un3. meq; ring.
Qed.
Lemma unitv_rot Q xi : is_orth Q -> unitv (mulv Q xi) = mulv Q (unitv xi).
Proof. intros H. unfold unitv. rewrite (norm_mulv Q xi H). set (x := / norm3 xi). clearbody x. clear H. un3. meq; ring. Qed.
(** turning about a vector in the crystal is turning about the rotated vector in the sample *)
Lemma turn_cong Q xi : is_rot Q -> / 10 ^ 90 < norm3 xi \/ xi = mkV 0 0 0 -> mul3 Q (turn xi) = mul3 (turn (mulv Q xi)) Q.
Proof.
  intros HQ H. pose proof HQ as [[H1 H2] _].
  assert (E : mul3 (mul3 Q (turn xi)) (tr3 Q) = turn (mulv Q xi)).
  { unfold turn. rewrite norm_mulv by apply HQ. destruct H as [H|H].
    - destruct (Rlt_dec _ _) as [_|N]; [|contradiction]. rewrite rod_cong, unitv_rot by (assumption || apply HQ). reflexivity.
    - subst xi. rewrite norm3_0. destruct (Rlt_dec _ _) as [N|_]; [pose proof tiny_pos; lra|]. rewrite rod_cong by assumption. rewrite !rodrigues_0. reflexivity. }
  rewrite <- E, !SpecTensor.mul3_assoc, H2, SpecTensor.mul3_1r. reflexivity.
Qed.
Lemma axial_inj u w : axial u = axial w -> u = w.
Proof. destruct u, w. unfold axial. cbn. intros H. injection H as H1 H2 H3 H4 H5 H6. now subst. Qed.
Lemma turn_rot xi : is_rot (turn xi).
Proof. rewrite <- turn_emap. destruct (emap_quat_unit xi) as [A B]. now apply rotq_rot. Qed.
(** the rotation equation of an undeformed crystal has only the expected solution *)
Lemma spin_unique C0 xi w dt : is_rot C0 -> / 10 ^ 90 < norm3 (scalv dt w) \/ scalv dt w = mkV 0 0 0 ->
  axial xi = scal3 dt (cong (tr3 (mul3 C0 (turn xi))) (axial w)) ->
  mul3 C0 (turn xi) = mul3 (turn (scalv dt w)) C0.
Proof.
  intros H0 HW E. pose proof (turn_rot xi) as HX. pose proof (rot_mul C0 (turn xi) H0 HX) as H1.
  rewrite cong_axial in E by now apply rot_tr.
  assert (E' : xi = scalv dt (mulv (tr3 (mul3 C0 (turn xi))) w)).
  { apply axial_inj. rewrite E. unfold scalv. generalize (mulv (tr3 (mul3 C0 (turn xi))) w). intros u. clear. un3. meq; ring. }
  rewrite <- mulv_scalv in E'.
  assert (N : norm3 xi = norm3 (scalv dt w)). { rewrite E' at 1. apply norm_mulv, orth_tr, H1. }
  assert (BX : / 10 ^ 90 < norm3 xi \/ xi = mkV 0 0 0).
  { destruct HW as [HW|HW]; [left; now rewrite N|right]. rewrite E', HW. generalize (tr3 (mul3 C0 (turn xi))). intros A. clear. un3. meq; ring. }
  assert (A1 : mulv (mul3 C0 (turn xi)) xi = scalv dt w).
  { rewrite E' at 2. rewrite <- mulv_mul. destruct H1 as [[H1 _] _]. rewrite H1. apply mulv_I. }
  rewrite mulv_mul, turn_axis in A1 by assumption. rewrite <- A1. apply turn_cong; assumption.
Qed.
