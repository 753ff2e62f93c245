(** Steps without slip (C73). *)
From Coq Require Import List ZArith Bool Lia PeanoNat Reals Lra String.
From Verif Require Import Num Arr NumR Util SlipGeom Eos Hard KinVoce KinKMBalD Elast Evptn MatModel Cases SpecTensor
  SpecElast SpecSlip P_Tensor P_Elast P_Eos P_Sngl P_Sngl2 P_Sngl3 P_Batch P_Batch2 P_Batch3 P_Batch4 P_Api P_Builtin SpecApi P_Hist SpecStress P_Stress
  SpecKin SpecKinApi SpecStep SpecEnergy P_KinV P_Hard P_Kin4 P_Call P_Slip P_SlipH P_Demo P_Demo2 P_Demo3 P_Step P_Step2 P_Step3 P_Energy P_Rest P_Rigid
  P_Rigid2 P_Rigid3 P_Rigid4 SpecElastic.
Import ListNotations.
Local Open Scope R_scope.

Lemma tiny60 : 0 < / 10 ^ 60. Proof. apply Rinv_0_lt_compat, pow_lt. lra. Qed.
Lemma km_rest_law L tau : 0 < l_D L -> Rabs tau <= l_ath L -> km_law L tau = 0.
Proof.
  intros HD H. unfold km_law, km_mag. destruct (Rlt_dec _ _) as [_|N]; [ring|]. exfalso. apply N.
  apply Rle_lt_trans with 0; [|exact tiny60]. apply Rmult_le_reg_r with (l_D L); [assumption|]. unfold Rdiv. rewrite Rmult_assoc, Rinv_l, Rmult_0_l by lra. lra.
Qed.
Lemma voce_rest_law gw xm g tau : 0 < gw -> 0 < g -> (voce_law gw xm g tau = 0 <-> Rabs tau <= g * Rpower (/ 10 ^ 60) xm).
Proof.
  intros Hw Hg.
  assert (Q : Rabs tau / g <= Rpower (/ 10 ^ 60) xm <-> Rabs tau <= g * Rpower (/ 10 ^ 60) xm).
  { set (x := Rpower _ _). split; intros H.
    - apply Rmult_le_reg_r with (/ g); [now apply Rinv_0_lt_compat|]. replace (g * x * / g) with x by (field; lra). exact H.
    - unfold Rdiv. replace x with (g * x * / g) by (field; lra). apply Rmult_le_compat_r; [left; now apply Rinv_0_lt_compat|exact H]. }
  rewrite <- Q. unfold voce_law. destruct (Rle_dec (Rabs tau / g) (Rpower (/ 10 ^ 60) xm)) as [H|H]; [tauto|].
  split; [|intros X; contradiction]. intros E. exfalso.
  assert (T : sgn tau <> 0).
  { unfold sgn. destruct (Rlt_dec tau 0); [lra|]. destruct (Rlt_dec 0 tau); [lra|]. exfalso. apply H. replace tau with 0 by lra.
    rewrite Rabs_R0. unfold Rdiv. rewrite Rmult_0_l. left. apply exp_pos. }
  assert (P : 0 < Rpower (Rabs tau / g) (1 / xm)) by apply exp_pos.
  assert (B : 0 < 10 ^ 45) by (apply pow_lt; lra).
  unfold power_rate in E. destruct (Rle_dec _ _).
  - apply Rmult_integral in E. destruct E as [E|E]; [|lra]. apply Rmult_integral in E. destruct E; lra.
  - apply Rmult_integral in E. destruct E as [E|E]; [contradiction|]. apply Rmult_integral in E. destruct E; lra.
Qed.

Lemma fcc_b_bcc_a hs : cls_FCC_B hs <> cls_BCC_A (T := R) hs.
Proof.
  intros H. apply (f_equal (fun c => match c_kinSet c [0; 0; 0; 1; 0; 0; 0; 0; 0; 0; 0; 0; 0; 0; 0; 0] with Some (k, _) => k_valsOk k 0 0 [0] | None => true end)) in H.
  cbn [cls_FCC_B cls_BCC_A c_kinSet] in H. unfold kinKM, km_ctorOk, km_paramsOk in H. cbn in H. unfold km_valsOk in H. cbn in H.
  replace (0 + 0 * sqrt 0) with 0 in H by ring. unfold Rltb in H. destruct (Rlt_dec 0 0); [lra|]. destruct (Rlt_dec 0 1); [discriminate|lra].
Qed.

Section Law.
  Variables (hs : Solver R) (c : MClass R) (pars : list R) (T h : R) (law : nat -> R -> R) (ref : R) (thr : nat -> R).
  Hypothesis HLaw : slip_law hs c pars T h law ref.
  Hypothesis HT : slip_threshold hs c pars h thr.
  Hypothesis Hh : 0 < h.
  Lemma threshold_law k tau : (k < c_nslip c)%nat -> Rabs tau <= thr k -> law k tau = 0.
  Proof.
    intros Hk H.
    destruct HLaw as [HC HG|HC PO|HC PO|HC PO Q1]; destruct HT as [HD|HD|HD|HD];
      try (exfalso; clear - HC HD; repeat match goal with H : _ \/ _ |- _ => destruct H end; subst c;
           match goal with H : _ = _ |- _ => apply (f_equal c_kinNP) in H; discriminate H end);
      try (exfalso; clear - HC HD; subst c; match goal with H : _ = _ |- _ => apply (f_equal c_sgNP) in H; discriminate H end).
    - now apply voce_rest_law.
    - destruct PO as (_ & _ & _ & _ & _ & _ & _ & _ & _ & P & _). apply km_rest_law; [exact P|]. cbn [km_spec l_ath]. cbn [Nat.add]. rewrite kin_pars_nth by (rewrite HC; cbn; lia). exact H.
    - exfalso. rewrite HC in HD. exact (fcc_b_bcc_a hs HD).
    - exfalso. rewrite HC in HD. exact (fcc_b_bcc_a hs (eq_sym HD)).
    - destruct PO as (_ & _ & _ & _ & _ & _ & _ & _ & _ & P & _). apply km_rest_law; [exact P|]. cbn [km_spec l_ath]. unfold km_strength. cbn [Nat.add].
      rewrite !kin_pars_nth by (rewrite HC; cbn; lia). exact H.
    - assert (k < 24)%nat by (rewrite HC in Hk; exact Hk). pose proof (PO k H0) as (_ & _ & _ & _ & _ & _ & _ & _ & _ & P & _). apply km_rest_law; [exact P|].
      cbn [km_spec l_ath]. unfold km_strength. rewrite !kin_pars_nth by (rewrite HC; cbn; lia). exact H.
  Qed.
  Lemma threshold_sharp k tau : c = cls_FCC_A hs \/ c = cls_FCC_AH hs \/ c = cls_BCC_B hs \/ c = cls_BCC_BH hs -> (k < c_nslip c)%nat ->
    thr k < Rabs tau -> law k tau <> 0.
  Proof.
    intros HV Hk H.
    destruct HLaw as [HC HG|HC PO|HC PO|HC PO Q1]; destruct HT as [HD|HD|HD|HD];
      try (exfalso; clear - HV HC HD; repeat match goal with H : _ \/ _ |- _ => destruct H end; subst c;
           match goal with H : _ = _ |- _ => apply (f_equal c_kinNP) in H; discriminate H end).
    intros E. apply (voce_rest_law _ _ _ _ HG Hh) in E. lra.
  Qed.
End Law.

Section Step.
  Variables (hs : Solver R) (c : MClass R) (b : BCall) (i : nat) (pars : list R).
  Hypothesis G : good hs c b.
  Hypothesis Hi : (i < b_n b)%nat.
  Hypothesis U : in_use c (b_s b) pars.
  Let s := b_s b. Let m := b_m b. Let m1 := b_m1 b.
  Variables (md sd : nat -> V3) (law : nat -> R -> R) (ref : R) (thr : nat -> R).
  Hypothesis HSys : systems hs c pars md sd.
  Hypothesis HLaw : slip_law hs c pars (tKel s m1 i) (strength s m1 i) law ref.
  Hypothesis HT : slip_threshold hs c pars (strength s m1 i) thr.
  Hypothesis Hh : 0 < strength s m1 i.
  Hypothesis HB : stays_below c pars b i md sd thr.
  Hypothesis Hv : 0 < vNew s m i.
  Lemma below_law k : (k < c_nslip c)%nat -> law k (tau_after c pars b i (sd k) (md k)) = 0.
  Proof. intros Hk. exact (threshold_law hs c pars _ _ law ref thr HLaw HT Hh k _ Hk (HB k Hk)). Qed.
  Lemma below_rates : b_mtan b = true \/ last_at_answer (b_solver b) -> forall k, (k < c_nslip c)%nat -> val s m1 AH i (14 + k) = 0.
  Proof. intros HM k Hk. unfold s, m1. rewrite (call_rates hs c b i pars G Hi U md sd law ref HSys HLaw Hv HM k Hk). now apply below_law. Qed.
  Lemma zero_sum n (f : nat -> R) : (forall k, (k < n)%nat -> f k = 0) -> sum n f = 0.
  Proof. intros H. rewrite (sum_ext n f (fun _ => 0) H). clear. induction n; [reflexivity|]. rewrite sum_S, IHn. rops. ring. Qed.
  Lemma below_shear : b_mtan b = true \/ last_at_answer (b_solver b) -> 0 < b_dt b -> val s m1 AH i 0 = 0 /\ val s m1 AH i 1 = val s m AH i 1.
  Proof.
    intros HM Hdt. destruct (call_shear hs c b i G Hi (Rlt_le _ _ Hdt)) as (_ & A2 & A3).
    pose proof (builtin_nH hs c b pars G U) as NH. rewrite NH in A3. change (13 + 1)%nat with 14%nat in A3.
    assert (Z : val s m1 AH i 0 = 0).
    { unfold s, m1. rewrite A3. apply zero_sum. intros k Hk. fold s m1. rewrite below_rates by assumption. apply Rabs_R0. }
    split; [exact Z|]. unfold s, m, m1 in *. rewrite A2, Z. ring.
  Qed.
  Section Solved.
    Hypothesis HA : accurate (b_solver b).
    Hypothesis Hdt : 0 < b_dt b.
    Hypothesis Hq : SpecTensor.norm2 (quat s m i) <> 0.
    Hypothesis Htr : trace (devRate s m i) = 0.
    Let bound := nth 2 pars 0 * rate_scale ref (b_dt b) (devRate s m i).
    Lemma scaled_dev A x y t : 0 < x -> A = scal3 x y -> dev_within y t -> dev_within A (x * t).
    Proof.
      intros Hx -> H k Hk. rewrite inner_scal_l, Rabs_mult, (Rabs_pos_eq x) by lra. apply Rmult_le_compat_l; [lra|]. now apply H.
    Qed.
    Lemma below_step : elastic_step b i bound.
    Proof.
      destruct (call_solves hs c b i pars G Hi U md sd law ref HSys HLaw Hv HA Hdt Hq Htr) as (C0 & C1 & xi & H0 & H1 & H2 & H3 & H4).
      exists C0, C1, xi. split; [exact H0|]. split; [exact H1|]. split; [exact H2|].
      fold s m m1 in H3, H4. fold bound in H3, H4. fold s m m1.
      assert (Pa : 0 < Rpower (vNew s m i) (1 / 3)) by apply exp_pos.
      unfold strain_gap in H3. unfold spin_gap in H4.
      rewrite slip_zero in H3, H4 by (intros; now apply below_law). rewrite sub3_Z in H4. rewrite add3_Z in H3.
      set (a := Rpower (vNew s m i) (1 / 3)) in *. split; [|exact H4].
      refine (scaled_dev _ (a * b_dt b) _ _ _ _ H3); [apply Rmult_lt_0_compat; assumption|].
      unfold erate. generalize (dev_strain s m i), (dev_strain s m1 i), (cong (tr3 C1) (devRate s m i)). clearbody a. clear - Hdt Pa. intros A B D.
      un3. meq; field; split; lra.
    Qed.
    Lemma below_work : 0 <= nth 2 pars 0 -> Rabs (elastic_work c pars b i - end_work b i) <= b_dt b * (bound * abs5 (kirch_after c pars b i)).
    Proof.
      intros Htol.
      destruct (call_solves hs c b i pars G Hi U md sd law ref HSys HLaw Hv HA Hdt Hq Htr) as (C0 & C1 & xi & H0 & H1 & _ & HS & _).
      destruct (call_hooke hs c b i pars G Hi U Hv Hq) as [_ HH]. destruct (HH C1 (or_introl H1)) as [RC DS]. clear HH.
      fold s m m1 in HS, DS. set (K := kirch_after c pars b i). set (a := Rpower (vNew s m i) (1 / 3)) in *.
      set (g := fun k => law k (tau_after c pars b i (sd k) (md k))) in *.
      pose proof (gap_inner (b_dt b) a (dev_strain s m i) (dev_strain s m1 i) C1 (devRate s m i) (c_nslip c) sd md g K) as GI.
      assert (Pa : 0 < a) by apply exp_pos. specialize (GI ltac:(lra) ltac:(lra) (kirch_sym c pars b i)).
      assert (HDev : is_dev (devRate s m i)) by (split; [reflexivity|exact Htr]).
      assert (GD : is_dev (strain_gap (b_dt b) a (dev_strain s m i) (dev_strain s m1 i) C1 (devRate s m i) (c_nslip c) sd md g)).
      { unfold strain_gap. apply dev_sub; [apply dev_add|].
        - apply dev_scal. unfold erate. apply dev_scal, dev_sub; apply dev_strain_dev.
        - apply dev_slip. intros k Hk. apply dev_symp. apply (sys_legal hs c b pars G U md sd HSys). exact Hk.
        - apply cong_dev; [apply orth_tr; apply RC|exact HDev]. }
      assert (Hbd : 0 <= bound).
      { apply Rmult_le_pos; [assumption|]. left. apply rate_scale_pos; [exact (law_ref _ _ _ _ _ _ _ HLaw)|assumption]. }
      pose proof (gap_bound _ K _ GD Hbd HS) as GB.
      assert (EW : b_dt b * inner (cong C1 K) (devRate s m i) = end_work b i).
      { unfold end_work. fold s m m1. rewrite DS. f_equal. rewrite <- dev3_cong by apply RC. rewrite dev_inner by exact HDev.
        unfold K, kirch_after. fold s m m1. rewrite SpecTensor.cong_scal, inner_scal_l. reflexivity. }
      assert (EE : inner K (scal3 (/ a) (sub3 (dev_strain s m1 i) (dev_strain s m i))) = elastic_work c pars b i) by reflexivity.
      rewrite EW, EE in GI.
      rewrite (zero_sum (c_nslip c) (fun k => g k * inner K (outer (sd k) (md k)))) in GI
        by (intros k Hk; unfold g; rewrite below_law by assumption; ring).
      set (X := inner (strain_gap _ _ _ _ _ _ _ _ _ _) K) in *.
      match goal with |- Rabs ?z <= _ => replace z with (b_dt b * X) by lra end.
      rewrite Rabs_mult, (Rabs_pos_eq (b_dt b)) by lra. apply Rmult_le_compat_l; [lra|exact GB].
    Qed.
  End Solved.
  Lemma below_flow : b_mtan b = true \/ last_at_answer (b_solver b) -> trace (devRate s m i) = 0 ->
    / 10 ^ 90 < sqrt (2 / 3) * norm3t (devRate s m i) -> val s m1 AH i 2 = 0.
  Proof.
    intros HM Htr HD. pose proof (call_flow hs c b i pars G Hi U md sd law ref HSys HLaw Hv HM Htr HD) as F. fold s m m1 in F.
    rewrite (zero_sum (c_nslip c)) in F by (intros k Hk; rewrite below_rates by assumption; ring).
    assert (0 < / 10 ^ 90) by (apply Rinv_0_lt_compat, pow_lt; lra).
    apply Rmult_integral in F. destruct F as [F|F]; [lra|]. apply Rmult_integral in F. destruct F as [F|F]; [exact F|lra].
  Qed.
  (** the next call finds no slip, so the strength stays *)
  Lemma quiet_strength T' law' ref' : keeps_solution hs -> 0 < strength s m i -> slip_law hs c pars T' (kept c pars (strength s m i)) law' ref' ->
    (forall k, (k < c_nslip c)%nat -> val s m AH i (14 + k) = 0) -> strength s m1 i = kept c pars (strength s m i).
  Proof.
    intros HKh Hs HL' HG.
    destruct (call_parts hs c b i pars G Hi U) as (sg & kin & hi & h_u & v & nf & gm & E1 & E2 & N1 & N2 & K & HL & _). cbv zeta in *.
    destruct (rest_hard hs c pars _ (strength s m i) law' ref' kin hi (b_dt b) (slip_rates c s m i) HL' HL E2 HKh Hs) as ((nh & F1) & _).
    { unfold slip_rates. now rewrite map_length, seq_length. }
    { intros k Hk. change (slip_rates c s m i) with (tab (c_nslip c) (fun k => val s m AH i (14 + k))). rewrite get_tab by assumption. now apply HG. }
    destruct (call_hard hs c b i pars G Hi U) as (kin' & hi' & n' & E2' & E3').
    rewrite E2 in E2'. apply (f_equal (option_map fst)) in E2'. cbn [option_map fst] in E2'. apply some_inj in E2'. subst kin'.
    change (old_rates c b i) with (slip_rates c s m i) in E3'. change (val (b_s b) (b_m b) AH i 13) with (strength s m i) in E3'. rewrite F1 in E3'.
    apply (f_equal (option_map fst)) in E3'. cbn [option_map fst] in E3'. apply some_inj in E3'. change (val (b_s b) (b_m1 b) AH i 13) with (strength s m1 i) in E3'. congruence.
  Qed.
End Step.

Lemma kept_kept c pars h : kept c pars (kept c pars h) = kept c pars h.
Proof.
  unfold kept. destruct (Nat.leb 14 (c_kinNP c)); [|reflexivity]. unfold km_old. set (x := / 10 ^ 4 * _). clearbody x. unfold Rmax.
  destruct (Rle_dec h x) as [H|H]; [destruct (Rle_dec x x); reflexivity|]. destruct (Rle_dec h x); [contradiction|reflexivity].
Qed.
Lemma kept_pos c pars h : 0 < h -> 0 < kept c pars h.
Proof. intros H. unfold kept. destruct (Nat.leb _ _); [|assumption]. unfold km_old. apply Rlt_le_trans with h; [assumption|apply Rmax_l]. Qed.

Section History.
  Variables (hs : Solver R) (c : MClass R) (i : nat) (pars : list R) (md sd : nat -> V3) (thr : nat -> R) (hk : R).
  Hypothesis HK : keeps_solution hs.
  Hypothesis HSys : systems hs c pars md sd.
  Hypothesis HT : slip_threshold hs c pars hk thr.
  Definition quiet_call (b : BCall) : Prop := in_use c (b_s b) pars /\ 0 < b_dt b /\ 0 < vNew (b_s b) (b_m b) i /\
    (b_mtan b = true \/ last_at_answer (b_solver b)) /\ (exists law ref, slip_law hs c pars (tKel (b_s b) (b_m1 b) i) hk law ref) /\
    stays_below c pars b i md sd thr.
  Lemma quiet_one b : good hs c b -> (i < b_n b)%nat -> quiet_call b -> 0 < strength (b_s b) (b_m b) i -> kept c pars (strength (b_s b) (b_m b) i) = hk ->
    (forall k, (k < c_nslip c)%nat -> val (b_s b) (b_m b) AH i (14 + k) = 0) ->
    strength (b_s b) (b_m1 b) i = hk /\ (forall k, (k < c_nslip c)%nat -> val (b_s b) (b_m1 b) AH i (14 + k) = 0) /\
    val (b_s b) (b_m1 b) AH i 0 = 0 /\ val (b_s b) (b_m1 b) AH i 1 = val (b_s b) (b_m b) AH i 1.
  Proof.
    intros G Hi (U & Hdt & Hv & HM & (law & ref & HL) & HB) Hs Ek HG.
    assert (E : strength (b_s b) (b_m1 b) i = hk).
    { rewrite <- Ek in HL |- *. exact (quiet_strength hs c b i pars G Hi U _ law ref HK Hs HL HG). }
    split; [exact E|]. rewrite <- E in HL. pose proof HT as HT'. rewrite <- E in HT'.
    assert (Hh : 0 < strength (b_s b) (b_m1 b) i) by (rewrite E, <- Ek; now apply kept_pos).
    split; [exact (below_rates hs c b i pars G Hi U md sd law ref thr HSys HL HT' Hh HB Hv HM)|].
    exact (below_shear hs c b i pars G Hi U md sd law ref thr HSys HL HT' Hh HB Hv HM Hdt).
  Qed.
  Lemma quiet_chain : forall l b0, chain hs c [AH] (b0 :: l) -> (i < b_n b0)%nat -> 0 < strength (b_s b0) (b_m b0) i ->
    kept c pars (strength (b_s b0) (b_m b0) i) = hk -> (forall k, (k < c_nslip c)%nat -> val (b_s b0) (b_m b0) AH i (14 + k) = 0) ->
    (forall b, In b (b0 :: l) -> quiet_call b) ->
    forall b, In b (b0 :: l) -> strength (b_s b) (b_m1 b) i = hk /\ (forall k, (k < c_nslip c)%nat -> val (b_s b) (b_m1 b) AH i (14 + k) = 0) /\
      val (b_s b) (b_m1 b) AH i 0 = 0 /\ val (b_s b) (b_m1 b) AH i 1 = val (b_s b0) (b_m b0) AH i 1.
  Proof.
    induction l as [|b1 l IH]; intros b0 (HG & HF & HC) Hi Hs Ek HZ HQ b HI;
      pose proof (quiet_one b0 HG Hi (HQ b0 (or_introl eq_refl)) Hs Ek HZ) as (A1 & A2 & A3 & A4);
      (destruct HI as [<-|HI]; [exact (conj A1 (conj A2 (conj A3 A4)))|]); [destruct HI|].
    destruct HF as (F1 & F2 & F3). pose proof (F3 AH (or_introl eq_refl)) as FA.
    assert (ES : strength (b_s b1) (b_m b1) i = hk) by (rewrite <- A1; apply (val_eq (b_s b0) (b_s b1) (b_m1 b0) (b_m b1) AH i 13 F1 FA)).
    assert (Pk : 0 < hk) by (rewrite <- Ek; now apply kept_pos).
    destruct (IH b1 HC) with (b := b) as (B1 & B2 & B3 & B4).
    - lia.
    - now rewrite ES.
    - rewrite ES, <- Ek. apply kept_kept.
    - intros k Hk. rewrite (val_eq (b_s b0) (b_s b1) (b_m1 b0) (b_m b1) AH i _ F1 FA). now apply A2.
    - intros b' Hb'. apply HQ. now right.
    - exact HI.
    - refine (conj B1 (conj B2 (conj B3 _))). rewrite B4, (val_eq (b_s b0) (b_s b1) (b_m1 b0) (b_m b1) AH i 1 F1 FA). exact A4.
  Qed.
End History.
