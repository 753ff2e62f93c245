(** A crystal loaded elastically (C73). *)
From Coq Require Import List ZArith Bool Lia PeanoNat Reals Lra String.
From Verif Require Import Num Arr NumR Util SlipGeom Eos Hard KinVoce KinKMBalD Elast Evptn MatModel Cases SpecTensor
  SpecElast SpecSlip P_Tensor P_Elast P_Eos P_Sngl P_Sngl2 P_Sngl3 P_Batch P_Batch2 P_Batch3 P_Batch4 P_Api P_Builtin SpecApi P_Hist SpecStress P_Stress
  SpecKin SpecKinApi SpecStep SpecEnergy P_KinV P_Hard P_Kin4 P_Call P_Slip P_SlipH P_Demo P_Demo2 P_Demo3 P_Step P_Step2 P_Step3 P_Energy P_Rest P_Rigid
  P_Rigid2 P_Rigid3 P_Rigid4 P_Demo4 SpecSlow P_Slow P_Demo10 SpecElastic P_Elastic P_Load.
Import ListNotations.
Local Open Scope R_scope.

(** as [d10_m], with the deformation rate 1e-6 diag(-1/2, -1/2, 1) *)
Definition d34_e : R := / 10 ^ 6.
Definition d34_m : Mem R := fun a =>
  match a with
  | AD => [- (d34_e / 2); - (d34_e / 2); d34_e; 0; 0; 0; 0]
  | _ => d4_m [0; 0; 0] a
  end.
Lemma d34_batch hs : batch_ok (d2_c hs) (d2_s hs) false 1 d34_m.
Proof.
  split.
  - rewrite d2_strides. split; [|discriminate]. intros a Ha. destruct a; reflexivity.
  - rewrite d2_strides. intros a i Hi Hp. destruct i as [|i]; [|lia]; destruct a; cbn in *; lia.
Qed.
Lemma d34_rate hs : devRate (d2_s hs) d34_m 0 = mk3 (- (d34_e / 2)) 0 0 0 (- (d34_e / 2)) 0 0 0 d34_e.
Proof. unfold devRate, val. rewrite d2_strides. reflexivity. Qed.
Lemma d34_pos : 0 < d34_e. Proof. unfold d34_e. apply Rinv_0_lt_compat, pow_lt. lra. Qed.
Lemma d34_norm hs : norm3t (devRate (d2_s hs) d34_m 0) <= 2 * d34_e /\ 0 < norm3t (devRate (d2_s hs) d34_m 0).
Proof.
  rewrite d34_rate. pose proof d34_pos as P. set (e := d34_e) in *. clearbody e. unfold norm3t.
  assert (E : inner (mk3 (- (e / 2)) 0 0 0 (- (e / 2)) 0 0 0 e) (mk3 (- (e / 2)) 0 0 0 (- (e / 2)) 0 0 0 e) = 3 / 2 * (e * e)) by (spec3; field).
  rewrite E. split.
  - rewrite <- (sqrt_square (2 * e)) by lra. apply sqrt_le_1_alt. nra.
  - apply sqrt_lt_R0. nra.
Qed.
Lemma pow_thr : Rpower (/ 10 ^ 60) (/ 10) = / 10 ^ 6.
Proof.
  assert (T : 0 < / 10 ^ 6) by (apply Rinv_0_lt_compat, pow_lt; lra).
  replace (/ 10 ^ 60) with (Rpower (/ 10 ^ 6) 10).
  - rewrite Rpower_mult. replace (10 * / 10) with 1 by field. now apply Rpower_1.
  - replace 10 with (INR 10) at 2 by (cbn; lra). rewrite Rpower_pow by assumption. rewrite pow_inv. f_equal. rewrite <- pow_mult. reflexivity.
Qed.
Definition d34_C : M3 := rotq (unit4 (quat (d2_s checked) d34_m 0)).
Lemma resolved_iso (c : MClass R) v e dt C D s m : 0 < v -> p_hooke c demo_pars = hooke_cubic 3 1 1 -> p_ghex c demo_pars = 0 -> dotv s m = 0 ->
  resolved c demo_pars v e (load_strain dt v C D) s m = 2 * dt * inner (cong (tr3 C) D) (outer s m) + (dt * trace (cong (tr3 C) D)) * 0.
Proof.
  intros Hv EH EG H0. unfold resolved, latStress, load_strain. rewrite EH, EG. set (A := cong (tr3 C) D). clearbody A. set (l := ln v). clearbody l.
  unfold basis. set (x := / sqrt 6). clearbody x.
  transitivity (2 * dt * inner A (outer s m) + (dt * trace A + 5 / 3 * l) * dotv s m).
  - clear - Hv. destruct s, m, A. unfold hooke_cubic. spec3. field. lra.
  - rewrite H0. ring.
Qed.
Lemma d34_load md sd : systems checked (d2_c checked) demo_pars md sd ->
  first_load checked (d2_c checked) demo_pars (d2_s checked) d34_m 0 (/ 10) md sd d34_C.
Proof.
  intros HS. pose proof (d4_at_rest checked [0; 0; 0] eq_refl) as (_ & B & G0 & V & Q & F & _).
  pose proof (d34_norm checked) as [N1 N2].
  destruct (unit4_unit (quat (d2_s checked) d34_m 0) eq_refl Q) as [U1 U2].
  unfold first_load. cbv zeta. refine (conj _ (conj B (conj G0 (conj V (conj Q (conj F (conj (d4_spin checked [0; 0; 0] eq_refl) (conj _ _)))))))).
  - rewrite d34_rate. unfold trace. cbn. field.
  - apply rotq_rotates. exact U1.
  - do 3 eexists. split; [apply law_V; [now left|cbn; lra]|]. split; [apply thr_V; now left|]. intros k Hk. cbv beta.
    destruct (in_use_all checked (d2_c checked) (d2_s checked) demo_pars (d2_builtin checked) (d2_in_use checked)) as (_ & HL & _ & sg & kin & hi & E1 & _).
    destruct (systems_data checked (d2_c checked) demo_pars md sd sg HS HL E1) as [_ SL]. destruct SL as [SL _]. destruct (SL k Hk) as (S1 & S2 & S3).
    assert (S3' : dotv (sd k) (md k) = 0) by (rewrite <- S3; unfold dotv; ring).
    rewrite (resolved_iso (d2_c checked) _ _ _ _ _ _ _ V eq_refl eq_refl S3').
    replace (2 * / 10 * inner (cong (tr3 d34_C) (devRate (d2_s checked) d34_m 0)) (outer (sd k) (md k)) + / 10 * trace (cong (tr3 d34_C) (devRate (d2_s checked) d34_m 0)) * 0)
      with (2 * / 10 * inner (cong (tr3 d34_C) (devRate (d2_s checked) d34_m 0)) (outer (sd k) (md k))) by ring.
    change (kin_par (d2_c checked) demo_pars 1) with (/ 10). rewrite pow_thr.
    replace (kept (d2_c checked) demo_pars (strength (d2_s checked) d34_m 0)) with 1
      by (change (kept (d2_c checked) demo_pars (strength (d2_s checked) d34_m 0)) with (strength (d2_s checked) d34_m 0); unfold strength, val; rewrite d2_strides; reflexivity).
    pose proof (inner_bound (cong (tr3 d34_C) (devRate (d2_s checked) d34_m 0)) (outer (sd k) (md k))) as IB.
    assert (OO : inner (outer (sd k) (md k)) (outer (sd k) (md k)) = 1).
    { transitivity (dotv (sd k) (sd k) * dotv (md k) (md k)); [clear; destruct (sd k), (md k); spec3; ring|]. rewrite S1, S2. ring. }
    rewrite OO, Rmult_1_r in IB.
    assert (RT : is_orth (tr3 d34_C)) by (apply orth_tr, (rotq_rot _ U1 U2)).
    rewrite (cong_inner _ _ _ RT) in IB.
    set (y := inner (cong _ _) (outer _ _)) in *. set (nd := devRate (d2_s checked) d34_m 0) in *.
    assert (NN : norm3t nd * norm3t nd = inner nd nd) by (unfold norm3t; apply sqrt_sqrt, inner_nn). rewrite <- NN in IB.
    assert (YB : Rabs y <= norm3t nd).
    { apply Rsqr_incr_0_var; [|left; exact N2]. unfold Rsqr. rewrite Rabs_mult_self. exact IB. }
    rewrite Rabs_mult, (Rabs_pos_eq (2 * / 10)) by lra. unfold d34_e in N1. lra.
Qed.
Definition d34_call : BCall :=
  let s := d2_s checked in call_of (d2_c checked) s (offer (load_x (/ 10) (vNew s d34_m 0) d34_C (devRate s d34_m 0))) noLU false 1 (/ 10) d34_m.
Lemma d34_finds : finds (b_solver d34_call) (load_x (/ 10) (vNew (d2_s checked) d34_m 0) d34_C (devRate (d2_s checked) d34_m 0)).
Proof. apply offer_finds. Qed.
Lemma d34_good : good checked (d2_c checked) d34_call.
Proof.
  destruct (d4_systems checked) as (md & sd & HS). assert (A1 : 0 < / 10) by lra. assert (A0 : 0 <= nth 2 demo_pars 0) by (cbn; lra).
  assert (A2 : forall i, (i < 1)%nat -> first_load checked (d2_c checked) demo_pars (d2_s checked) d34_m i (/ 10) md sd d34_C)
    by (intros i Hi; assert (i = 0%nat) by lia; subst i; now apply d34_load).
  assert (A3 : forall i, (i < 1)%nat -> finds (b_solver d34_call) (load_x (/ 10) (vNew (d2_s checked) d34_m i) d34_C (devRate (d2_s checked) d34_m i)))
    by (intros i Hi; assert (i = 0%nat) by lia; subst i; exact d34_finds).
  exact (load_good checked (d2_c checked) (d2_s checked) demo_pars (d2_builtin checked) (d2_in_use checked) (d2_complete checked) _ noLU 1 (/ 10) d34_m
    (d34_batch checked) md sd HS (d4_pd checked) checked_keeps A1 A0 (fun _ => d34_C) A2 A3).
Qed.
Lemma d34_last : last_at_answer (b_solver d34_call). Proof. apply offer_last. Qed.
Lemma d34_accurate : accurate (b_solver d34_call). Proof. apply offer_accurate. Qed.
Section Result.
  Variables (md sd : nat -> V3).
  Hypothesis HS : systems checked (d2_c checked) demo_pars md sd.
  Let s := d2_s checked. Let m1 := b_m1 d34_call.
  Lemma d34_state : strength s m1 0 = 1 /\ dev_strain s m1 0 = scal3 (Rpower (vNew s d34_m 0) (1 / 3) * / 10) (cong (tr3 d34_C) (devRate s d34_m 0)).
  Proof.
    assert (A1 : 0 < b_dt d34_call) by (cbn; lra). assert (A0 : 0 <= nth 2 demo_pars 0) by (cbn; lra).
    destruct (load_state checked (d2_c checked) d34_call 0 demo_pars d34_good (le_n 1) (d2_in_use checked) md sd HS checked_keeps A1 A0 d34_C (d34_load md sd HS) d34_finds)
      as (K & E & _).
    split; [|exact E]. unfold s, m1. etransitivity; [exact K|]. change (kept (d2_c checked) demo_pars (strength (b_s d34_call) (b_m d34_call) 0)) with (strength (d2_s checked) d34_m 0).
    unfold strength, val. rewrite d2_strides. reflexivity.
  Qed.
  Lemma d34_strained : dev_strain s m1 0 <> Z3.
  Proof.
    destruct d34_state as [_ E]. intros Z. rewrite E in Z. apply scal3_0 in Z; [|apply Rgt_not_eq, Rmult_lt_0_compat; [apply exp_pos|lra]].
    pose proof (d4_at_rest checked [0; 0; 0] eq_refl) as (_ & _ & _ & _ & Q & _). destruct (unit4_unit (quat (d2_s checked) d34_m 0) eq_refl Q) as [U1 U2].
    assert (RT : is_orth (tr3 d34_C)) by (apply orth_tr, (rotq_rot _ U1 U2)).
    pose proof (norm_cong (tr3 d34_C) (devRate s d34_m 0) RT) as N. rewrite Z in N. pose proof (proj2 (d34_norm checked)) as P. fold s in P. rewrite <- N in P.
    unfold norm3t in P. rewrite inner_Zl, sqrt_0 in P. lra.
  Qed.
  Lemma d34_below : stays_below (d2_c checked) demo_pars d34_call 0 md sd (fun _ => 1 * Rpower (/ 10 ^ 60) (kin_par (d2_c checked) demo_pars 1)).
  Proof.
    intros k Hk. destruct (d34_load md sd HS) as (_ & _ & _ & _ & _ & _ & _ & _ & law & ref & thr & _ & HT & HB).
    assert (K1 : kept (d2_c checked) demo_pars (strength (d2_s checked) d34_m 0) = 1)
      by (change (kept (d2_c checked) demo_pars (strength (d2_s checked) d34_m 0)) with (strength (d2_s checked) d34_m 0); unfold strength, val; rewrite d2_strides; reflexivity).
    rewrite K1 in HT.
    assert (ET : thr k = 1 * Rpower (/ 10 ^ 60) (kin_par (d2_c checked) demo_pars 1)).
    { destruct HT as [HD|HD|HD|HD]; [reflexivity|..]; exfalso; apply (f_equal c_kinNP) in HD; discriminate HD. }
    cbv beta. rewrite <- ET.
    refine (eq_ind _ (fun z => Rabs z <= thr k) (HB k Hk) _ _). unfold tau_after. f_equal.
    change (latStrain (b_s d34_call) (b_m1 d34_call) 0 (vNew (b_s d34_call) (b_m d34_call) 0)) with
      (add3 (scal3 (/ Rpower (vNew s d34_m 0) (1 / 3)) (dev_strain s m1 0)) (scal3 (ln (vNew s d34_m 0) / 3) I3)).
    rewrite (proj2 d34_state), scal_cancel by apply exp_pos. reflexivity.
  Qed.
End Result.
