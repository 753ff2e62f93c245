(** A crystal that slips and turns in its first step (C74). *)
From Coq Require Import List ZArith Bool Lia PeanoNat Reals Lra String.
From Verif Require Import Num Arr NumR Util SlipGeom Eos Hard KinVoce KinKMBalD Elast Evptn MatModel Cases SpecTensor
  SpecElast SpecSlip P_Tensor P_Elast P_Eos P_Sngl P_Sngl2 P_Sngl3 P_Batch P_Batch2 P_Batch3 P_Batch4 P_Api P_Builtin SpecApi P_Hist SpecStress P_Stress
  SpecKin SpecKinApi SpecStep SpecEnergy P_KinV P_Hard P_Kin4 P_Call P_Slip P_SlipH P_Demo P_Demo2 P_Demo3 P_Step P_Step2 P_Step3 P_Energy P_Rest P_Rigid
  P_Rigid2 P_Rigid3 P_Rigid4 P_Demo4 SpecSlow P_Slow P_Demo10 SpecElastic P_Elastic P_Load P_Demo34 SpecReach P_Reach P_Reach2.
Import ListNotations.
Local Open Scope R_scope.

Definition d35_c : MClass R := d2_c checked.
Definition d35_s : MM R := d2_s checked.
Definition d35_m0 : Mem R := d4_m [0; 0; 0].
Definition d35_md (i : nat) : V3 := unitv (cub (fst (nth i sys_fcc d3))).
Definition d35_sd (i : nat) : V3 := unitv (cub (snd (nth i sys_fcc d3))).
Lemma d35_systems : systems checked d35_c demo_pars d35_md d35_sd.
Proof. apply sys_F. now left. Qed.
(** end state: the first system is loaded with the shear stress 1, the lattice has turned by 1/10 about the third axis *)
Definition d35_a : R := Rpower (vNew d35_s d35_m0 0) (1 / 3).
Definition d35_E : M3 := scal3 d35_a (symp (outer (d35_sd 0) (d35_md 0))).
Definition d35_xi : V3 := mkV 0 0 (/ 10).
Definition d35_C : M3 := rotq (unit4 (quat d35_s d35_m0 0)).
Definition d35_law : nat -> R -> R := fun _ => voce_law (kin_par d35_c demo_pars 2) (kin_par d35_c demo_pars 1) (kept d35_c demo_pars (strength d35_s d35_m0 0)).
Definition d35_ref : R := kin_par d35_c demo_pars 2.
Definition d35_g : nat -> R := end_rate d35_c demo_pars d35_s d35_m0 0 d35_md d35_sd d35_law d35_E.
Definition d35_D : M3 := rate_to (/ 10) d35_a (dev_strain d35_s d35_m0 0) d35_E (mul3 d35_C (turn d35_xi)) 12 d35_sd d35_md d35_g.
Definition d35_w : V3 := axl (spin_to (/ 10) d35_a (dev_strain d35_s d35_m0 0) d35_E (mul3 d35_C (turn d35_xi)) d35_xi 12 d35_sd d35_md d35_g).
Definition d35_mem (D : M3) (w : V3) : Mem R := fun a =>
  match a with
  | AD => [a00 D; a11 D; a22 D; a12 D; a02 D; a01 D; 0]
  | AW => [SpecTensor.v0 w; SpecTensor.v1 w; SpecTensor.v2 w]
  | _ => d35_m0 a
  end.
Definition d35_m : Mem R := d35_mem d35_D d35_w.
Lemma mem_batch D w : batch_ok d35_c d35_s false 1 (d35_mem D w).
Proof.
  split.
  - unfold d35_s. rewrite d2_strides. split; [|discriminate]. intros a Ha. destruct a; reflexivity.
  - unfold d35_s. rewrite d2_strides. intros a i Hi Hp. destruct i as [|i]; [|lia]; destruct a; cbn in *; lia.
Qed.
Lemma mem_rate D w : is_dev D -> devRate d35_s (d35_mem D w) 0 = D.
Proof.
  intros [S _]. unfold devRate, sym6, val, d35_s. rewrite d2_strides. cbn. destruct D. unfold is_sym, tr3 in S. cbn in S |- *. injection S. intros. meq; lra.
Qed.
Lemma mem_spin D w : spin d35_s (d35_mem D w) 0 = w.
Proof. unfold spin, val, d35_s. rewrite d2_strides. cbn. destruct w. reflexivity. Qed.
Lemma d35_same : same_but_load d35_m0 d35_m.
Proof. intros x H1 H2. destruct x; try reflexivity; congruence. Qed.
Lemma d35_batch : batch_ok d35_c d35_s false 1 d35_m. Proof. apply mem_batch. Qed.
Definition d35_h : R := kept d35_c demo_pars (strength d35_s d35_m0 0).
Lemma d35_start : startable checked d35_c demo_pars d35_s d35_m0 0 (/ 10) d35_h d35_C d35_law d35_ref.
Proof.
  pose proof (d4_at_rest checked [0; 0; 0] eq_refl) as (_ & B & G0 & V & Q & F & _).
  refine (conj (hard_rest _ _ _ _ _ _ checked_keeps F _) (conj V (conj Q (conj (kept_pos _ _ _ F) (conj _ _))))).
  - intros k Hk. unfold slip_rates. rewrite (nth_indep _ 0 (val d35_s d35_m0 AH 0 (14 + 0))) by (rewrite map_length, seq_length; exact Hk).
    rewrite (map_nth (fun k => val d35_s d35_m0 AH 0 (14 + k))), seq_nth by exact Hk. apply G0. exact Hk.
  - apply rotq_rotates. exact (proj1 (unit4_unit (quat d35_s d35_m0 0) eq_refl Q)).
  - apply law_V; [now left|]. cbn. lra.
Qed.
Lemma d35_legal k : (k < 12)%nat -> dotv (d35_md k) (d35_md k) = 1 /\ dotv (d35_sd k) (d35_sd k) = 1 /\ dotv (d35_md k) (d35_sd k) = 0.
Proof.
  intros Hk. destruct (in_use_all checked d35_c d35_s demo_pars (d2_builtin checked) (d2_in_use checked)) as (_ & HL & _ & sg & kin & hi & E1 & _).
  destruct (systems_data checked d35_c demo_pars d35_md d35_sd sg d35_systems HL E1) as [_ [SL _]]. exact (SL k Hk).
Qed.
Lemma d35_dev : is_dev d35_E.
Proof. apply dev_scal, dev_symp. apply d35_legal. lia. Qed.
Lemma d35_Ddev : is_dev d35_D.
Proof.
  destruct d35_start as (_ & _ & Q & _ & HC & _).
  apply rate_to_dev; [apply (load_C1 d35_s d35_m0 0 d35_C d35_xi Q HC)|apply ten5_dev|apply d35_dev|intros k Hk; apply (d35_legal k Hk)].
Qed.
Lemma d35_rate : devRate d35_s d35_m 0 = d35_D. Proof. apply mem_rate, d35_Ddev. Qed.
Lemma d35_spin : spin d35_s d35_m 0 = d35_w. Proof. apply mem_spin. Qed.
Lemma d35_exact : exact_step d35_c demo_pars d35_s d35_m 0 (/ 10) d35_md d35_sd d35_C d35_law d35_E d35_xi.
Proof.
  destruct d35_start as (_ & _ & Q & _ & HC & _).
  apply (load_exact d35_c demo_pars d35_s d35_m0 d35_m 0 (/ 10) d35_md d35_sd d35_C d35_E d35_law d35_xi d35_same).
  - lra.
  - exact Q.
  - exact HC.
  - exact d35_dev.
  - intros k Hk. apply (d35_legal k Hk).
  - exact d35_rate.
  - rewrite d35_spin. apply skew_axial, spin_to_skew; [apply ten5_dev|apply d35_dev].
Qed.
(** the first system slips *)
Lemma d35_slips : d35_g 0 <> 0.
Proof.
  destruct d35_start as (_ & V & _ & F & _ & HL).
  assert (HT : slip_threshold checked d35_c demo_pars (kept d35_c demo_pars (strength d35_s d35_m0 0))
     (fun _ => kept d35_c demo_pars (strength d35_s d35_m0 0) * Rpower (/ 10 ^ 60) (kin_par d35_c demo_pars 1))) by (apply thr_V; now left).
  refine (threshold_sharp checked d35_c demo_pars _ _ d35_law d35_ref _ HL HT F 0 _ (or_introl eq_refl) _ _); [cbn; lia|].
  cbv beta. destruct (d35_legal 0 ltac:(lia)) as (S1 & S2 & S3). assert (S3' : dotv (d35_sd 0) (d35_md 0) = 0) by (rewrite <- S3; unfold dotv; ring).
  assert (P : 0 < d35_a) by apply exp_pos.
  assert (ET : resolved d35_c demo_pars (vNew d35_s d35_m0 0) (eInt d35_s d35_m0 0 - delv d35_s d35_m0 0 * pres d35_s d35_m0 0)
     (add3 (scal3 (/ Rpower (vNew d35_s d35_m0 0) (1 / 3)) d35_E) (scal3 (ln (vNew d35_s d35_m0 0) / 3) I3)) (d35_sd 0) (d35_md 0) = 1).
  { fold d35_a. pose proof (resolved_iso d35_c (vNew d35_s d35_m0 0) (eInt d35_s d35_m0 0 - delv d35_s d35_m0 0 * pres d35_s d35_m0 0) (/ d35_a) I3 d35_E (d35_sd 0) (d35_md 0) V eq_refl eq_refl S3') as RI.
    unfold load_strain in RI. assert (EI : cong (tr3 I3) d35_E = d35_E) by apply cong_1. rewrite EI in RI. rewrite RI. unfold d35_E.
    rewrite inner_scal_l.
    assert (IS : inner (symp (outer (d35_sd 0) (d35_md 0))) (outer (d35_sd 0) (d35_md 0)) = / 2).
    { transitivity (/ 2 * (dotv (d35_sd 0) (d35_sd 0) * dotv (d35_md 0) (d35_md 0) + dotv (d35_sd 0) (d35_md 0) * dotv (d35_sd 0) (d35_md 0))).
      - clear. destruct (d35_sd 0), (d35_md 0). spec3. field.
      - rewrite S1, S2, S3'. field. }
    rewrite IS, Rmult_0_r. field. lra. }
  rewrite ET, Rabs_R1. change (kin_par d35_c demo_pars 1) with (/ 10). rewrite pow_thr.
  replace (kept d35_c demo_pars (strength d35_s d35_m0 0)) with 1
    by (change (kept d35_c demo_pars (strength d35_s d35_m0 0)) with (strength (d2_s checked) (d4_m [0; 0; 0]) 0); unfold strength, val; rewrite d2_strides; reflexivity).
  lra.
Qed.
Definition d35_call : BCall := call_of d35_c d35_s (offer (step_x (dev_strain d35_s d35_m 0) d35_E d35_xi)) noLU false 1 (/ 10) d35_m.
Lemma d35_finds : finds (b_solver d35_call) (step_x (dev_strain d35_s d35_m 0) d35_E d35_xi).
Proof. apply offer_finds. Qed.

(** a crystal that slipped in the step before and hardens: slip rate 1/1000, strength from 1 to 3004/3001 *)
Definition d36_hs : Solver R := offer [3 / 3001].
Definition d36_m : Mem R := fun a =>
  match a with
  | AH => [0; 7; 0; 0; 0; 0; 0; 0; 0; 1; 2; 0; 0; 1; / 1000; 0; 0; 0; 0; 0; 0; 0; 0; 0; 0; 0]
  | _ => d4_m [0; 0; 0] a
  end.
Definition d36_s : MM R := d2_s d36_hs.
Lemma offer_finds1 x : finds1 (offer [x]) x.
Proof.
  intros rj tol it Ht H. unfold offer. cbn [so_converged so_x]. split; [|reflexivity]. apply forallb_forall. intros i Hi. apply in_seq in Hi.
  assert (i = 0%nat) by lia. subst i. rewrite H, Rabs_R0. now apply Rleb_true.
Qed.
Lemma d36_start : startable d36_hs (d2_c d36_hs) demo_pars d36_s d36_m 0 1 (3004 / 3001) (rotq (unit4 (quat d36_s d36_m 0)))
  (fun _ => voce_law 1 (/ 10) (3004 / 3001)) 1.
Proof.
  assert (S : strength d36_s d36_m 0 = 1) by (unfold strength, val, d36_s; rewrite d2_strides; reflexivity).
  assert (Q : norm2 (quat d36_s d36_m 0) <> 0) by (unfold quat, val, d36_s; rewrite d2_strides; cbn; lra).
  assert (SH : shear_sum (slip_rates (d2_c d36_hs) d36_s d36_m 0) = / 1000).
  { unfold slip_rates, val, d36_s. rewrite d2_strides. unfold shear_sum. cbn. rewrite Rabs_R0, (Rabs_right (/ 1000)) by lra. lra. }
  refine (conj _ (conj _ (conj Q (conj _ (conj _ _))))).
  - rewrite S. apply hard_voce; [now left|cbn; lra| |].
    + rewrite SH. unfold implicit_step, voce_rate_at, voce_hardening.
      assert (E : voce_sat_at false (d2_c d36_hs) demo_pars (/ 1000) = 4).
      { unfold voce_sat_at, voce_sat. destruct (Rlt_dec (/ 10 ^ 90) (/ 1000)) as [_|H].
        - change (kin_par (d2_c d36_hs) demo_pars 5) with 4. change (kin_par (d2_c d36_hs) demo_pars (7 + 0)) with (/ 1000).
          replace (/ 1000 / / 1000) with 1 by field. unfold Rpower. rewrite ln_1, Rmult_0_r, exp_0. ring.
        - exfalso. apply H. apply Rinv_lt_contravar; [|].
          + apply Rmult_lt_0_compat; [lra|apply pow_lt; lra].
          + apply Rlt_le_trans with (10 ^ 4); [lra|apply Rle_pow; [lra|lia]]. }
      rewrite E. change (kin_par (d2_c d36_hs) demo_pars 3) with 1. change (kin_par (d2_c d36_hs) demo_pars 4) with 1. destruct (Rle_dec 4 1); [lra|]. field.
    + rewrite Rmax_left by lra. replace ((3004 / 3001 - 1) / 1) with (3 / 3001) by field. apply offer_finds1.
  - unfold vNew, val, d36_s. rewrite d2_strides. cbn. lra.
  - lra.
  - apply rotq_rotates. exact (proj1 (unit4_unit (quat d36_s d36_m 0) eq_refl Q)).
  - apply (law_V d36_hs (d2_c d36_hs) demo_pars); [now left|]. cbn. lra.
Qed.
