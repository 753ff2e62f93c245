(** Property theorems about slip kinetics and hardening: C14 - C19. The laws are in SpecKin.v, the strength
    updates seen by a caller in SpecKinApi.v. *)
From Coq Require Import List ZArith Bool Lia Reals Lra.
From Coquelicot Require Import Coquelicot.
From Verif Require Import Num Arr NumR Util Hard KinVoce KinKMBalD MatModel Cases SpecApi P_Demo SpecKin P_KinV P_Hard P_KinKM P_Kin2 P_Kin4
  SpecKinApi P_Call P_Kin3 P_Demo2 P_Demo3 P_Demo15.
Import ListNotations.
Local Open Scope R_scope.

(** ** C14. Slip dissipates energy. *)
(** The slip rates are the documented laws ... *)
Theorem C14_voce_law nl P g tau : 0 < g -> 0 <= nth 2 P 0 ->
  rate (voce_evalGdot (voce_setParams nl P) g tau) = voce_law (nth 2 P 0) (nth 1 P 0) g tau.
Proof. intros H1 H2. destruct (voce_set nl P) as (A & B & C & D & E). exact (gdot_law _ _ _ A B C D E g tau H1 H2). Qed.
Theorem C14_km_law ga p1 q1 per n P pr T rho v tau : (v < n)%nat -> km_params_ok ga p1 n P rho T v -> (q1 = true -> nth (4 + n) P 0 = 1) ->
  rate (km_eval ga p1 q1 per n P pr T rho v tau) = km_law (km_spec ga p1 n P rho T v) tau.
Proof. intros Hv PO Q1. exact (km_eval_law ga p1 q1 per n P pr T rho v Hv PO Q1 tau). Qed.
(** ... which have the sign of the stress and are odd. *)
Theorem C14_voce_sign nl P g tau : 0 < g -> 0 <= nth 2 P 0 ->
  let r t := rate (voce_evalGdot (voce_setParams nl P) g t) in 0 <= tau * r tau /\ r (- tau) = - r tau.
Proof. intros H1 H2 r. unfold r. rewrite !C14_voce_law by assumption. exact (conj (law_sign _ _ _ _ H2) (law_odd _ _ _ _)). Qed.
Theorem C14_km_sign ga p1 q1 per n P pr T rho v tau : (v < n)%nat -> km_params_ok ga p1 n P rho T v -> (q1 = true -> nth (4 + n) P 0 = 1) ->
  let r t := rate (km_eval ga p1 q1 per n P pr T rho v t) in 0 <= tau * r tau /\ r (- tau) = - r tau.
Proof.
  intros Hv PO Q1 r. unfold r. rewrite !C14_km_law by assumption.
  exact (conj (km_sign ga p1 q1 per n P pr T rho v PO tau) (km_odd ga p1 n P T rho v tau)).
Qed.
(** Total dissipation of all systems of a crystal, any number of them. *)
Theorem C14_voce_dissipation nl P ns g tau : 0 < g -> 0 <= nth 2 P 0 ->
  0 <= dissipation tau (fst (fst (voce_evalGdots (voce_setParams nl P) ns tau [g]))).
Proof.
  intros H1 H2. apply dissipation_nonneg. intros i Hi. cbn [voce_evalGdots fst] in *. unfold voce_evalGdots in *. cbn [fst] in *.
  rewrite tab_length in Hi. change (nth i (tab ns ?f) 0) with (get (tab ns f) i). rewrite get_tab by assumption.
  exact (proj1 (C14_voce_sign nl P g (get tau i) H1 H2)).
Qed.
Theorem C14_km_dissipation ga p1 q1 per n P pr T rho ns tau : (0 < n)%nat -> (per = true -> ns = n) ->
  (forall v, (v < n)%nat -> km_params_ok ga p1 n P rho T v) -> (q1 = true -> nth (4 + n) P 0 = 1) ->
  let k := km_setParams ga p1 q1 per n P in
  0 <= dissipation tau (fst (fst (km_evalGdots k ns tau (fst (km_getVals k pr T [rho]))))).
Proof.
  intros H0 HP PO Q1 k. apply dissipation_nonneg. intros i Hi. unfold km_evalGdots in *. cbn [fst] in *.
  rewrite tab_length in Hi. change (nth i (tab ns ?f) 0) with (get (tab ns f) i). rewrite get_tab by assumption.
  assert (HV : ((if km_perSS k then i else 0) < n)%nat).
  { change (km_perSS k) with per. destruct per; [rewrite <- (HP eq_refl); exact Hi|exact H0]. }
  exact (proj1 (C14_km_sign ga p1 q1 per n P pr T rho _ (get tau i) HV (PO _ HV) Q1)).
Qed.
Example C14_voce_case : 0 < nth 2 [1; /2; 1; 1; 1; 4; /20; /1000; 1] 0 /\
  rate (voce_evalGdot (voce_setParams false [1; /2; 1; 1; 1; 4; /20; /1000; 1]) 2 (-3)) = - (9 / 4).
Proof.
  split; [cbn; lra|]. rewrite C14_voce_law by (cbn; lra). cbn [nth]. unfold voce_law.
  assert (A : Rabs (-3) / 2 = 3 / 2) by (rewrite Rabs_left by lra; lra). rewrite A.
  assert (E : Rpower (10 ^ 60) (/ 2) = 10 ^ 30).
  { replace (10 ^ 60) with (Rpower 10 60) by (rewrite <- (Rpower_pow 60) by lra; f_equal; rewrite INR_IZR_INZ; reflexivity).
    rewrite Rpower_mult. replace (60 * / 2) with (INR 30) by (rewrite INR_IZR_INZ; cbn; lra). apply Rpower_pow. lra. }
  assert (E' : Rpower (/ 10 ^ 60) (/ 2) = / 10 ^ 30).
  { unfold Rpower in *. rewrite ln_Rinv by apply pow10_pos. replace (/ 2 * - ln (10 ^ 60)) with (- (/ 2 * ln (10 ^ 60))) by ring. now rewrite exp_Ropp, E. }
  rewrite E, E'. assert (B : 3 / 2 < 10 ^ 30) by (cbn; lra). assert (B' : / 10 ^ 30 < 1).
  { rewrite <- Rinv_1. apply Rinv_lt_contravar; [rewrite Rmult_1_l; apply pow10_pos|apply Rlt_pow_R1; [lra|lia]]. }
  destruct Rle_dec; [lra|]. destruct Rle_dec; [|lra]. unfold power_rate. rewrite sgn_neg by lra. rewrite A.
  replace (1 / / 2) with (1 + 1) by field. rewrite Rpower_plus, Rpower_1 by lra. lra.
Qed.
Example C14_km_case : km_params_ok false true 1 (wit_P 1) 1 1 0 /\ rate (km_eval false true true false 1 (wit_P 1) 0 1 1 0 (- 20)) = - (1 - exp (- 20)).
Proof.
  split; [apply wit_ok; lra|]. rewrite C14_km_law; [|lia|apply wit_ok; lra|reflexivity]. rewrite wit_law. unfold km_law. rewrite sgn_neg by lra.
  rewrite Rabs_left by lra. replace (- - 20) with 20 by lra. unfold km_mag, drag. cbn [wit_L l_ath l_D l_g l_tmax l_r]. replace ((20 - 0) / 1) with 20 by lra.
  assert (forall n, / 10 ^ n <= 1).
  { intros n. rewrite <- Rinv_1. apply Rinv_le_contravar; [lra|]. apply pow_R1_Rle. lra. }
  destruct Rlt_dec; [specialize (H 60%nat); lra|]. destruct Rlt_dec; [|lra]. destruct Rlt_dec; [specialize (H 8%nat); lra|]. change (exp (-20)) with (exp (Ropp 20)). lra.
Qed.

(** ** C15. The slip rate never falls when the stress rises. *)
(** True of the power law up to the stress where |rate| reaches 1e60 times the reference rate ... *)
Theorem C15_voce nl P g t1 t2 : 0 < g -> 0 <= nth 2 P 0 -> 0 < nth 1 P 0 -> Rabs t1 <= Rabs t2 -> Rabs t2 / g <= Rpower (10 ^ 60) (nth 1 P 0) ->
  Rabs (rate (voce_evalGdot (voce_setParams nl P) g t1)) <= Rabs (rate (voce_evalGdot (voce_setParams nl P) g t2)).
Proof. intros H1 H2 H3 H4 H5. rewrite !C14_voce_law by assumption. now apply law_mono. Qed.
(** ... false beyond: there the rate falls by a factor 1e15, whatever the parameters. *)
Theorem C15_voce_refuted nl P g : 0 < g -> 0 < nth 2 P 0 -> 0 < nth 1 P 0 -> exists t1, 0 < t1 /\ forall t2, t1 < t2 ->
  rate (voce_evalGdot (voce_setParams nl P) g t1) = 10 ^ 60 * nth 2 P 0 /\
  rate (voce_evalGdot (voce_setParams nl P) g t2) = 10 ^ 45 * nth 2 P 0.
Proof.
  intros H1 H2 H3. destruct (law_drop (nth 2 P 0) (nth 1 P 0) g H1 H2 H3) as [A B]. exists (g * Rpower (10 ^ 60) (nth 1 P 0)).
  split; [apply Rmult_lt_0_compat; [assumption|apply exp_pos]|]. intros t2 H. rewrite !C14_voce_law by lra. exact (conj A (B t2 H)).
Qed.
(** The thermally activated rate may fall, but never by more than a relative 1e-8 ... *)
Theorem C15_km_partial ga p1 q1 per n P pr T rho v t1 t2 : (v < n)%nat -> km_params_ok ga p1 n P rho T v -> (q1 = true -> nth (4 + n) P 0 = 1) ->
  Rabs t1 <= Rabs t2 ->
  Rabs (rate (km_eval ga p1 q1 per n P pr T rho v t1)) <= (1 + / 10 ^ 8) * Rabs (rate (km_eval ga p1 q1 per n P pr T rho v t2)).
Proof. intros Hv PO Q1 H. rewrite !C14_km_law by assumption. exact (km_near ga p1 q1 per n P pr T rho v PO t1 t2 H). Qed.
(** ... and not at all between stresses on the same side of the switch of the drag law at (|tau| - athermal) / drag stress = 1e-8; *)
Theorem C15_km_same_side ga p1 q1 per n P pr T rho v t1 t2 : (v < n)%nat -> km_params_ok ga p1 n P rho T v -> (q1 = true -> nth (4 + n) P 0 = 1) ->
  Rabs t1 <= Rabs t2 ->
  (let L := km_spec ga p1 n P rho T v in (Rabs t1 - l_ath L) / l_D L < / 10 ^ 8 <-> (Rabs t2 - l_ath L) / l_D L < / 10 ^ 8) ->
  Rabs (rate (km_eval ga p1 q1 per n P pr T rho v t1)) <= Rabs (rate (km_eval ga p1 q1 per n P pr T rho v t2)).
Proof. intros Hv PO Q1 H E. rewrite !C14_km_law by assumption. exact (km_same ga p1 q1 per n P pr T rho v PO t1 t2 H E). Qed.
(** across the switch it does fall. *)
Theorem C15_km_refuted : exists P t1 t2, km_params_ok false true 1 P 1 1 0 /\ 0 <= t1 < t2 /\
  Rabs (rate (km_eval false true true false 1 P 0 1 1 0 t2)) < Rabs (rate (km_eval false true true false 1 P 0 1 1 0 t1)).
Proof.
  exists (wit_P (10 ^ 10)), wit_s1, wit_s2. assert (PO : km_params_ok false true 1 (wit_P (10 ^ 10)) 1 1 0) by (apply wit_ok, pow10_pos).
  destruct wit_drop as [H1 H2]. refine (conj PO (conj H1 _)). rewrite !C14_km_law by (lia || assumption || reflexivity).
  rewrite !(km_law_abs false true true false 1 (wit_P (10 ^ 10)) 0 1 1 0 PO). rewrite wit_law. rewrite !Rabs_right by (unfold wit_s2 in *; lra). exact H2.
Qed.
Example C15_case : exists P, 0 < nth 2 P 0 /\ 0 < nth 1 P 0 /\ Rabs (- 1) <= Rabs 3 /\ Rabs 3 / 2 <= Rpower (10 ^ 60) (nth 1 P 0).
Proof.
  exists [1; 1; 1]. cbn [nth]. rewrite Rpower_1 by apply pow10_pos. rewrite Rabs_left, Rabs_right by lra. repeat split; try lra.
Qed.
Example C15_km_case : km_params_ok false true 1 (wit_P 1) 1 1 0 /\ Rabs (/ 3) <= Rabs (- / 2).
Proof. split; [apply wit_ok; lra|]. rewrite (Rabs_left (- / 2)), (Rabs_right (/ 3)) by lra. lra. Qed.

(** ** C16. Reported derivatives. *)
Theorem C16_voce_dtau nl P g tau : 0 < g -> 0 <= nth 2 P 0 -> nth 1 P 0 <> 0 ->
  Rabs tau / g <> Rpower (/ 10 ^ 60) (nth 1 P 0) -> Rabs tau / g <> Rpower (10 ^ 60) (nth 1 P 0) ->
  is_derive (fun t => rate (voce_evalGdot (voce_setParams nl P) g t)) tau (rate_dtau (voce_evalGdot (voce_setParams nl P) g tau)).
Proof. destruct (voce_set nl P) as (A & B & C & D & E). exact (d_tau _ _ _ A B C D E g tau). Qed.
Theorem C16_voce_dg nl P g tau : 0 < g -> 0 <= nth 2 P 0 -> nth 1 P 0 <> 0 ->
  Rabs tau / g <> Rpower (/ 10 ^ 60) (nth 1 P 0) -> Rabs tau / g <> Rpower (10 ^ 60) (nth 1 P 0) ->
  is_derive (fun h => rate (voce_evalGdot (voce_setParams nl P) h tau)) g (rate_dg (voce_evalGdot (voce_setParams nl P) g tau)).
Proof. destruct (voce_set nl P) as (A & B & C & D & E). exact (d_g _ _ _ A B C D E g tau). Qed.
Example C16_voce_case : let P := [1; 1; 1] in 0 <= nth 2 P 0 /\ nth 1 P 0 <> 0 /\
  Rabs (-3) / 2 <> Rpower (/ 10 ^ 60) (nth 1 P 0) /\ Rabs (-3) / 2 <> Rpower (10 ^ 60) (nth 1 P 0) /\ rate_dtau (voce_evalGdot (voce_setParams false P) 2 (-3)) <> 0.
Proof.
  cbn [nth]. rewrite Rpower_1 by apply pow10i_pos. rewrite Rpower_1 by apply pow10_pos. rewrite Rabs_left by lra.
  assert (B' : / 10 ^ 60 < 1).
  { rewrite <- Rinv_1. apply Rinv_lt_contravar; [rewrite Rmult_1_l; apply pow10_pos|apply Rlt_pow_R1; [lra|lia]]. }
  assert (B : 3 / 2 < 10 ^ 60) by (apply Rlt_trans with (10 ^ 1); [cbn; lra|apply Rlt_pow; [lra|lia]]).
  repeat split; try lra.
  assert (A : Rabs (-3 * (1 / 2)) = 3 / 2) by (rewrite Rabs_left by lra; lra).
  unfold voce_evalGdot. change (@nabs R RNum) with Rabs. rops. rewrite A.
  destruct (voce_set false [1; 1; 1]) as (E1 & E2 & E3 & E4 & E5). cbn [nth] in *. rewrite E4, E5, E3, E2.
  rewrite Rpower_1 by apply pow10i_pos. rewrite Rpower_1 by apply pow10_pos.
  destruct (Rltb (/ 10 ^ 60) (3 / 2)) eqn:F1; [|apply Rltb_false in F1; lra]. destruct (Rltb (10 ^ 60) (3 / 2)) eqn:F2; [apply Rltb_true in F2; lra|].
  unfold rate_dtau. cbn [fst snd]. rewrite E1. change (@nexp R RNum) with exp. replace (1 / 1 - 1) with 0 by field. rewrite Rmult_0_l, exp_0. lra.
Qed.

(** Strength derivative of the thermally activated rate: exact in every branch. *)
Theorem C16_km_dg ga p1 q1 per n P pr T rho v tau : (v < n)%nat -> km_params_ok ga p1 n P rho T v -> (q1 = true -> nth (4 + n) P 0 = 1) ->
  let g := km_strength n P rho v in let L := km_spec ga p1 n P rho T v in 0 < g ->
  interior L (Rabs tau) \/ interior_drag L (Rabs tau) \/ (tau <> 0 /\ interior_off L (Rabs tau)) ->
  is_derive (fun h => rate (km_eval_g ga p1 q1 per n P pr T rho v h tau)) g (rate_dg (km_eval ga p1 q1 per n P pr T rho v tau)).
Proof.
  intros Hv PO Q1 g L Hg HI. set (k := km_setParams ga p1 q1 per n P). set (vals := fst (km_getVals k pr T [rho])).
  pose proof (e_law ga p1 q1 per n P pr T rho v Hv PO) as EL. pose proof (e_range ga p1 q1 per n P pr T rho v PO) as RG.
  pose proof (e_g ga p1 q1 per n P pr T rho v Hv PO) as EG. fold k vals in EL, EG. fold L in EL, RG. fold g in EG.
  pose proof (e_ok ga p1 q1 per n P T rho v PO Q1) as OK. pose proof (e_xn ga p1 q1 per n P v Hv) as XN.
  pose proof (e_len ga p1 q1 per n P pr T rho v Hv) as LEN. pose proof (e_nv ga p1 q1 per n P v Hv) as NV. fold k in OK, XN, LEN, NV. fold vals in LEN.
  rewrite <- EL in HI, RG. rewrite <- EG in Hg. rewrite <- EG. destruct HI as [HI|[HI|[N HI]]].
  - exact (d_rate_g k v OK XN vals RG LEN NV tau Hg HI).
  - exact (d_rate_g_drag k v OK XN vals RG LEN NV tau Hg HI).
  - destruct (d_rate_g_off k v OK XN vals RG LEN NV tau Hg N HI) as [D E]. unfold km_eval. cbv zeta. fold k. fold vals. rewrite E. exact D.
Qed.
(** Stress derivative: exact where drag alone acts and where there is no slip; *)
Theorem C16_km_dtau_ends ga p1 q1 per n P pr T rho v tau : (v < n)%nat -> km_params_ok ga p1 n P rho T v -> (q1 = true -> nth (4 + n) P 0 = 1) ->
  let L := km_spec ga p1 n P rho T v in interior_drag L (Rabs tau) \/ (tau <> 0 /\ interior_off L (Rabs tau)) ->
  is_derive (fun t => rate (km_eval ga p1 q1 per n P pr T rho v t)) tau (rate_dtau (km_eval ga p1 q1 per n P pr T rho v tau)).
Proof.
  intros Hv PO Q1 L HI. set (k := km_setParams ga p1 q1 per n P). set (vals := fst (km_getVals k pr T [rho])).
  pose proof (e_law ga p1 q1 per n P pr T rho v Hv PO) as EL. pose proof (e_range ga p1 q1 per n P pr T rho v PO) as RG. fold k vals in EL. fold L in EL, RG.
  pose proof (e_ok ga p1 q1 per n P T rho v PO Q1) as OK. pose proof (e_xn ga p1 q1 per n P v Hv) as XN. fold k in OK, XN.
  rewrite <- EL in HI, RG. destruct HI as [HI|[N HI]].
  - exact (d_rate_tau_drag k v OK XN vals RG tau HI).
  - destruct (d_rate_tau_off k v OK XN vals RG tau N HI) as [D E]. unfold km_eval. cbv zeta. fold k. fold vals. rewrite E. exact D.
Qed.
(** where both mechanisms act the code has the wrong sign on the balancing (reverse jump) term: with [b] minus the slope of
    the reverse rate, the true derivative is the reported one plus 2 (rate/thermal rate)^2 b; exact when reverse jumps are off. *)
Theorem C16_km_dtau_actual ga p1 q1 per n P pr T rho v tau : (v < n)%nat -> km_params_ok ga p1 n P rho T v -> (q1 = true -> nth (4 + n) P 0 = 1) ->
  let L := km_spec ga p1 n P rho T v in interior L (Rabs tau) ->
  exists b, is_derive (balanced L) (Rabs tau) (- b) /\ (backward L (Rabs tau) < ln_cut -> b = 0) /\
    is_derive (fun t => rate (km_eval ga p1 q1 per n P pr T rho v t)) tau
      (rate_dtau (km_eval ga p1 q1 per n P pr T rho v tau) + 2 * (km_mag L (Rabs tau) / thermal L (Rabs tau)) ^ 2 * b).
Proof. intros Hv PO Q1. exact (km_dtau_actual ga p1 q1 per n P pr T rho v Hv PO Q1 tau). Qed.
Theorem C16_km_dtau_unbalanced ga p1 q1 per n P pr T rho v tau : (v < n)%nat -> km_params_ok ga p1 n P rho T v -> (q1 = true -> nth (4 + n) P 0 = 1) ->
  let L := km_spec ga p1 n P rho T v in interior L (Rabs tau) -> backward L (Rabs tau) < ln_cut ->
  is_derive (fun t => rate (km_eval ga p1 q1 per n P pr T rho v t)) tau (rate_dtau (km_eval ga p1 q1 per n P pr T rho v tau)).
Proof.
  intros Hv PO Q1 L HI HB. destruct (km_dtau_actual ga p1 q1 per n P pr T rho v Hv PO Q1 tau HI) as (b & _ & B & D).
  rewrite (B HB) in D. rewrite Rmult_0_r, Rplus_0_r in D. exact D.
Qed.
(** So the reported derivative is wrong on reachable inputs. *)
Theorem C16_km_dtau_refuted : exists P tau, km_params_ok false true 1 P 1 1 0 /\ interior (km_spec false true 1 P 1 1 0) (Rabs tau) /\
  ~ is_derive (fun t => rate (km_eval false true true false 1 P 0 1 1 0 t)) tau (rate_dtau (km_eval false true true false 1 P 0 1 1 0 tau)).
Proof.
  exists (wit_P 1), (/ 2). assert (PO : km_params_ok false true 1 (wit_P 1) 1 1 0) by (apply wit_ok; lra).
  assert (A : Rabs (/ 2) = / 2) by (apply Rabs_right; lra). rewrite A, wit_law.
  refine (conj PO (conj (proj1 wit_interior) _)). intros D.
  set (k := km_setParams false true true false 1 (wit_P 1)). set (vals := fst (km_getVals k 0 1 [1])).
  pose proof (e_law false true true false 1 (wit_P 1) 0 1 1 0 ltac:(lia) PO) as EL. fold k vals in EL. rewrite wit_law in EL.
  pose proof (e_ok false true true false 1 (wit_P 1) 1 1 0 PO (fun _ => eq_refl)) as OK. pose proof (e_xn false true true false 1 (wit_P 1) 0 ltac:(lia)) as XN. fold k in OK, XN.
  pose proof (e_range false true true false 1 (wit_P 1) 0 1 1 0 PO) as RG. rewrite wit_law in RG.
  pose proof (d_rate_tau k 0 OK XN vals) as D'. rewrite EL in D'. specialize (D' RG (/ 2)). rewrite A in D'. specialize (D' (proj1 wit_interior)).
  assert (BP : 0 < b_d k vals 0 (/ 2)) by (apply wit_bd; [exact OK|exact EL|reflexivity]).
  pose proof (is_derive_unique _ _ _ D) as U1. pose proof (is_derive_unique _ _ _ D') as U2.
  unfold km_eval in U1. cbv zeta in U1. fold k in U1. fold vals in U1. rewrite U2 in U1.
  assert (PW : 0 < thermal (wit_L 1) (/ 2)).
  { apply (th_pos _ RG). destruct wit_interior as [(_ & _ & _ & _ & I5 & I6 & I7) _]. split; [lra|intros B; specialize (I7 B); lra]. }
  assert (PM : 0 < km_mag (wit_L 1) (/ 2)).
  { destruct (mag_cases (wit_L 1) (/ 2)) as [[_ H]|[(_ & B & _)|(A1 & _ & A2 & ->)]].
    - destruct wit_interior as [(I1 & I2 & _ & _ & I5 & I6 & I7) _]. destruct H as [H|[_ H]].
      + assert (/ 10 ^ 60 < / 10 ^ 8). { apply Rinv_lt_contravar; [apply Rmult_lt_0_compat; apply pow10_pos|]. apply Rlt_pow; [lra|lia]. } lra.
      + elim H. split; [lra|intros B; specialize (I7 B); lra].
    - destruct wit_interior as [(_ & I2 & _) _]. lra.
    - apply harm_pos; [exact PW|now apply (drag_pos _ RG)]. }
  assert (0 < km_mag (wit_L 1) (/ 2) / thermal (wit_L 1) (/ 2)) by (apply Rmult_lt_0_compat; [exact PM|now apply Rinv_0_lt_compat]).
  pose proof (pow_lt _ 2 H) as H2. pose proof (Rmult_lt_0_compat _ _ H2 BP). lra.
Qed.
Example C16_km_case : km_params_ok false true 1 (wit_P 1) 1 1 0 /\ 0 < km_strength 1 (wit_P 1) 1 0 /\
  interior (km_spec false true 1 (wit_P 1) 1 1 0) (Rabs (- / 2)) /\ interior_drag (km_spec false true 1 (wit_P 1) 1 1 0) (Rabs 20).
Proof.
  rewrite wit_law. refine (conj (wit_ok 1 _) (conj _ (conj _ _))); [lra| | |].
  - unfold km_strength, wit_P. cbn [nth Nat.add]. lra.
  - rewrite Rabs_left by lra. rewrite Ropp_involutive. apply wit_interior.
  - rewrite Rabs_right by lra. unfold interior_drag. cbn [wit_L l_ath l_D l_g l_tmax]. split; [|lra].
    assert (/ 10 ^ 8 < 1); [|lra]. rewrite <- Rinv_1. apply Rinv_lt_contravar; [rewrite Rmult_1_l; apply pow10_pos|apply Rlt_pow_R1; [lra|lia]].
Qed.

(** ** C17. Strength update of the two models with linear Voce hardening. *)
Theorem C17_update hs c b i pars : c = cls_FCC_A hs \/ c = cls_BCC_B hs -> good hs c b -> (i < b_n b)%nat -> in_use c (b_s b) pars -> accurate hs -> 0 <= b_dt b ->
  0 <= kin_par c pars 3 -> 0 < kin_par c pars 7 ->
  let shr := shear_of c (b_s b) (b_m b) i in let ho := strength (b_s b) (b_m b) i in let sat := voce_sat_at false c pars shr in
  exists h, implicit_step (voce_rate_at c pars shr) (b_dt b) ho h /\
    (forall h', implicit_step (voce_rate_at c pars shr) (b_dt b) ho h' -> h' = h) /\
    Rmin ho sat <= h <= Rmax ho sat /\
    Rabs (strength (b_s b) (b_m1 b) i - h) <= / 10 ^ 10 * Rmax ho 1.
Proof.
  intros EC G Hi U HA Hdt H0 Hg shr ho sat. assert (PS : 0 <= shr) by apply shear_nonneg.
  assert (MO : forall x y, x <= y -> voce_rate_at c pars shr y <= voce_rate_at c pars shr x) by (intros x y Hxy; now apply voce_mono).
  destruct (Fi_exists _ _ Hdt MO ho (voce_cont _ _ _ _)) as [h Hh]. exists h.
  refine (conj Hh (conj _ (conj _ _))).
  - intros h' Hh'. exact (Fi_unique _ _ Hdt MO ho h' h Hh' Hh).
  - apply (Fi_between _ _ Hdt MO ho sat h); [apply voce_at_sat|exact Hh].
  - pose proof (call_voce hs c b i pars G Hi U EC Hg HA) as B.
    pose proof (Fi_near _ _ Hdt MO ho (strength (b_s b) (b_m1 b) i) h) as N.
    assert (Z : Fi (voce_rate_at c pars shr) (b_dt b) ho h = 0) by (unfold Fi; unfold implicit_step in Hh; lra).
    rewrite Z, Rminus_0_r in N. fold shr ho in B. lra.
Qed.
(** no slip: the equation has only the old strength as solution *)
Theorem C17_no_slip hs c b i pars : c = cls_FCC_A hs \/ c = cls_BCC_B hs -> good hs c b -> (i < b_n b)%nat -> in_use c (b_s b) pars -> accurate hs ->
  0 < kin_par c pars 7 -> shear_of c (b_s b) (b_m b) i = 0 ->
  Rabs (strength (b_s b) (b_m1 b) i - strength (b_s b) (b_m b) i) <= / 10 ^ 10 * Rmax (strength (b_s b) (b_m b) i) 1.
Proof.
  intros EC G Hi U HA Hg HZ. pose proof (call_voce hs c b i pars G Hi U EC Hg HA) as B. rewrite HZ in B.
  refine (eq_ind _ (fun x => Rabs x <= _) B _ _). unfold Fi, voce_rate_at, voce_hardening. destruct Rle_dec; ring.
Qed.
(** nonlinear Voce hardening, partial: the same below saturation only; an old strength at or above saturation (where the code raises a
    non-positive number to a power) is not covered. *)
Theorem C17_nonlinear_partial hs c b i pars : c = cls_FCC_AH hs \/ c = cls_BCC_BH hs -> good hs c b -> (i < b_n b)%nat -> in_use c (b_s b) pars -> accurate hs -> 0 <= b_dt b ->
  0 <= kin_par c pars 3 -> 0 < kin_par c pars 6 -> 0 < kin_par c pars 8 ->
  let shr := shear_of c (b_s b) (b_m b) i in let ho := strength (b_s b) (b_m b) i in let sat := voce_sat_at true c pars shr in
  kin_par c pars 4 < sat -> ho < sat ->
  exists h, implicit_step (voce_nl_rate_at c pars shr) (b_dt b) ho h /\ ho <= h < sat /\
    (forall h', h' < sat -> implicit_step (voce_nl_rate_at c pars shr) (b_dt b) ho h' -> h' = h) /\
    (strength (b_s b) (b_m1 b) i < sat -> Rabs (strength (b_s b) (b_m1 b) i - h) <= / 10 ^ 10 * Rmax ho 1).
Proof.
  intros EC G Hi U HA Hdt H0 Hm Hg shr ho sat HT HS. assert (PS : 0 <= shr) by apply shear_nonneg.
  destruct (voce_nl_exists (kin_par c pars 3) (kin_par c pars 4) sat (kin_par c pars 6) shr (b_dt b) ho H0 PS Hm HT Hdt HS) as (h & [L1 L2] & Hh).
  exists h. refine (conj Hh (conj (conj L1 L2) (conj _ _))).
  - intros h' H' Hh'. exact (voce_nl_unique _ _ _ _ _ _ ho H0 PS (Rlt_le _ _ Hm) HT Hdt h' h H' L2 Hh' Hh).
  - intros HN. pose proof (call_voce_nl hs c b i pars G Hi U EC Hg HA HT HN) as B.
    exact (Rle_trans _ _ _ (voce_nl_near _ _ _ _ _ _ ho H0 PS (Rlt_le _ _ Hm) HT Hdt _ h HN L2 Hh) B).
Qed.
(** Above saturation it is false.  With exponent 2 the code squares the negative distance to saturation, so that the strength
    moves away from saturation, at a rate that grows with the distance: no successful call can bring it down. *)
Theorem C17_nonlinear_above hs c b i pars : c = cls_FCC_AH hs \/ c = cls_BCC_BH hs -> good hs c b -> (i < b_n b)%nat -> in_use c (b_s b) pars -> accurate hs -> 0 <= b_dt b ->
  0 <= kin_par c pars 3 -> kin_par c pars 6 = 2 -> 0 < kin_par c pars 8 ->
  let shr := shear_of c (b_s b) (b_m b) i in let ho := strength (b_s b) (b_m b) i in let hn := strength (b_s b) (b_m1 b) i in
  let sat := voce_sat_at true c pars shr in kin_par c pars 4 < sat ->
  Rabs (hn - (ho + b_dt b * (kin_par c pars 3 * ((hn - sat) / (sat - kin_par c pars 4)) ^ 2 * shr))) <= / 10 ^ 10 * Rmax ho 1 /\
  ho - / 10 ^ 10 * Rmax ho 1 <= hn.
Proof.
  intros EC G Hi U HA Hdt H3 H6 H8 shr ho hn sat HT. pose proof (call_voce_sq hs c b i pars G Hi U EC H6 H8 HA HT) as B.
  cbv zeta in B. fold shr in B. fold sat in B. fold ho in B. fold hn in B.
  assert (B' : Rabs (hn - (ho + b_dt b * (kin_par c pars 3 * ((hn - sat) / (sat - kin_par c pars 4)) ^ 2 * shr))) <= / 10 ^ 10 * Rmax ho 1).
  { refine (eq_ind _ (fun x => Rabs x <= _) B _ _). unfold Fi, Rdiv. ring. }
  split; [exact B'|]. assert (P : 0 <= b_dt b * (kin_par c pars 3 * ((hn - sat) / (sat - kin_par c pars 4)) ^ 2 * shr)).
  { apply Rmult_le_pos; [assumption|]. apply Rmult_le_pos; [|apply shear_nonneg]. apply Rmult_le_pos; [assumption|apply pow2_ge_0]. }
  pose proof (Rle_abs (- (hn - (ho + b_dt b * (kin_par c pars 3 * ((hn - sat) / (sat - kin_par c pars 4)) ^ 2 * shr))))) as A. rewrite Rabs_Ropp in A. lra.
Qed.
(** so the strength does not stay between its old value and saturation: here it goes from 3 to 4 with saturation at 2 *)
Theorem C17_nonlinear_refuted : exists hs c b i pars, (c = cls_FCC_AH hs \/ c = cls_BCC_BH hs) /\ good hs c b /\ (i < b_n b)%nat /\ in_use c (b_s b) pars /\ accurate hs /\
  0 < b_dt b /\ 0 < kin_par c pars 3 /\ 0 < kin_par c pars 6 /\ 0 < kin_par c pars 8 /\
  let sat := voce_sat_at true c pars (shear_of c (b_s b) (b_m b) i) in kin_par c pars 4 < sat /\
  ~ (Rmin (strength (b_s b) (b_m b) i) sat <= strength (b_s b) (b_m1 b) i <= Rmax (strength (b_s b) (b_m b) i) sat).
Proof.
  assert (R3 : Rmax 3 1 = 3) by (apply Rmax_left; lra).
  destruct (d15_good1 3 4 (/ 3) ltac:(lra) ltac:(rewrite R3; lra) ltac:(lra)) as [G S].
  exists (offer [/ 3]), (cls_FCC_AH (offer [/ 3])), (d15_call (offer [/ 3]) echo 1 (/ 10) (d15_m 3)), 0%nat, nl_demo_pars.
  refine (conj (or_introl eq_refl) (conj G (conj _ (conj (d15_in_use _) (conj (offer_accurate _) _))))); [cbn; lia|].
  refine (conj _ (conj _ (conj _ (conj _ _)))); [cbn; lra|cbn; lra|cbn; lra|cbn; lra|].
  assert (ES : voce_sat_at true (cls_FCC_AH (offer [/ 3])) nl_demo_pars (shear_of (cls_FCC_AH (offer [/ 3])) (d15_s (offer [/ 3])) (d15_m 3) 0) = 2).
  { change (shear_of _ _ _ 0) with (shear_sum (d15_rates (offer [/ 3]) (d15_m 3) 0)). rewrite d15_shear. exact d15_sat. }
  cbv zeta. set (b := d15_call _ _ _ _ _) in *. change (shear_of _ (b_s b) (b_m b) 0) with (shear_of (cls_FCC_AH (offer [/ 3])) (d15_s (offer [/ 3])) (d15_m 3) 0).
  rewrite ES. split; [cbn; lra|]. change (b_s b) with (d15_s (offer [/ 3])). rewrite S.
  change (strength (d15_s (offer [/ 3])) (b_m b) 0) with (val (d15_s (offer [/ 3])) (d15_m 3) AH 0 13).
  rewrite d15_val13. rewrite Rmin_right, Rmax_left by lra. lra.
Qed.
(** Below saturation too the equation of the step can have a second solution above saturation, and nothing in the code rejects it: here
    a call goes from 3/4 to 7 with saturation at 2, with a solver that leaves no residual.  The condition on the new strength in
    [C17_nonlinear_partial] cannot be dropped. *)
Theorem C17_nonlinear_far_refuted : exists hs c b i pars, (c = cls_FCC_AH hs \/ c = cls_BCC_BH hs) /\ good hs c b /\ (i < b_n b)%nat /\ in_use c (b_s b) pars /\ accurate hs /\
  0 < b_dt b /\ 0 < kin_par c pars 3 /\ 0 < kin_par c pars 6 /\ 0 < kin_par c pars 8 /\
  let sat := voce_sat_at true c pars (shear_of c (b_s b) (b_m b) i) in kin_par c pars 4 < sat /\
  strength (b_s b) (b_m b) i < sat /\ sat + 5 <= strength (b_s b) (b_m1 b) i.
Proof.
  assert (R1 : Rmax (3 / 4) 1 = 1) by (apply Rmax_right; lra).
  destruct (d15_good1 (3 / 4) 7 (25 / 4) ltac:(lra) ltac:(rewrite R1; lra) ltac:(lra)) as [G S].
  exists (offer [25 / 4]), (cls_FCC_AH (offer [25 / 4])), (d15_call (offer [25 / 4]) echo 1 (/ 10) (d15_m (3 / 4))), 0%nat, nl_demo_pars.
  refine (conj (or_introl eq_refl) (conj G (conj _ (conj (d15_in_use _) (conj (offer_accurate _) _))))); [cbn; lia|].
  refine (conj _ (conj _ (conj _ (conj _ _)))); [cbn; lra|cbn; lra|cbn; lra|cbn; lra|].
  assert (ES : voce_sat_at true (cls_FCC_AH (offer [25 / 4])) nl_demo_pars (shear_of (cls_FCC_AH (offer [25 / 4])) (d15_s (offer [25 / 4])) (d15_m (3 / 4)) 0) = 2).
  { change (shear_of _ _ _ 0) with (shear_sum (d15_rates (offer [25 / 4]) (d15_m (3 / 4)) 0)). rewrite d15_shear. exact d15_sat. }
  cbv zeta. set (b := d15_call _ _ _ _ _) in *. change (shear_of _ (b_s b) (b_m b) 0) with (shear_of (cls_FCC_AH (offer [25 / 4])) (d15_s (offer [25 / 4])) (d15_m (3 / 4)) 0).
  rewrite ES. split; [cbn; lra|]. change (b_s b) with (d15_s (offer [25 / 4])). rewrite S.
  change (strength (d15_s (offer [25 / 4])) (b_m b) 0) with (val (d15_s (offer [25 / 4])) (d15_m (3 / 4)) AH 0 13).
  rewrite d15_val13. lra.
Qed.
Print Assumptions C17_nonlinear_far_refuted.
Print Assumptions C17_nonlinear_partial.
Print Assumptions C17_nonlinear_above.
Print Assumptions C17_nonlinear_refuted.
(** Calls that meet the hypotheses of both theorems: old strength 3/4, below saturation, and 3, above. *)
Example C17_nonlinear_case : forall x ho, x = / 4 /\ ho = 3 / 4 \/ x = / 3 /\ ho = 3 -> 
  let hs := offer [x] in let c := cls_FCC_AH hs in let b := d15_call hs echo 1 (/ 10) (d15_m ho) in
  good hs c b /\ (0 < b_n b)%nat /\ in_use c (b_s b) nl_demo_pars /\ accurate hs /\ 0 <= b_dt b /\ 0 <= kin_par c nl_demo_pars 3 /\
  kin_par c nl_demo_pars 6 = 2 /\ 0 < kin_par c nl_demo_pars 8 /\
  let sat := voce_sat_at true c nl_demo_pars (shear_of c (b_s b) (b_m b) 0) in kin_par c nl_demo_pars 4 < sat /\ sat = 2 /\
  strength (b_s b) (b_m b) 0 = ho /\ strength (b_s b) (b_m1 b) 0 = ho + x * Rmax ho 1.
Proof.
  intros x ho H hs c b.
  assert (GS : good hs c b /\ strength (d15_s hs) (b_m1 b) 0 = ho + x * Rmax ho 1).
  { destruct H as [[-> ->]|[-> ->]].
    - assert (R3 : Rmax (3 / 4) 1 = 1) by (apply Rmax_right; lra). apply d15_good1; rewrite ?R3; lra.
    - assert (R3 : Rmax 3 1 = 3) by (apply Rmax_left; lra). apply d15_good1; rewrite ?R3; lra. }
  destruct GS as [G S]. refine (conj G (conj _ (conj (d15_in_use _) (conj (offer_accurate _) _)))); [cbn; lia|].
  refine (conj _ (conj _ (conj _ (conj _ _)))); [cbn; lra|cbn; lra|reflexivity|cbn; lra|].
  assert (ES : voce_sat_at true c nl_demo_pars (shear_of c (b_s b) (b_m b) 0) = 2).
  { change (shear_of c (b_s b) (b_m b) 0) with (shear_sum (d15_rates hs (d15_m ho) 0)). unfold hs. rewrite d15_shear. exact d15_sat. }
  cbv zeta. rewrite ES. refine (conj _ (conj eq_refl (conj (d15_val13 _ _) S))). cbn. lra.
Qed.
(** A call that hardens: 4 units of old shear rate, checked Newton step as hardness solver. *)
Definition c17_call : BCall := d2_call newton1 echo 2 (/10) d2_m.
Lemma c17_good : good newton1 (cls_FCC_A newton1) c17_call.
Proof.
  apply (d2_good newton1 echo 2 (/10) d2_m (d2_batch newton1)). intros i Hi.
  destruct (newton1_voce d2_v 12 (d2_rates newton1 d2_m i) (val (d2_s newton1) d2_m AH i 13) (/ 10)) as (h & nh & E & S); try reflexivity.
  - unfold d2_v, voce_setParams, demo_pars. cbn. lra.
  - unfold d2_v, voce_setParams, demo_pars. cbn. lra.
  - lra.
  - exists h, nh. refine (conj E (conj _ (fun _ _ => eq_refl))).
    assert (P0 : 0 <= v_h0 d2_v) by (unfold d2_v, voce_setParams, demo_pars; cbn; lra).
    assert (PS : 0 <= shear_sum (d2_rates newton1 d2_m i)) by apply shear_nonneg.
    pose proof (Fi_between _ (/ 10) ltac:(lra) (fun a b H => voce_mono (v_h0 d2_v) (v_tausi d2_v) (voce_sat (v_taus0 d2_v) (v_gamss0 d2_v) (v_xms d2_v) (shear_sum (d2_rates newton1 d2_m i))) _ a b P0 PS H) _ _ _ (voce_at_sat _ _ _ _) S) as [B _].
    assert (V : 1 <= val (d2_s newton1) d2_m AH i 13).
    { unfold val. rewrite d2_strides. destruct i as [|[|i]]; [| |lia]; cbn; lra. }
    assert (SP : 0 < voce_sat (v_taus0 d2_v) (v_gamss0 d2_v) (v_xms d2_v) (shear_sum (d2_rates newton1 d2_m i))).
    { unfold voce_sat. assert (0 < v_taus0 d2_v) by (unfold d2_v, voce_setParams, demo_pars; cbn; lra).
      destruct Rlt_dec; [|assumption]. apply Rmult_lt_0_compat; [assumption|apply exp_pos]. }
    apply Rlt_le_trans with (2 := B). apply Rmin_glb_lt; lra.
Qed.
Example C17_case : good newton1 (cls_FCC_A newton1) c17_call /\ (0 < b_n c17_call)%nat /\ in_use (cls_FCC_A newton1) (b_s c17_call) demo_pars /\
  accurate newton1 /\ 0 <= b_dt c17_call /\ 0 <= kin_par (cls_FCC_A newton1) demo_pars 3 /\ 0 < kin_par (cls_FCC_A newton1) demo_pars 7 /\
  shear_of (cls_FCC_A newton1) (b_s c17_call) (b_m c17_call) 0 = 4 /\ shear_of (cls_FCC_A newton1) (b_s c17_call) (b_m c17_call) 1 = 0.
Proof.
  refine (conj c17_good (conj _ (conj (d2_in_use newton1) (conj newton1_accurate (conj _ (conj _ (conj _ (conj _ _)))))))).
  - cbn. lia.
  - cbn. lra.
  - cbn. lra.
  - cbn. lra.
  - unfold shear_of, shear_sum, slip_rates, val, c17_call. cbn [b_s b_m d2_call]. rewrite d2_strides. cbn. rewrite Rabs_R0, Rabs_R1, (Rabs_left (-1)) by lra. rewrite (Rabs_right 2) by lra. lra.
  - unfold shear_of, shear_sum, slip_rates, val, c17_call. cbn [b_s b_m d2_call]. rewrite d2_strides. cbn. rewrite Rabs_R0. lra.
Qed.

(** ** C18. Dislocation density of evptn_FCC_B, evptn_BCC_A, evptn_HCP_A. *)
(** positive for every answer of the solvers, even from a nonpositive old density *)
Theorem C18_positive hs c b i pars : km_class hs c -> good hs c b -> (i < b_n b)%nat -> in_use c (b_s b) pars -> 0 < strength (b_s b) (b_m1 b) i.
Proof. intros KC G Hi U. exact (proj1 (call_km hs c b i pars G Hi U KC)). Qed.
(** the update is well posed in the logarithm of the density *)
Theorem C18_update hs c b i pars : km_class hs c -> good hs c b -> (i < b_n b)%nat -> in_use c (b_s b) pars -> accurate hs -> 0 <= b_dt b ->
  0 <= kin_par c pars (8 + 3 * km_groups c) -> 0 < kin_par c pars (11 + 3 * km_groups c) ->
  let shr := shear_of c (b_s b) (b_m b) i in let lo := ln (km_old c pars (strength (b_s b) (b_m b) i)) in
  let f l := km_rate_at c pars shr (exp l) in
  exists l, implicit_step f (b_dt b) lo l /\ (forall l', implicit_step f (b_dt b) lo l' -> l' = l) /\
    Rabs (ln (strength (b_s b) (b_m1 b) i) - l) <= / 10 ^ 10 * Rmax lo 1.
Proof.
  intros KC G Hi U HA Hdt H1 Hg shr lo f. assert (PS : 0 <= shr) by apply shear_nonneg.
  assert (MO : forall x y, x <= y -> f y <= f x) by (intros x y Hxy; unfold f, km_rate_at; now apply km_mono).
  destruct (Fi_exists _ _ Hdt MO lo) as [l Hl]; [intros x; apply km_cont|]. exists l. refine (conj Hl (conj _ _)).
  - intros l' Hl'. exact (Fi_unique _ _ Hdt MO lo l' l Hl' Hl).
  - pose proof (proj2 (call_km hs c b i pars G Hi U KC) Hg HA) as B. cbv zeta in B.
    pose proof (Fi_near _ _ Hdt MO lo (ln (strength (b_s b) (b_m1 b) i)) l) as N.
    assert (Z : Fi f (b_dt b) lo l = 0) by (unfold Fi; unfold implicit_step in Hl; lra).
    rewrite Z, Rminus_0_r in N. fold shr lo in B. fold f in B. lra.
Qed.
(** no slip: the density keeps its value (if it is above the floor of 1e-4 of the initial density) *)
Theorem C18_no_slip hs c b i pars : km_class hs c -> good hs c b -> (i < b_n b)%nat -> in_use c (b_s b) pars -> accurate hs ->
  0 < kin_par c pars (11 + 3 * km_groups c) -> shear_of c (b_s b) (b_m b) i = 0 ->
  let lo := ln (km_old c pars (strength (b_s b) (b_m b) i)) in
  Rabs (ln (strength (b_s b) (b_m1 b) i) - lo) <= / 10 ^ 10 * Rmax lo 1.
Proof.
  intros KC G Hi U HA Hg HZ lo. pose proof (proj2 (call_km hs c b i pars G Hi U KC) Hg HA) as B. cbv zeta in B. rewrite HZ in B. fold lo in B.
  refine (eq_ind _ (fun x => Rabs x <= _) B _ _). unfold Fi, km_rate_at, km_hardening. ring.
Qed.

Definition c18_g : list R := [1; 0; -1; 0; 0; 0; 0; 0; 0; 0; 0; 2].
Definition c18_g0 : list R := [0; 0; 0; 0; 0; 0; 0; 0; 0; 0; 0; 0].
Lemma c18_shear : shear_sum c18_g = 4 /\ shear_sum c18_g0 = 0.
Proof. unfold shear_sum, c18_g, c18_g0. cbn. rewrite Rabs_R0, Rabs_R1, (Rabs_left (-1)), (Rabs_right 2) by lra. split; lra. Qed.
(** shear rate 4: the density grows from exp(-2/5) to 1; and a point without slip *)
Example C18_case : let lo := - (2 / 5) in let hs := offer [- lo] in let c := cls_FCC_B hs in let b := d3_call (- lo) lo c18_g in
  km_class hs c /\ good hs c b /\ (0 < b_n b)%nat /\ in_use c (b_s b) d3_pars /\ accurate hs /\ 0 <= b_dt b /\
  0 <= kin_par c d3_pars (8 + 3 * km_groups c) /\ 0 < kin_par c d3_pars (11 + 3 * km_groups c) /\ shear_of c (b_s b) (b_m b) 0 = 4.
Proof.
  intros lo hs c b. unfold b, hs, d3_call. cbv zeta. fold hs.
  refine (conj (or_introl eq_refl) (conj _ (conj _ (conj (d3_in_use _) (conj (offer_accurate _) (conj _ (conj _ (conj _ _)))))))).
  - apply (d3_good lo c18_g); [reflexivity|unfold lo; lra|unfold lo; rewrite (proj1 c18_shear); lra].
  - cbn. lia.
  - cbn. lra.
  - unfold d3_pars. cbn. lra.
  - unfold d3_pars. cbn. lra.
  - transitivity (shear_sum c18_g); [|apply c18_shear]. exact (f_equal shear_sum (d3_rates hs lo c18_g eq_refl)).
Qed.
Example C18_no_slip_case : let hs := offer [- 0] in let c := cls_FCC_B hs in let b := d3_call (- 0) 0 c18_g0 in
  good hs c b /\ (0 < b_n b)%nat /\ in_use c (b_s b) d3_pars /\ accurate hs /\ shear_of c (b_s b) (b_m b) 0 = 0.
Proof.
  intros hs c b. unfold b, hs, d3_call. cbv zeta. fold hs. refine (conj _ (conj _ (conj (d3_in_use _) (conj (offer_accurate _) _)))).
  - apply (d3_good 0 c18_g0); [reflexivity|lra|rewrite (proj2 c18_shear); lra].
  - cbn. lia.
  - transitivity (shear_sum c18_g0); [|apply c18_shear]. exact (f_equal shear_sum (d3_rates hs 0 c18_g0 eq_refl)).
Qed.

(** ** C19. Jacobians handed to the solver of the strength update. *)
Theorem C19_one (sd : Sdot1 R) ho dt x : is_derive (fun h => fst (sd h)) (h1_getHn ho x) (snd (sd (h1_getHn ho x))) ->
  is_derive (fun y => get (fst (h1_computeRJ sd ho dt [y])) 0) (get x 0) (get (snd (h1_computeRJ sd ho dt x)) 0).
Proof. exact (h1_jacobian sd ho dt x). Qed.
Theorem C19_many n (sd : SdotN R) ho dt x i j : length ho = n -> length x = n -> (i < n)%nat -> (j < n)%nat ->
  let h := hn_getHn n ho x in
  is_derive (fun t => get (fst (sd (with_entry h j t))) i) (get h j) (get2 n (snd (sd h)) i j) ->
  is_derive (fun t => get (fst (hn_computeRJ n sd ho dt (with_entry x j t))) i) (get x j) (get2 n (snd (hn_computeRJ n sd ho dt x)) i j).
Proof. exact (hn_jacobian n sd ho dt x i j). Qed.
(** the hardening models meet the hypothesis *)
Theorem C19_voce P ns g ho dt x : length g = ns -> let v := voce_setParams false P in
  let sd := voce_getSdot1 v (voce_getEvolVals v ns g) in
  is_derive (fun y => get (fst (h1_computeRJ sd ho dt [y])) 0) (get x 0) (get (snd (h1_computeRJ sd ho dt x)) 0).
Proof. intros HL v sd. apply h1_jacobian. unfold sd. destruct (voce_getEvolVals v ns g). now apply d_voce_lin. Qed.
Theorem C19_voce_nonlinear P ns g ho dt x : length g = ns -> 0 < nth 8 P 0 -> let v := voce_setParams true P in
  let sat := voce_sat (nth 5 P 0) (nth 8 P 0) (nth 7 P 0) (shear_sum g) in nth 4 P 0 < sat -> ho + nth 0 x 0 * Rmax ho 1 < sat ->
  let sd := voce_getSdot1 v (voce_getEvolVals v ns g) in
  is_derive (fun y => get (fst (h1_computeRJ sd ho dt [y])) 0) (get x 0) (get (snd (h1_computeRJ sd ho dt x)) 0).
Proof.
  intros HL HG v sat HT HS sd. apply h1_jacobian. unfold sd. rewrite (voce_evol v ns g HL HG).
  apply d_voce_nl; [reflexivity|reflexivity|exact HT|exact HS].
Qed.
Theorem C19_km (k : KM R) ns g ho dt x : let sd := km_getSdot1 k (km_getEvolVals k ns g) in
  is_derive (fun y => get (fst (h1_computeRJ sd ho dt [y])) 0) (get x 0) (get (snd (h1_computeRJ sd ho dt x)) 0).
Proof. intros sd. apply h1_jacobian. unfold sd. destruct (km_getEvolVals k ns g). apply d_km. Qed.
(** hypotheses of C19_many: two coupled strengths *)
Example C19_case : let sd : SdotN R := fun h => ([get h 0 * get h 1; get h 0], [get h 1; get h 0; 1; 0]) in
  let h := hn_getHn 2 [1; 2] [3; 4] in
  is_derive (fun t => get (fst (sd (with_entry h 1 t))) 0) (get h 1) (get2 2 (snd (sd h)) 0 1) /\ get2 2 (snd (sd h)) 0 1 = 4.
Proof.
  cbn. rewrite (Rmax_right 1 1) by lra. split; [|ring]. auto_derive; [exact I|]. ring.
Qed.

Print Assumptions C14_km_dissipation.
Print Assumptions C15_km_refuted.
Print Assumptions C16_km_dg.
Print Assumptions C16_km_dtau_refuted.
Print Assumptions C17_update.
Print Assumptions C18_update.
Print Assumptions C19_many.
