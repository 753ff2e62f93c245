(** A strained and turned trial state of the spinning crystal of P_Demo4, away from every switch of the equations. *)
From Coq Require Import List ZArith Bool Lia PeanoNat Reals Lra String.
From Verif Require Import Num Arr NumR Util SlipGeom Eos Hard KinVoce KinKMBalD Elast Evptn MatModel Cases SpecTensor
  SpecElast SpecSlip P_Tensor P_Elast P_Eos P_Sngl P_Sngl2 P_Sngl3 P_Batch P_Batch2 P_Batch3 P_Batch4 P_Api P_Builtin SpecApi P_Hist SpecStress P_Stress
  SpecKin SpecKinApi SpecStep SpecEnergy P_KinV P_Hard P_Kin4 P_Call P_Slip P_SlipH P_Demo P_Demo2 P_Demo3 P_Step P_Step2 P_Step3 P_Energy P_Rest P_Rigid P_Rigid2 P_Rigid3 P_Rigid4 P_Demo4 SpecJac.
Import ListNotations.
Local Open Scope R_scope.

Lemma mk3_eq a b c d e f g h k a' b' c' d' e' f' g' h' k' : a = a' -> b = b' -> c = c' -> d = d' -> e = e' -> f = f' -> g = g' -> h = h' -> k = k' ->
  mk3 a b c d e f g h k = mk3 a' b' c' d' e' f' g' h' k'.
Proof. intros; subst; reflexivity. Qed.
Lemma Rabs_m1 : Rabs (-1) = 1.
Proof. rewrite Rabs_left; lra. Qed.
Lemma d5_strength : strength (b_s (d4_call d4_w)) (b_m1 (d4_call d4_w)) 0 = 1.
Proof.
  destruct (d4_systems checked) as (md & sd & HS).
  assert (W := d4_spins checked). assert (L : List.length d4_w = 3%nat) by reflexivity.
  assert (G := d4_good d4_w L (or_introl W)).
  assert (A1 : (0 < b_n (d4_call d4_w))%nat) by (cbn; lia).
  assert (A2 : in_use (d2_c checked) (b_s (d4_call d4_w)) demo_pars) by exact (d2_in_use checked).
  assert (A3 : 0 < b_dt (d4_call d4_w)) by (cbn; lra).
  assert (A4 := d4_at_rest checked d4_w L).
  assert (A5 : forall rj it, (forall j, (j < 8)%nat -> nth j (fst (rj (rest_x (b_s (d4_call d4_w)) (b_m (d4_call d4_w)) (b_dt (d4_call d4_w)) 0))) 0 = 0) ->
    let r := b_solver (d4_call d4_w) 8%nat rj (nth 2 demo_pars 0) it (tab 8 (fun _ => 0)) in
    so_x r = rest_x (b_s (d4_call d4_w)) (b_m (d4_call d4_w)) (b_dt (d4_call d4_w)) 0 /\ so_xlast r = rest_x (b_s (d4_call d4_w)) (b_m (d4_call d4_w)) (b_dt (d4_call d4_w)) 0).
  { intros rj it HZ. split; reflexivity. }
  destruct (rest_state checked (d2_c checked) (d4_call d4_w) 0 demo_pars G A1 A2 md sd HS checked_keeps A3 A4 (or_introl W) A5) as (A & _).
  rewrite A. rewrite d4_kept. unfold strength, val. change (b_s (d4_call d4_w)) with (d2_s checked). rewrite d2_strides. reflexivity.
Qed.

(** trial state: strain along the first deviatoric axis, rotation 0.01 about (0,0,1) *)
Definition d5_a : R := Rpower (11 / 10) (1 / 3).
Definition d5_X : R := 500 * sqrt 2 * sqrt 2 * sqrt 3 * d5_a.
Definition d5_x : list R := [d5_X; 0; 0; 0; 0; 0; 0; 1].

Lemma d5_tau k : (k < 12)%nat ->
  let t := trial_tau (d2_c checked) demo_pars (d4_call d4_w) 0 (fun i => unitv (cub (fst (nth i sys_fcc d3)))) (fun i => unitv (cub (snd (nth i sys_fcc d3)))) d5_x k in
  Rabs t = 0 \/ Rabs t = / 2 \/ Rabs t = 1.
Proof.
  intros Hk t. unfold t, trial_tau, resolved. change (b_s (d4_call d4_w)) with (d2_s checked). change (b_m (d4_call d4_w)) with (d4_m d4_w).
  destruct (d4_at_rest checked d4_w eq_refl) as (_ & E0 & _). rewrite E0. clear E0.
  assert (EV : vNew (d2_s checked) (d4_m d4_w) 0 = 11 / 10).
  { unfold vNew, val. rewrite d2_strides. cbn. lra. }
  rewrite EV. fold d5_a. set (e := _ - _). clearbody e. set (l := ln (11 / 10) / 3). clearbody l.
  assert (Ha : 0 < d5_a) by (unfold d5_a, Rpower; apply exp_pos).
  assert (H2 : sqrt 2 * sqrt 2 = 2) by (apply sqrt_sqrt; lra). assert (H3 : sqrt 3 * sqrt 3 = 3) by (apply sqrt_sqrt; lra).
  assert (P2 : 0 < sqrt 2) by (apply sqrt_lt_R0; lra). assert (P3 : 0 < sqrt 3) by (apply sqrt_lt_R0; lra).
  assert (EE : add3 (scal3 (/ d5_a) (trial_strain Z3 d5_x)) (scal3 l I3) =
    mk3 (sqrt 2 * sqrt 3 / 4 + l) 0 0 0 (- (sqrt 2 * sqrt 3 / 4) + l) 0 0 0 l).
  { unfold trial_strain, d5_x, d5_X. cbn [map nth]. set (a := d5_a) in *. clearbody a. clear -Ha P2 P3 H2.
    assert (P6 : 0 < sqrt 6) by (apply sqrt_lt_R0; lra).
    cbv [ten5 basis Z3 I3 add3 scal3 nth a00 a01 a02 a10 a11 a12 a20 a21 a22].
    apply mk3_eq; (field_simplify_eq; [ring [H2]|lra]) || (field; lra). }
  rewrite EE. clear EE.
  assert (EL : forall A, scal3 (11 / 10) (latStress (d2_c checked) demo_pars (11 / 10) e A) = hooke_cubic 3 1 1 A).
  { intros A. unfold latStress. change (p_hooke (d2_c checked) demo_pars) with (hooke_cubic 3 1 1). change (p_ghex (d2_c checked) demo_pars) with 0.
    destruct A as [b00 b01 b02 b10 b11 b12 b20 b21 b22]. cbv [hooke_cubic basis add3 scal3 a00 a01 a02 a10 a11 a12 a20 a21 a22]. apply mk3_eq; field; apply Rgt_not_eq, sqrt_lt_R0; lra. }
  rewrite EL. clear EL. set (y := sqrt 2 * sqrt 3 / 4 + l). set (z := - (sqrt 2 * sqrt 3 / 4) + l).
  assert (N2 : forall p q r, p * p + q * q + r * r = 2 -> norm3 (mkV p q r) = sqrt 2) by (intros p q r H; unfold norm3, dotv; cbn [v0 v1 v2]; now rewrite H).
  assert (N3 : forall p q r, p * p + q * q + r * r = 3 -> norm3 (mkV p q r) = sqrt 3) by (intros p q r H; unfold norm3, dotv; cbn [v0 v1 v2]; now rewrite H).
  clear t e EV Ha.
  assert (K : forall u w p q r p' q' r', norm3 (mkV p q r) = u -> norm3 (mkV p' q' r') = w ->
    inner (hooke_cubic 3 1 1 (mk3 y 0 0 0 z 0 0 0 l)) (outer (unitv (mkV p q r)) (unitv (mkV p' q' r'))) =
    / u * / w * ((3 * y + (z + l)) * (p * p') + (3 * z + (y + l)) * (q * q') + (3 * l + (y + z)) * (r * r'))).
  { intros u w p q r p' q' r' Hu Hw. unfold unitv. rewrite Hu, Hw. cbv [inner outer hooke_cubic a00 a01 a02 a10 a11 a12 a20 a21 a22 v0 v1 v2]. ring. }
  do 12 (destruct k as [|k]; [cbn [nth fst snd sys_fcc cub];
    (rewrite (K (sqrt 2) (sqrt 3)) by (first [apply N2; lra|apply N3; lra]);
     match goal with |- Rabs ?q = 0 \/ _ => 
       first [ left; replace q with 0 by (unfold y, z; field; repeat split; lra); apply Rabs_R0
             | right; left; replace q with (/ 2) by (unfold y, z; field; repeat split; lra); apply Rabs_right; lra
             | right; left; replace q with (- / 2) by (unfold y, z; field; repeat split; lra); rewrite Rabs_Ropp; apply Rabs_right; lra
             | right; right; replace q with 1 by (unfold y, z; field; repeat split; lra); apply Rabs_right; lra
             | right; right; replace q with (- 1) by (unfold y, z; field; repeat split; lra); apply Rabs_m1 ] end) |]).
  lia.
Qed.

Lemma d5_smooth : smooth_law checked (d2_c checked) demo_pars (tKel (b_s (d4_call d4_w)) (b_m1 (d4_call d4_w)) 0) 1
  (fun _ => voce_law (kin_par (d2_c checked) demo_pars 2) (kin_par (d2_c checked) demo_pars 1) 1) (kin_par (d2_c checked) demo_pars 2)
  (fun _ tau => Rabs tau / 1 <> Rpower (/ 10 ^ 60) (kin_par (d2_c checked) demo_pars 1) /\ Rabs tau / 1 <> Rpower (10 ^ 60) (kin_par (d2_c checked) demo_pars 1)).
Proof. apply sm_V; [now left| |]; cbn; lra. Qed.

Lemma d5_off k : (k < 12)%nat ->
  let t := trial_tau (d2_c checked) demo_pars (d4_call d4_w) 0 (fun i => unitv (cub (fst (nth i sys_fcc d3)))) (fun i => unitv (cub (snd (nth i sys_fcc d3)))) d5_x k in
  Rabs t / 1 <> Rpower (/ 10 ^ 60) (kin_par (d2_c checked) demo_pars 1) /\ Rabs t / 1 <> Rpower (10 ^ 60) (kin_par (d2_c checked) demo_pars 1).
Proof.
  intros Hk t. pose proof (d5_tau k Hk) as H. cbv zeta in H. fold t in H. clearbody t. replace (Rabs t / 1) with (Rabs t) by field.
  change (kin_par (d2_c checked) demo_pars 1) with (/ 10).
  assert (E : Rpower (10 ^ 60) (/ 10) = 10 ^ 6).
  { rewrite <- !Rpower_pow, Rpower_mult by lra. f_equal. cbn. lra. }
  assert (E' : Rpower (/ 10 ^ 60) (/ 10) = / 10 ^ 6).
  { rewrite <- E. unfold Rpower. rewrite ln_Rinv by (apply pow_lt; lra). rewrite <- exp_Ropp. f_equal. ring. }
  rewrite E, E'. lra.
Qed.
Lemma d5_rot : / 10 ^ 9 <= norm3 (trial_rot d5_x).
Proof.
  unfold trial_rot, d5_x, scalv, norm3, dotv. cbn [nth v0 v1 v2].
  replace (sqrt _) with (1 / 100); [lra|]. symmetry. replace (1 / 100 * 0 * (1 / 100 * 0) + 1 / 100 * 0 * (1 / 100 * 0) + 1 / 100 * 1 * (1 / 100 * 1)) with ((1 / 100) * (1 / 100)) by field. apply sqrt_square. lra.
Qed.
