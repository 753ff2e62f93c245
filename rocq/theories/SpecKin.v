(** Specification of the slip kinetics and of the hardening laws, written without the model. *)
From Coq Require Import List ZArith Bool Reals Lra.
From Verif Require Import Num Hard.
Import ListNotations.
Local Open Scope R_scope.

Definition sgn (x : R) : R := if Rlt_dec x 0 then -1 else if Rlt_dec 0 x then 1 else 0.

(** What the documentation of the external solver promises for an answer it reports as converged: every
    residual entry is within the tolerance it was given. *)
Definition accurate (hs : Solver R) : Prop := forall n rj tol it x0,
  so_converged (hs n rj tol it x0) = true ->
  forall i, (i < n)%nat -> Rabs (nth i (fst (rj (so_x (hs n rj tol it x0)))) 0) <= tol.

(** components of what a slip-rate evaluation returns *)
Definition rate (r : R * bool * R * R) : R := fst (fst (fst r)).
Definition active (r : R * bool * R * R) : bool := snd (fst (fst r)).
Definition rate_dtau (r : R * bool * R * R) : R := snd (fst r).
Definition rate_dg (r : R * bool * R * R) : R := snd r.

(** Power law with rate sensitivity [xm], reference rate [gw] and strength [g]. *)
Definition power_rate (gw xm g tau : R) : R := sgn tau * gw * Rpower (Rabs tau / g) (1 / xm).
(** The power law is cut off where |rate| / gw leaves [1e-60, 1e60]; beyond, a constant 1e45 gw is used. *)
Definition voce_law (gw xm g tau : R) : R :=
  if Rle_dec (Rabs tau / g) (Rpower (/ 10 ^ 60) xm) then 0
  else if Rle_dec (Rabs tau / g) (Rpower (10 ^ 60) xm) then power_rate gw xm g tau
  else sgn tau * (10 ^ 45 * gw).

(** Voce hardening rate: [sat] the saturation strength at the current rate, [tausi] the initial one *)
Definition voce_hardening (h0 tausi sat shr h : R) : R :=
  if Rle_dec sat tausi then 0 else h0 * ((sat - h) / (sat - tausi)) * shr.
(** saturation strength *)
Definition voce_sat (taus0 gamss0 xms shr : R) : R :=
  if Rlt_dec (/ 10 ^ 90) shr then taus0 * Rpower (shr / gamss0) xms else taus0.

(** [h] solves one backward-Euler step of [h' = rate h] from [h0] *)
Definition implicit_step (f : R -> R) (dt h_o h : R) : Prop := h = h_o + dt * f h.
(** effective shear rate of a list of slip rates *)
Definition shear_sum (gdot : list R) : R := fold_right Rplus 0 (map Rabs gdot).

(** nonlinear Voce hardening, exponent [m], below saturation *)
Definition voce_hardening_nl (h0 tausi sat m shr h : R) : R :=
  h0 * Rpower ((sat - h) / (sat - tausi)) m * shr.
(** rate of the logarithm of the dislocation density: storage [k1], annihilation [k2] *)
Definition km_hardening (k1 k2 shr rho : R) : R := (k1 / sqrt rho - k2) * shr.
Definition km_k2_at (k2o gamma_o ninv shr : R) : R :=
  if Rlt_dec (/ 10 ^ 90) shr then k2o * Rpower (gamma_o / shr) ninv else k2o.
(** list with one entry replaced *)
Definition with_entry (l : list R) (j : nat) (t : R) : list R := firstn j l ++ t :: skipn (S j) l.

(** ** Thermally activated kinetics with drag, without the model. *)
Record KMLaw := {
  l_w : R;      (* reference rate of thermal activation *)
  l_r : R;      (* reference rate of phonon drag *)
  l_c : R;      (* activation energy over k T *)
  l_p : R; l_q : R;
  l_lin : bool; (* p = 1 is treated apart *)
  l_ath : R;    (* athermal strength *)
  l_g : R;      (* thermal strength *)
  l_D : R;      (* drag stress *)
  l_n : R;      (* exponent of the power-law part *)
  l_tmin : R; l_tmax : R;   (* bounds of the power-law part *)
}.
(** signed power and energy barrier at a normalised stress *)
Definition spow (L : KMLaw) (t : R) : R :=
  if l_lin L then t else if Rlt_dec (Rabs t) (/ 10 ^ 90) then 0 else sgn t * Rpower (Rabs t) (l_p L).
Definition activation (L : KMLaw) (t : R) : R :=
  if Rlt_dec (1 - spow L t) (/ 10 ^ 90) then 0 else - l_c L * Rpower (1 - spow L t) (l_q L).
Definition drag (L : KMLaw) (s : R) : R :=
  let x := (s - l_ath L) / l_D L in if Rlt_dec x (/ 10 ^ 8) then l_r L * x else l_r L * (1 - exp (- x)).
Definition forward (L : KMLaw) (s : R) : R := activation L ((s - l_ath L) / l_g L).
Definition backward (L : KMLaw) (s : R) : R := activation L ((- s - l_ath L) / l_g L).
(** ln 1e-60 as the code writes it *)
Definition ln_cut : R := - 138.16.
Definition balanced (L : KMLaw) (s : R) : R :=
  if Rlt_dec ln_cut (backward L s) then l_w L * exp (backward L s) else 0.
Definition powerlaw (L : KMLaw) (s : R) : R :=
  let t := (s - l_ath L) / l_g L in if Rlt_dec (l_tmin L) t then 10 * l_w L * Rpower t (l_n L) else 0.
Definition thermal (L : KMLaw) (s : R) : R := l_w L * exp (forward L s) - balanced L s + powerlaw L s.
(** magnitude of the slip rate at stress magnitude [s]: harmonic mean of thermal and drag rates, cut off *)
Definition km_mag (L : KMLaw) (s : R) : R :=
  if Rlt_dec ((s - l_ath L) / l_D L) (/ 10 ^ 60) then 0
  else if Rlt_dec (l_tmax L) ((s - l_ath L) / l_g L) then drag L s
  else if Rlt_dec (forward L s) ln_cut then 0
  else if Rlt_dec ln_cut (backward L s) then
    if Rlt_dec (exp (forward L s) - exp (backward L s)) (/ 10 ^ 60) then 0
    else / (/ thermal L s + / drag L s)
  else / (/ thermal L s + / drag L s).
Definition km_law (L : KMLaw) (tau : R) : R := sgn tau * km_mag L (Rabs tau).
(** parameter ranges of the documentation *)
Definition km_range (L : KMLaw) : Prop :=
  0 < l_w L /\ 0 < l_r L /\ 0 < l_c L /\ 0 < l_p L /\ 0 < l_q L /\ 0 <= l_ath L /\ 0 < l_g L /\ 0 < l_D L /\ 0 < l_n L /\ 0 <= l_tmin L /\
  (l_lin L = true -> l_p L = 1).
(** the same law at another athermal strength and thermal strength *)
Definition at_strength (L : KMLaw) (a g : R) : KMLaw :=
  {| l_w := l_w L; l_r := l_r L; l_c := l_c L; l_p := l_p L; l_q := l_q L; l_lin := l_lin L; l_ath := a; l_g := g;
     l_D := l_D L; l_n := l_n L; l_tmin := l_tmin L; l_tmax := l_tmax L |}.
(** a normalised stress at which the activation energy is smooth: not within 1e-90 of zero, not on the
    edge where the barrier is taken as overcome *)
Definition smooth_at (L : KMLaw) (t : R) : Prop := (l_lin L = false -> / 10 ^ 90 < Rabs t) /\ t <> 0 /\ 1 - spow L t <> / 10 ^ 90.
(** a stress magnitude inside a branch where both mechanisms act, off every switch *)
Definition interior (L : KMLaw) (s : R) : Prop :=
  let t := (s - l_ath L) / l_g L in
  / 10 ^ 8 < (s - l_ath L) / l_D L /\ t < l_tmax L /\ t <> l_tmin L /\ smooth_at L t /\
  ln_cut < forward L s /\ backward L s <> ln_cut /\
  (ln_cut < backward L s -> / 10 ^ 60 < exp (forward L s) - exp (backward L s)).
(** inside the branch where drag alone limits the rate *)
Definition interior_drag (L : KMLaw) (s : R) : Prop := / 10 ^ 8 < (s - l_ath L) / l_D L /\ l_tmax L < (s - l_ath L) / l_g L.
(** inside the branches where there is no slip *)
Definition interior_off (L : KMLaw) (s : R) : Prop :=
  let t := (s - l_ath L) / l_g L in
  (s - l_ath L) / l_D L < / 10 ^ 60 \/ (/ 10 ^ 60 < (s - l_ath L) / l_D L /\ t < l_tmax L /\ smooth_at L t /\ forward L s < ln_cut).

(** ** The law of a parameter vector
    Order of the parameters (documentation of the KMBalD models): mu, T_ref, c_1[n], tau_a, p, q, gam_w, gam_r,
    wrD, go[n], s[n], k1, k2o, ninv, gamma_o, rho_0; [rho] dislocation density, [T] temperature, [v] index of
    the slip system, or 0 when all systems share their constants. *)
Definition km_exponent (n : nat) (P : list R) (v : nat) : R :=
  2 * (nth (2 + v) P 0 / nth 1 P 0 * nth 0 P 0 * nth (3 + n) P 0 * nth (4 + n) P 0).
Definition km_strength (n : nat) (P : list R) (rho : R) (v : nat) : R := nth (8 + n + v) P 0 + nth (8 + n + n + v) P 0 * sqrt rho.
Definition km_spec (ga lin : bool) (n : nat) (P : list R) (rho T : R) (v : nat) : KMLaw := {|
  l_w := nth (5 + n) P 0 / sqrt rho; l_r := nth (6 + n) P 0 * rho;
  l_c := nth (2 + v) P 0 / T * nth 0 P 0;
  l_p := nth (3 + n) P 0; l_q := nth (4 + n) P 0; l_lin := lin;
  l_ath := if ga then km_strength n P rho v else nth (2 + n) P 0;
  l_g := if ga then nth (2 + n) P 0 else km_strength n P rho v;
  l_D := nth (7 + n) P 0; l_n := km_exponent n P v;
  l_tmin := Rpower (/ 10 ^ 60) (/ km_exponent n P v); l_tmax := Rpower (10 ^ 60) (/ km_exponent n P v) |}.
(** parameters in the documented ranges *)
Definition km_params_ok (ga lin : bool) (n : nat) (P : list R) (rho T : R) (v : nat) : Prop :=
  0 < rho /\ 0 < T /\ 0 < nth 0 P 0 /\ 0 < nth 1 P 0 /\ 0 < nth (2 + v) P 0 /\ 0 < nth (3 + n) P 0 /\ 0 < nth (4 + n) P 0 /\
  0 < nth (5 + n) P 0 /\ 0 < nth (6 + n) P 0 /\ 0 < nth (7 + n) P 0 /\
  (if ga then 0 < nth (2 + n) P 0 /\ 0 <= km_strength n P rho v else 0 <= nth (2 + n) P 0 /\ 0 < km_strength n P rho v) /\
  (lin = true -> nth (3 + n) P 0 = 1).
(** tau . gdot *)
Definition dissipation (tau gdot : list R) : R := fold_right Rplus 0 (map (fun p => fst p * snd p) (combine tau gdot)).
