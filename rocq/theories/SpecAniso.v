(** Specification of Voce hardening with one strength per slip system, in terms of the parameter vector:
    mu, xm, gam_w, h0, tausi[n], taus0, [exponent], xms, gamss0, h_init. *)
From Coq Require Import List Bool Reals.
From Verif Require Import Num Hard SpecKin.
Import ListNotations.
Local Open Scope R_scope.

Definition an_sat (nl : bool) (n : nat) (P : list R) (shr : R) : R :=
  let k := if nl then 1%nat else 0%nat in voce_sat (nth (4 + n) P 0) (nth (6 + n + k) P 0) (nth (5 + n + k) P 0) shr.
(** rate of the strength of system [i], which depends on its own strength only *)
Definition an_rate (n : nat) (P : list R) (shr : R) (i : nat) (h : R) : R :=
  voce_hardening (nth 3 P 0) (nth (4 + i) P 0) (an_sat false n P shr) shr h.
Definition an_rate_nl (n : nat) (P : list R) (shr : R) (i : nat) (h : R) : R :=
  voce_hardening_nl (nth 3 P 0) (nth (4 + i) P 0) (an_sat true n P shr) (nth (5 + n) P 0) shr h.
(** [h] is the answer, to the solver's tolerance, of one implicit step of the [n] coupled equations [h' = f h] *)
Definition implicit_step_n (n : nat) (f : list R -> list R) (dt : R) (ho h : list R) : Prop :=
  length h = n /\ forall i, (i < n)%nat ->
    Rabs (nth i h 0 - (nth i ho 0 + dt * nth i (f h) 0)) <= / 10 ^ 10 * Rmax (nth i ho 0) 1.
