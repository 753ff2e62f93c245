(** Schmid data stored as doubles: finite, and close to the data of given systems. *)
From Coq Require Import List ZArith Reals.
From Flocq Require Import IEEE754.BinarySingleNaN.
From Verif Require Import NumD SpecTensor SpecSlip.
Local Open Scope R_scope.

Definition within (x : dbl) (X e : R) : Prop := is_finite x = true /\ Rabs (B2R x - X) <= e.
(** as [schmid_data] of SpecSlip.v, but up to [e] per entry *)
Definition schmid_near (e : R) (P Q : list dbl) (n : nat) (m s : nat -> V3) : Prop :=
  length P = (5 * n)%nat /\ length Q = (3 * n)%nat /\
  forall i, (i < n)%nat ->
    (forall k, (k < 5)%nat -> within (nth (k * n + i) P B754_nan) (inner (symp (outer (s i) (m i))) (basis k)) e) /\
    exists w, axial w = skwp (outer (s i) (m i)) /\
      within (nth i Q B754_nan) (v0 w) e /\ within (nth (n + i) Q B754_nan) (v1 w) e /\ within (nth (2 * n + i) Q B754_nan) (v2 w) e.
