(** Finite results on doubles: what is assumed of exp, log and pow, and what "moderate" inputs are. *)
From Coq Require Import List ZArith Bool Reals.
From Flocq Require Import Core IEEE754.BinarySingleNaN.
From Verif Require Import Num Hard MatModel Cases NumD SpecDbl.
Import ListNotations.
Local Open Scope R_scope.

(** [y] is finite and equals [r] up to a relative error of 2^-50 and an absolute one of 1e-300 *)
Definition accurate (y : dbl) (r : R) : Prop := is_finite y = true /\ Rabs (B2R y - r) <= / 2 ^ 50 * Rabs r + / 10 ^ 300.
(** exp, log and pow on finite arguments whose exact result does not exceed 1e300 *)
Definition libm_ok (L : Libm) : Prop :=
  (forall x, is_finite x = true -> exp (B2R x) <= 10 ^ 300 -> accurate (lm_exp L x) (exp (B2R x))) /\
  (forall x, is_finite x = true -> 0 < B2R x -> accurate (lm_log L x) (ln (B2R x))) /\
  (forall x y, is_finite x = true -> is_finite y = true -> 0 < B2R x -> Rpower (B2R x) (B2R y) <= 10 ^ 300 ->
     accurate (lm_pow L x y) (Rpower (B2R x) (B2R y))).

(** finite and at most 1e30 in magnitude *)
Definition moderate (x : dbl) : Prop := is_finite x = true /\ Rabs (B2R x) <= 10 ^ 30.
(** entry [k] of the parameters *)
Definition dpar (pars : list dbl) (k : nat) : dbl := nth k pars B754_nan.

(** Inputs of point [i]: deformation rate, relative volumes between 1e-3 and 1e3, volume increment, internal energy,
    stress, elastic strain, an orientation of length between 1e-100 and 1e100. *)
Record moderate_point (b : DCall) (i : nat) : Prop := {
  mp_dt : moderate (d_dt b);
  mp_d : forall k, (k < 6)%nat -> moderate (dval (d_s b) (d_m b) AD i k);
  mp_v : forall k, (k < 2)%nat -> let v := dval (d_s b) (d_m b) AV i k in is_finite v = true /\ / 1000 <= B2R v <= 1000;
  mp_dv : moderate (dval (d_s b) (d_m b) AV i 3);
  mp_e : moderate (dval (d_s b) (d_m b) AE i 0);
  mp_s : forall k, (k < 7)%nat -> moderate (dval (d_s b) (d_m b) AS i k);
  mp_el : forall k, (k < 5)%nat -> moderate (dval (d_s b) (d_m b) AH i (4 + k));
  mp_q : finite (dquat (d_s b) (d_m b) i) /\ / 10 ^ 200 <= norm2 (dquat (d_s b) (d_m b) i) <= 10 ^ 200
}.
(** Parameters: a specific heat between 1e-30 and 1e30; elastic constants, Grueneisen parameter and reference energy at
    most 1e30. *)
Definition moderate_params (c : MClass dbl) (pars : list dbl) : Prop :=
  (is_finite (dpar pars 1) = true /\ / 10 ^ 30 <= Rabs (B2R (dpar pars 1)) <= 10 ^ 30) /\
  (forall k, (k < c_elNP c)%nat -> moderate (dpar pars (3 + c_sgNP c + k))) /\
  (forall k, (k < 2)%nat -> moderate (dpar pars (3 + c_sgNP c + c_elNP c + c_kinNP c + k))).

(** ** Slip rates *)
(** models with Voce hardening *)
Definition voce_class (L : Libm) (hs : Solver dbl) (c : MClass dbl) : Prop :=
  c = @cls_FCC_A dbl (DNum L) hs \/ c = @cls_FCC_AH dbl (DNum L) hs \/ c = @cls_BCC_B dbl (DNum L) hs \/ c = @cls_BCC_BH dbl (DNum L) hs.
(** rate sensitivity between 1e-6 and 1, reference rate at most 1e30 *)
Definition moderate_rates (pars : list dbl) : Prop :=
  (is_finite (dpar pars 7) = true /\ / 1000000 <= B2R (dpar pars 7) <= 1) /\ moderate (dpar pars 8).
(** the last point at which the solver evaluated its function is below 1e100 too *)
Definition moderate_last (solver : Solver dbl) : Prop := forall n f tol it x0, let r := solver n f tol it x0 in
  so_converged r = true -> length (so_xlast r) = n /\ Forall (fun x => is_finite x = true /\ Rabs (B2R x) <= 10 ^ 100) (so_xlast r).
