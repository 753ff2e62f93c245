(** How exact the thermodynamic results are on doubles: exact formulas evaluated on the doubles that were read and stored. *)
From Coq Require Import List ZArith Bool Reals.
From Flocq Require Import Core IEEE754.BinarySingleNaN.
From Verif Require Import Num SpecTensor SpecApi Hard MatModel Cases NumD SpecDbl SpecDblFin.
Import ListNotations.
Local Open Scope R_scope.

(** [x] is [r] up to 1e-13 of [m] and an absolute 1e-40 *)
Definition within (x r m : R) : Prop := Rabs (x - r) <= / 10 ^ 13 * m + / 10 ^ 40.

(** values read (before the call) and stored (after it) *)
Definition rin (b : DCall) (a : arr) (i k : nat) : R := B2R (dval (d_s b) (d_m b) a i k).
Definition rout (b : DCall) (a : arr) (i k : nat) : R := B2R (dval (d_s b) (d_m1 b) a i k).
Definition rpar (pars : list dbl) (k : nat) : R := B2R (dpar pars k).
Definition mag_of (f : nat -> R) (k : nat) : R := Rabs (f k).

(** Meaning of the parameters, as in SpecApi.v *)
Definition is_hex (c : MClass dbl) : bool := Nat.eqb (c_elNP c) 6.
Definition bulk_of (c : MClass dbl) (p : nat -> R) : R :=
  if is_hex c then (2 * (p 4%nat + p 5%nat) + 4 * p 6%nat + p 7%nat) / 9 else (p 3%nat + 2 * p 4%nat) / 3.
Definition i_gamma (c : MClass dbl) : nat := 3 + c_sgNP c + c_elNP c + c_kinNP c.
Definition i_ec0 (c : MClass dbl) : nat := S (i_gamma c).

(** ** Internal energy *)
(** stress power of the Voigt components [s] and [d] *)
Definition power (s d : nat -> R) : R := inner (sym6 s) (sym6 d).
Definition work_on (s0 s1 d : nat -> R) (dt v0 v1 dv p : R) : R :=
  - dv * p + dt * ((v0 + v1) / 2) * ((power s0 d + power s1 d) / 2).
Definition dwork (b : DCall) (i : nat) : R :=
  work_on (rin b AS i) (rout b AS i) (rin b AD i) (B2R (d_dt b)) (rin b AV i 0) (rin b AV i 1) (rin b AV i 3) (rin b AS i 6).
(** the same with every term replaced by its magnitude *)
Definition dwork_mag (b : DCall) (i : nat) : R :=
  Rabs (rin b AV i 3) * Rabs (rin b AS i 6) +
  work_on (mag_of (rin b AS i)) (mag_of (rout b AS i)) (mag_of (rin b AD i)) (Rabs (B2R (d_dt b))) (rin b AV i 0) (rin b AV i 1) 0 0.
(** the second call gets the energies the first one left *)
Definition efollows (b b' : DCall) : Prop :=
  mm_strides (d_s b') = mm_strides (d_s b) /\ d_n b' = d_n b /\ d_m b' AE = d_m1 b AE.
Fixpoint echain (L : Libm) (hs : Solver dbl) (c : MClass dbl) (l : list DCall) : Prop :=
  match l with
  | [] => True
  | b :: r => dgood L hs c b /\ match r with [] => True | b' :: _ => efollows b b' end /\ echain L hs c r
  end.

(** energy of point [i] after the calls [b :: l]; sums over the calls *)
Definition efinal (b : DCall) (l : list DCall) (i : nat) : R := rout (last l b) AE i 0.
Definition over (f : DCall -> R) (l : list DCall) : R := fold_right (fun b x => f b + x) 0 l.
(** what the error of one call is relative to *)
Definition escale (b : DCall) (i : nat) : R := Rabs (rin b AE i 0) + dwork_mag b i.

(** inputs, parameters and solver answers in the range of SpecDblFin.v *)
Definition mcall (L : Libm) (c : MClass dbl) (i : nat) (b : DCall) : Prop :=
  (i < d_n b)%nat /\ moderate_point b i /\ moderate_answers (d_solver b) /\
  exists pars, @in_use dbl (DNum L) c (d_s b) pars /\ moderate_params c pars.

(** ** Pressure, temperature, bulk modulus *)
(** c13 + c33 - c11 - c12 *)
Definition coupling_of (c : MClass dbl) (p : nat -> R) : R := if is_hex c then p 6%nat + p 7%nat - p 4%nat - p 5%nat else 0.
Definition coupling_mag (c : MClass dbl) (p : nat -> R) : R :=
  if is_hex c then Rabs (p 6%nat) + Rabs (p 7%nat) + Rabs (p 4%nat) + Rabs (p 5%nat) else 0.
Definition dpress (c : MClass dbl) (pars : list dbl) (b : DCall) (i : nat) : R :=
  let v := rin b AV i 1 in
  bulk_of c (rpar pars) * (/ v - 1) + rpar pars (i_gamma c) * (rin b AE i 0 - rin b AV i 3 * rin b AS i 6)
  - sqrt 6 / 9 * coupling_of c (rpar pars) * rout b AH i 5 / Rpower v (4 / 3).
Definition dpress_mag (c : MClass dbl) (pars : list dbl) (b : DCall) (i : nat) : R :=
  let v := rin b AV i 1 in
  bulk_of c (mag_of (rpar pars)) * (/ v + 1) + Rabs (rpar pars (i_gamma c)) * (Rabs (rin b AE i 0) + Rabs (rin b AV i 3) * Rabs (rin b AS i 6))
  + sqrt 6 / 9 * coupling_mag c (rpar pars) * Rabs (rout b AH i 5) / Rpower v (4 / 3).
Definition dtemp (c : MClass dbl) (pars : list dbl) (e : R) : R := (e - rpar pars (i_ec0 c)) / rpar pars 1.
Definition dtemp_mag (c : MClass dbl) (pars : list dbl) (e : R) : R := (Rabs e + Rabs (rpar pars (i_ec0 c))) / Rabs (rpar pars 1).
Definition dbulk (c : MClass dbl) (pars : list dbl) (b : DCall) (i : nat) : R :=
  let v := rin b AV i 1 in let K := bulk_of c (rpar pars) in
  Rmax (/ 100000 * K) (K / v + rpar pars (i_gamma c) * rin b AS i 6 * v).
Definition dbulk_mag (c : MClass dbl) (pars : list dbl) (b : DCall) (i : nat) : R :=
  let v := rin b AV i 1 in let K := bulk_of c (mag_of (rpar pars)) in
  K * (/ v + 1) + Rabs (rpar pars (i_gamma c)) * Rabs (rin b AS i 6) * v.
