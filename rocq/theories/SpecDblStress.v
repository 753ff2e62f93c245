(** What the deviatoric stress stored by a call on doubles should be: Hooke's law for the elastic strain stored, turned by the
    orientation stored.  Exact formulas evaluated on the doubles read and stored, as in SpecStress.v. *)
From Coq Require Import List ZArith Bool Reals.
From Flocq Require Import Core IEEE754.BinarySingleNaN.
From Verif Require Import Num SpecTensor SpecApi SpecElast SpecStep Hard MatModel Cases NumD SpecDbl SpecDblFin SpecDblAcc.
Import ListNotations.
Local Open Scope R_scope.

(** [x] is [r] up to 1e-12 of [m] and an absolute 1e-40 *)
Definition within12 (x r m : R) : Prop := Rabs (x - r) <= / 10 ^ 12 * m + / 10 ^ 40.

(** Lattice strain: the five stored components scaled by v^(1/3), and ln v / 3 times the identity *)
Definition dlatStrain (b : DCall) (i : nat) : M3 :=
  let v := rin b AV i 1 in
  add3 (scal3 (/ Rpower v (/ 3)) (ten5 (map (fun k => rout b AH i (4 + k)) [0; 1; 2; 3; 4]%nat))) (scal3 (ln v / 3) I3).
Definition dhooke (c : MClass dbl) (p : nat -> R) : M3 -> M3 :=
  if is_hex c then hooke_hex (p 4%nat) (p 5%nat) (p 6%nat) (p 7%nat) (p 8%nat) else hooke_cubic (p 3%nat) (p 4%nat) (p 5%nat).
(** thermal-pressure anisotropy (hexagonal crystals), multiplies the energy after the volume work *)
Definition dghex (c : MClass dbl) (p : nat -> R) : R := if is_hex c then p 9%nat else 0.
(** stress in the crystal frame up to its spherical part *)
Definition dlatStress (c : MClass dbl) (pars : list dbl) (b : DCall) (i : nat) : M3 :=
  add3 (scal3 (/ rin b AV i 1) (dhooke c (rpar pars) (dlatStrain b i)))
       (scal3 (- (dghex c (rpar pars) * (rin b AE i 0 - rin b AV i 3 * rin b AS i 6))) (basis 1)).
(** orientation stored, scaled to length 1 *)
Definition dunit (b : DCall) (i : nat) : list R := unit4 (map B2R (dquat (d_s b) (d_m1 b) i)).

(** what the error is relative to: magnitudes of the elastic constants times those of the strains, and of the thermal term *)
Definition dstiff (c : MClass dbl) (p : nat -> R) : R :=
  if is_hex c then 2 * (Rabs (p 4%nat) + Rabs (p 5%nat) + Rabs (p 6%nat) + Rabs (p 7%nat) + Rabs (p 8%nat))
  else 2 * (Rabs (p 3%nat) + Rabs (p 4%nat) + Rabs (p 5%nat)).
Definition dstress_mag (c : MClass dbl) (pars : list dbl) (b : DCall) (i : nat) : R :=
  let v := rin b AV i 1 in let e := fun k => Rabs (rout b AH i (4 + k)) in
  dstiff c (rpar pars) * ((e 0%nat + e 1%nat + e 2%nat + e 3%nat + e 4%nat) / Rpower v (4 / 3) + (if is_hex c then (1 + Rabs (ln v)) / v else 0))
  + Rabs (dghex c (rpar pars)) * (Rabs (rin b AE i 0) + Rabs (rin b AV i 3) * Rabs (rin b AS i 6)).
