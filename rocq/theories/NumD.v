(** The fourth instance of [Num]: IEEE 754 binary64 with rounding to nearest even, signed zeros, infinities and one NaN,
    as formalised by Flocq.  Every operation of the C++ text is one rounded operation: no excess precision and no
    contraction into fused multiply-add.  exp, log, sin, cos and pow are those of some mathematical library [Libm]; what
    is assumed of it is stated in SpecDbl.v and in the theorems. *)
From Coq Require Import List ZArith Bool Reals.
From Flocq Require Import Core IEEE754.BinarySingleNaN.
From Verif Require Import Num NumR Const.
Import ListNotations.

Definition dprec : Prec_gt_0 53 := eq_refl.
Definition demax : Prec_lt_emax 53 1024 := eq_refl.
#[export] Existing Instance dprec.
#[export] Existing Instance demax.

Notation dbl := (binary_float 53 1024).
(** the nearest double of a real number *)
Definition dfexp : Z -> Z := SpecFloat.fexp 53 1024.
Definition rnd (x : R) : R := round radix2 dfexp ZnearestE x.
Definition R2D (x : R) : dbl :=
  binary_normalize 53 1024 dprec demax mode_NE (Ztrunc (scaled_mantissa radix2 dfexp (rnd x))) (cexp radix2 dfexp (rnd x)) false.
Definition Z2D (z : Z) : dbl := binary_normalize 53 1024 dprec demax mode_NE z 0 false.

Record Libm := { lm_exp : dbl -> dbl; lm_log : dbl -> dbl; lm_sin : dbl -> dbl; lm_cos : dbl -> dbl; lm_pow : dbl -> dbl -> dbl }.

(** fmax and fmin: a NaN is ignored if the other operand is a number *)
Definition dmax (x y : dbl) : dbl := if is_nan x then y else if is_nan y then x else if Bltb x y then y else x.
Definition dmin (x y : dbl) : dbl := if is_nan x then y else if is_nan y then x else if Bltb x y then x else y.
Definition dcopysign (x y : dbl) : dbl := if Bsign y then Bopp (Babs x) else Babs x.
(** a literal of ECMech_const.h *)
Definition dconst (l : Z * Z) : dbl := R2D (Rlit (fst l) (snd l)).

Definition DNum (L : Libm) : Num dbl := {|
  nundef := B754_nan; nZ := Z2D; nlit m e := R2D (Rlit m e);
  nadd := Bplus mode_NE; nsub := Bminus mode_NE; nmul := Bmult mode_NE; ndiv := Bdiv mode_NE; nopp := Bopp; nabs := Babs;
  nsqrt := Bsqrt mode_NE; nexp := lm_exp L; nlog := lm_log L; nsin := lm_sin L; ncos := lm_cos L; npow := lm_pow L;
  ncopysign := dcopysign; nmax := dmax; nmin := dmin; nltb := Bltb; nleb := Bleb; neqb := Beqb;
  sqr2 := dconst lit_SQRT2; sqr3 := dconst lit_SQRT3; sqr3b2 := dconst lit_SQRT3B2; sqr2i := dconst lit_SQRT2I;
  sqr3i := dconst lit_SQRT3I; sqr6 := dconst lit_SQRT6; sqr6i := dconst lit_SQRT6I; sqr2b3 := dconst lit_SQRT2B3;
  halfsqr3 := dconst lit_HALFSQRT3; twosqr3 := dconst lit_TWOSQRT3
|}.
