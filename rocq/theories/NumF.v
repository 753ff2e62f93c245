(** Scalars: IEEE binary64.  Used only to run the model (Validate.v); no theorem is about this instance.
    exp, log, sin, cos and pow are series good to a few units in the last place, not the C library's. *)
From Coq Require Import List ZArith Bool Uint63 Floats.
From Verif Require Import Num.
Import ListNotations.
Local Open Scope float_scope.

Definition F_Z (z : Z) : float :=
  match z with
  | Z0 => 0
  | Zpos _ => of_uint63 (Uint63.of_Z z)
  | Zneg p => - of_uint63 (Uint63.of_Z (Zpos p))
  end.
Fixpoint F_powp (b : float) (p : positive) : float :=
  match p with
  | xH => b
  | xO q => let r := F_powp b q in r * r
  | xI q => let r := F_powp b q in b * (r * r)
  end.
(** m * 10^e *)
Definition F_lit (m e : Z) : float :=
  match e with
  | Z0 => F_Z m
  | Zpos p => F_Z m * F_powp 10 p
  | Zneg p => F_Z m / F_powp 10 p
  end.

Definition F_neg (x : float) : bool := (x <? 0) || ((x =? 0) && (1 / x <? 0)).
Definition F_copysign (x y : float) : float := if F_neg y then - abs x else abs x.
Definition F_nan (x : float) : bool := negb (x =? x).
Definition F_max (x y : float) : float := if F_nan x then y else if F_nan y then x else if x <? y then y else x.
Definition F_min (x y : float) : float := if F_nan x then y else if F_nan y then x else if x <? y then x else y.

(** 1 + x/k (1 + x/(k+1) (...)), [n] terms *)
Fixpoint F_horner (n : nat) (k x : float) : float :=
  match n with O => 1 | S n' => 1 + x / k * F_horner n' (k + 1) x end.
Definition ln2 : float := 0x1.62e42fefa39efp-1.
Definition ln2_hi : float := 0x1.62e42feep-1.           (* few bits: k * ln2_hi is exact *)
Definition ln2_lo : float := 0x1.a39ef35793c76p-33.
(** nearest integer of a moderate float *)
Definition F_round (x : float) : Z :=
  let a := Uint63.to_Z (normfr_mantissa (fst (frshiftexp (abs x)))) in
  let e := (Uint63.to_Z (snd (frshiftexp (abs x))) - shift)%Z in     (* |x| = a / 2^53 * 2^e *)
  let q := Z.shiftr (a + Z.shiftl 1 (52 - e)) (53 - e) in
  if x <? 0 then (- q)%Z else q.
Definition F_exp (x : float) : float :=
  if F_nan x then x else if 710 <? x then infinity else if x <? -745 then 0 else
  let k := F_round (x / ln2) in
  let r := (x - F_Z k * ln2_hi) - F_Z k * ln2_lo in
  Z.ldexp (F_horner 18 1 r) k.
(** sum of z^(2j)/(2j+1) *)
Fixpoint F_atanh (n : nat) (k z2 : float) : float :=
  match n with O => 1 / k | S n' => 1 / k + z2 * F_atanh n' (k + 2) z2 end.
Definition F_log (x : float) : float :=
  if F_nan x then x else if x <? 0 then nan else if x =? 0 then neg_infinity else if x =? infinity then x else
  let '(m, e) := Z.frexp x in                        (* m in [1/2, 1) *)
  let '(m, e) := if m <? 0x1.6a09e667f3bcdp-1 then (m * 2, (e - 1)%Z) else (m, e) in
  let z := (m - 1) / (m + 1) in
  F_Z e * ln2_hi + (F_Z e * ln2_lo + 2 * z * F_atanh 22 1 (z * z)).
Definition F_pow (x y : float) : float :=
  if y =? 0 then 1 else if x =? 1 then 1 else
  if x =? 0 then (if y <? 0 then infinity else 0) else F_exp (y * F_log x).
Fixpoint F_trig (n : nat) (k x2 : float) : float :=
  match n with O => 1 | S n' => 1 - x2 / (k * (k + 1)) * F_trig n' (k + 2) x2 end.
Definition twopi_hi : float := 0x1.921fb54p+2.
Definition twopi_lo : float := 0x1.10b4611a62633p-28.
Definition F_redu (x : float) : float := let k := F_Z (F_round (x / 0x1.921fb54442d18p+2)) in (x - k * twopi_hi) - k * twopi_lo.
Definition F_sin (x : float) : float := let r := F_redu x in r * F_trig 14 2 (r * r).
Definition F_cos (x : float) : float := let r := F_redu x in F_trig 14 1 (r * r).

#[export] Instance FNum : Num float := {|
  nundef := nan; nZ := F_Z; nlit := F_lit;
  nadd := PrimFloat.add; nsub := PrimFloat.sub; nmul := PrimFloat.mul; ndiv := PrimFloat.div; nopp := PrimFloat.opp; nabs := PrimFloat.abs;
  nsqrt := PrimFloat.sqrt; nexp := F_exp; nlog := F_log; nsin := F_sin; ncos := F_cos; npow := F_pow; ncopysign := F_copysign;
  nmax := F_max; nmin := F_min; nltb := PrimFloat.ltb; nleb := PrimFloat.leb; neqb := PrimFloat.eqb;
  sqr2 := PrimFloat.sqrt 2; sqr3 := PrimFloat.sqrt 3; sqr3b2 := PrimFloat.sqrt 1.5; sqr2i := 1 / PrimFloat.sqrt 2; sqr3i := 1 / PrimFloat.sqrt 3;
  sqr6 := PrimFloat.sqrt 6; sqr6i := 1 / PrimFloat.sqrt 6; sqr2b3 := PrimFloat.sqrt (2 / 3); halfsqr3 := PrimFloat.sqrt 3 / 2; twosqr3 := 2 * PrimFloat.sqrt 3
|}.
