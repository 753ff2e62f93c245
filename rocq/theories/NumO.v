(** The third instance of [Num]: real numbers with undefined results.  [None] stands for the result of an operation that
    IEEE arithmetic answers with a NaN or an infinity although no overflow occurs: division by zero, logarithm of a non-positive
    number, root of a negative number, power of zero to a negative exponent or of a negative number to a non-integer
    exponent; and for a cell outside an array.  It propagates through every operation.  Comparisons with an undefined
    operand answer [u]; C++ answers false, the theorems hold for both values. *)
From Coq Require Import List ZArith Bool Reals.
From Verif Require Import Num NumR.
Import ListNotations.
Local Open Scope R_scope.

Definition o1 (f : R -> R) (x : option R) : option R := match x with Some a => Some (f a) | None => None end.
Definition o2 (f : R -> R -> R) (x y : option R) : option R :=
  match x, y with Some a, Some b => Some (f a b) | _, _ => None end.
Definition ocmp (u : bool) (f : R -> R -> bool) (x y : option R) : bool :=
  match x, y with Some a, Some b => f a b | _, _ => u end.
Definition odiv (x y : option R) : option R :=
  match x, y with Some a, Some b => if Req_EM_T b 0 then None else Some (a / b) | _, _ => None end.
Definition osqrt (x : option R) : option R :=
  match x with Some a => if Rlt_dec a 0 then None else Some (sqrt a) | None => None end.
Definition olog (x : option R) : option R :=
  match x with Some a => if Rlt_dec 0 a then Some (ln a) else None | None => None end.
Definition opow (x y : option R) : option R :=
  match x, y with
  | Some a, Some b =>
      if Rlt_dec 0 a then Some (Rpow a b)
      else if Req_EM_T a 0 then (if Rle_dec 0 b then Some (Rpow a b) else None)
      else if Req_EM_T b (IZR (Int_part b)) then Some (Rpow a b) else None
  | _, _ => None
  end.

Definition ONum (u : bool) : Num (option R) := {|
  nundef := None;
  nZ z := Some (IZR z); nlit m e := Some (Rlit m e);
  nadd := o2 Rplus; nsub := o2 Rminus; nmul := o2 Rmult; ndiv := odiv; nopp := o1 Ropp;
  nabs := o1 Rabs; nsqrt := osqrt; nexp := o1 exp; nlog := olog; nsin := o1 sin; ncos := o1 cos;
  npow := opow; ncopysign := o2 Rcopysign; nmax := o2 Rmax; nmin := o2 Rmin;
  nltb := ocmp u Rltb; nleb := ocmp u Rleb; neqb := ocmp u Reqb;
  sqr2 := Some s2; sqr3 := Some s3; sqr3b2 := Some (s2 * s3 / 2); sqr2i := Some (s2 / 2); sqr3i := Some (s3 / 3);
  sqr6 := Some (s2 * s3); sqr6i := Some (s2 * s3 / 6); sqr2b3 := Some (s2 * s3 / 3);
  halfsqr3 := Some (s3 / 2); twosqr3 := Some (2 * s3)
|}.
