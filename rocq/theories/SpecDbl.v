(** What a caller of the library sees when scalars are IEEE doubles ([NumD]), and what is assumed of the mathematical
    library. *)
From Coq Require Import List ZArith Bool Reals.
From Flocq Require Import Core IEEE754.BinarySingleNaN.
From Verif Require Import Num Hard Evptn MatModel Cases P_Batch3 P_Api P_Builtin NumD.
Import ListNotations.
Local Open Scope R_scope.

(** sin and cos: for finite arguments finite and within 2^-52 of the exact value; cos of an infinity or a NaN is a NaN *)
Definition trig_ok (L : Libm) : Prop := forall x,
  (is_finite x = true -> is_finite (lm_sin L x) = true /\ is_finite (lm_cos L x) = true /\
     Rabs (B2R (lm_sin L x) - sin (B2R x)) <= / 2 ^ 52 /\ Rabs (B2R (lm_cos L x) - cos (B2R x)) <= / 2 ^ 52) /\
  (is_finite x = false -> is_nan (lm_cos L x) = true).

(** One call of getResponseECM on doubles: object, oracles, arguments, memory before and after. *)
Record DCall := {
  d_s : MM dbl; d_solver : Solver dbl; d_lu : LUSolver dbl; d_dt : dbl; d_mtan : bool; d_n : nat;
  d_m : Mem dbl; d_m1 : Mem dbl
}.
(** on an object of class [c] reached through the interface, with large enough buffers, and it returned normally *)
Definition dgood (L : Libm) (hs : Solver dbl) (c : MClass dbl) (b : DCall) : Prop :=
  @builtin dbl (DNum L) hs c /\ @reachable dbl (DNum L) c (d_s b) /\ batch_ok c (d_s b) (d_mtan b) (d_n b) (d_m b) /\
  @mm_getResponse dbl (DNum L) (d_solver b) (d_lu b) c (d_s b) (d_dt b) (d_mtan b) (Z.of_nat (d_n b)) (d_m b) = (BRet Done, d_m1 b).
(** the second call gets the history the first one left *)
Definition dfollows (b b' : DCall) : Prop :=
  mm_strides (d_s b') = mm_strides (d_s b) /\ d_n b' = d_n b /\ d_m b' AH = d_m1 b AH.
Fixpoint dchain (L : Libm) (hs : Solver dbl) (c : MClass dbl) (l : list DCall) : Prop :=
  match l with
  | [] => True
  | b :: r => dgood L hs c b /\ match r with [] => True | b' :: _ => dfollows b b' end /\ dchain L hs c r
  end.

(** the nonlinear solver, when it reports success, returns as many unknowns as asked for, all finite and below 1e100 *)
Definition moderate_answers (solver : Solver dbl) : Prop := forall n f tol it x0, let r := solver n f tol it x0 in
  so_converged r = true -> length (so_x r) = n /\ Forall (fun x => is_finite x = true /\ Rabs (B2R x) <= 10 ^ 100) (so_x r).

(** entry [k] of point [i] in buffer [a] *)
Definition dval (s : MM dbl) (m : Mem dbl) (a : arr) (i k : nat) : dbl := nth (stride_of (mm_strides s) a * i + k) (m a) B754_nan.
Definition dquat s m i : list dbl := map (fun k => dval s m AH i (9 + k)) [0; 1; 2; 3]%nat.

Definition finite (q : list dbl) : Prop := Forall (fun x => is_finite x = true) q.
Definition all_nan (q : list dbl) : Prop := Forall (fun x => is_nan x = true) q.
(** squared length, exactly *)
Definition norm2 (q : list dbl) : R := fold_right (fun x a => B2R x * B2R x + a) 0 q.
Definition inner4 (p q : list dbl) : R := fold_right Rplus 0 (map (fun x => B2R (fst x) * B2R (snd x)) (combine p q)).
