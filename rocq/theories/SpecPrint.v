(** Specification for C70 and C71: what the numbers printed after a time step of the mini-app should be. *)
From Coq Require Import List ZArith Reals Permutation.
From Flocq Require Import Core IEEE754.BinarySingleNaN.
From Verif Require Import Num NumR NumD Miniapp MiniPrint.
Import ListNotations.
Local Open Scope R_scope.

(** the reduction takes every point once *)
Definition reduction (n : nat) (t : Tree) : Prop := Permutation (points t) (seq 0 n).
Definition total (n : nat) (f : nat -> R) : R := fold_right Rplus 0 (map f (seq 0 n)).
Definition mean (n : nat) (f : nat -> R) : R := total n f / INR n.
Definition least (l : list R) (x : R) : Prop := In x l /\ forall y, In y l -> x <= y.
Definition greatest (l : list R) (x : R) : Prop := In x l /\ forall y, In y l -> y <= x.

(** additions on the longest path through a reduction, and number of its parts *)
Fixpoint depth (t : Tree) : nat := match t with Both l r => S (Nat.max (depth l) (depth r)) | _ => 0%nat end.
Fixpoint parts (t : Tree) : nat := match t with Both l r => S (parts l + parts r) | _ => 1%nat end.
(** stress component [j] of point [q] in doubles, as a real number *)
Definition rstress (a : App dbl) (j q : nat) : R := B2R (nth (6 * q + j) (ap_stress a) B754_nan).
(** rounding error allowed: (3 + 2 depth) units of roundoff of the mean magnitude, and an absolute part near the underflow threshold *)
Definition avg_error (n : nat) (t : Tree) (a : App dbl) (j : nat) : R :=
  (3 + 2 * INR (depth t)) * / 2 ^ 53 * mean n (fun q => Rabs (rstress a j q)) + INR (parts t) * / 2 ^ 1073.
