(** What the literals of the constants header stand for. *)
From Coq Require Import ZArith Reals.
From Verif Require Import Const.
Local Open Scope R_scope.

(** value of a decimal literal *)
Definition value (l : Z * Z) : R := IZR (fst l) * powerRZ 10 (snd l).
Definition close (l : Z * Z) (x : R) : Prop := Rabs (value l - x) <= / 10 ^ 16 * Rabs x.
