(** Model of what the mini-app prints after a time step: miniapp/orientation_evolution.cxx:428, 451-545.

    Simplifications: a RAJA reduction is given by the order in which it combines the values ([Tree]): RAJA::seq_reduce adds
    them one after the other to the initial value, the OpenMP and GPU policies combine partial results (each of which starts
    at zero) in an order that is not specified.  Formatting of the numbers is not modelled. *)
From Coq Require Import List ZArith Bool.
From Verif Require Import Num Util MatModel Miniapp.
Import ListNotations.

(** order of a reduction over the points: a point, an initial value, or two partial results combined;
    the policies at orientation_evolution.cxx:456-519 *)
Inductive Tree := Point (i : nat) | Init | Both (l r : Tree).
Fixpoint points (t : Tree) : list nat := match t with Point i => [i] | Init => [] | Both l r => points l ++ points r end.
(** RAJA::seq_reduce with RAJA::loop_exec, orientation_evolution.cxx:456-479 *)
Fixpoint one_by_one (n : nat) : Tree := match n with O => Init | S k => Both (one_by_one k) (Point k) end.

Section Print.
  Context {T : Type} {N : Num T}.
  Local Open Scope num_scope.

  (** RAJA::ReduceSum with initial value 0.0, RAJA::ReduceMin and RAJA::ReduceMax with initial value [z];
      orientation_evolution.cxx:456-458, 482-484 and their GPU counterparts *)
  Fixpoint reduce_sum (f : nat -> T) (t : Tree) : T :=
    match t with Point i => f i | Init => nZ 0 | Both l r => reduce_sum f l + reduce_sum f r end.
  Fixpoint reduce_min (z : T) (f : nat -> T) (t : Tree) : T :=
    match t with Point i => nmin z (f i) | Init => z | Both l r => nmin (reduce_min z f l) (reduce_min z f r) end.
  Fixpoint reduce_max (z : T) (f : nat -> T) (t : Tree) : T :=
    match t with Point i => nmax z (f i) | Init => z | Both l r => nmax (reduce_max z f l) (reduce_max z f r) end.

  (** average stress: 428, 468-474 (CPU), 494-500 (OpenMP), 528-534 (GPU) *)
  Definition printed_stress (n : nat) (t : Tree) (a : App T) (j : nat) : T :=
    let wts := nZ 1 / nZ (Z.of_nat n) in
    reduce_sum (fun i => wts * get (ap_stress a) (i * nsvec + j)) t.

  (** "Min Func Eval", "Mean Func Evals", "Max Func Eval", printed if the macro NEVALS_COUNTS of line 16 is set to true:
      455-467 (CPU), 481-493 (OpenMP), 515-527 (GPU); the value taken from the state variables is number 2 *)
  Definition printed_evals (n nst : nat) (t : Tree) (a : App T) : T * T * T :=
    let wts := nZ 1 / nZ (Z.of_nat n) in
    let nfunceval i := get (ap_m a AH) (i * nst + 2) in
    (reduce_min (nZ 100) nfunceval t, reduce_sum (fun i => wts * nfunceval i) t, reduce_max (nZ 0) nfunceval t).
End Print.
