(** What the loop of the developer example is compared with. *)
From Coq Require Import List ZArith Bool Lia PeanoNat Reals Lra.
From Verif Require Import Num NumR Hard Evptn MatModel SpecTensor SpecApi SpecBatch SpecPy Py PyExampleDev.
Import ListNotations.
Local Open Scope R_scope.

(** the rows of the arrays of a call *)
Definition rows_of (c : MClass R) (b : BCall) : list (arr -> list R) :=
  map (fun i => point c (b_s b) false (b_m b) i) (seq 0 (b_n b)).
(** a root finder that does what the solver of the library does: wherever that one converges, the same answer, and the last
    evaluation at the same point *)
Definition finds_as (solver : Solver R) (root : Root R) : Prop := forall f tol, let r := solver 8%nat f tol 200%nat (repeat 0 8) in
  so_converged r = true ->
  ro_x (root f tol (repeat 0 8)) = so_x r /\ ro_evals (root f tol (repeat 0 8)) <> [] /\ last (ro_evals (root f tol (repeat 0 8))) [] = so_xlast r.
(** work of the stresses of points 0..[i] of the call: the double dot product of the deviatoric stress after the call with the
    deviatoric strain rate, summed *)
Fixpoint work_upto (b : BCall) (i : nat) : R :=
  let w k := inner (devStress (b_s b) (b_m1 b) k) (devRate (b_s b) (b_m b) k) in
  match i with O => w 0%nat | S j => work_upto b j + w (S j) end.
