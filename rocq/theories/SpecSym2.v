(** When the solvers of the second call follow those of the first one to an equivalent orientation; without the model. *)
From Coq Require Import List ZArith Bool Reals.
From Verif Require Import Num NumR Hard Evptn MatModel Cases SpecTensor SpecElast SpecSlip SpecApi SpecStress SpecKinApi SpecStep SpecJac SpecSym.
Import ListNotations.
Local Open Scope R_scope.

(** Given the equations of point [i] and the same equations in the coordinates of the other orientation, the solver [sv'] converges when
    the solver of [b] does, with the corresponding answer. *)
Definition follows (c : MClass R) (pars : list R) (b : BCall) (i : nat) (S : M3) (md sd : nat -> V3) (law : nat -> R -> R) (ref : R) (sv' : Solver R) : Prop :=
  forall (f f' : list R -> list R * list R) (C0 : M3), rotates (unit4 (quat (b_s b) (b_m b) i)) C0 -> (forall x, fst (f x) = trial_eqs c pars b i md sd law ref C0 x) ->
  sized 8 f -> sized 8 f' -> (forall x, List.length x = 8%nat -> off_tiny x -> related_at 8 (sym_map S) f f' x) ->
  let tol := nth 2 pars 0 in let x0 := [0; 0; 0; 0; 0; 0; 0; 0] in
  let r := b_solver b 8%nat f tol 200%nat x0 in let r' := sv' 8%nat f' tol 200%nat x0 in
  so_converged r = true -> so_converged r' = true /\ answers_correspond S r r'.
(** the linear solver [lu'] does not fail on a matrix in the other coordinates when [lu] does not fail on the matrix *)
Definition lu_follows (S : M3) (lu lu' : LUSolver R) : Prop := forall A A' B B' k,
  (forall u, List.length u = 8%nat -> mv 8 A' (sym_map S u) = sym_map S (mv 8 A u)) -> lu 8%nat A B k <> None -> lu' 8%nat A' B' k <> None.
