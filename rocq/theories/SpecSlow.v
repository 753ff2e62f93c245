(** Deformation that is slow compared with the reference rate of the slip law. *)
From Coq Require Import List ZArith Bool Reals.
From Verif Require Import Num NumR Hard MatModel Cases SpecTensor SpecElast SpecSlip SpecApi SpecKin SpecKinApi SpecStress SpecStep SpecEnergy.
Import ListNotations.
Local Open Scope R_scope.

(** [step_solved] with the bound left open *)
Definition step_within (c : MClass R) (pars : list R) (b : BCall) (i : nat) (md sd : nat -> V3) (law : nat -> R -> R) (bound : R) : Prop :=
  let s := b_s b in let m := b_m b in let m1 := b_m1 b in let dt := b_dt b in let D := devRate s m i in
  let a := Rpower (vNew s m i) (1 / 3) in
  let g k := law k (tau_after c pars b i (sd k) (md k)) in
  exists (C0 C1 : M3) (xi : V3),
    rotates (unit4 (quat s m i)) C0 /\ rotates (quat s m1 i) C1 /\ C1 = mul3 C0 (turn xi) /\
    dev_within (strain_gap dt a (dev_strain s m i) (dev_strain s m1 i) C1 D (c_nslip c) sd md g) bound /\
    skew_within (spin_gap dt a (dev_strain s m i) (dev_strain s m1 i) C1 (spin s m i) xi (c_nslip c) sd md g) (dt * bound).

(** a solver that keeps its starting point when the residuals there are within the tolerance *)
Definition settles (bs : Solver R) : Prop := forall n rj tol it x0,
  (forall j, (j < n)%nat -> Rabs (nth j (fst (rj x0)) 0) <= tol) ->
  so_converged (bs n rj tol it x0) = true /\ so_x (bs n rj tol it x0) = x0 /\ so_xlast (bs n rj tol it x0) = x0.

(** point [i] carries no elastic strain, did not slip before and does not spin; it deforms at less than 1e-8 and at most
    the tolerance times the reference rate *)
Definition slow (hs : Solver R) (c : MClass R) (pars : list R) (s : MM R) (m : Mem R) (i : nat) : Prop :=
  trace (devRate s m i) = 0 /\ dev_strain s m i = Z3 /\ (forall k, (k < c_nslip c)%nat -> val s m AH i (14 + k) = 0) /\
  0 < vNew s m i /\ norm2 (quat s m i) <> 0 /\ 0 < strength s m i /\
  unloaded c pars (vNew s m i) (eInt s m i - delv s m i * pres s m i) /\ spin s m i = mkV 0 0 0 /\
  exists law ref, slip_law hs c pars ((eInt s m i - p_ec0 c pars) / p_cv pars) (kept c pars (strength s m i)) law ref /\
    norm3t (devRate s m i) < / 10 ^ 8 * ref /\ norm3t (devRate s m i) <= nth 2 pars 0 * ref.
