(** Two calls that describe the same crystal from frames turned against each other, written with 3x3 tensors and without
    the model. *)
From Coq Require Import List ZArith Bool Reals.
From Verif Require Import Num NumR Hard MatModel Cases SpecTensor SpecElast SpecApi SpecStress SpecStep.
Import ListNotations.
Local Open Scope R_scope.

(** same solver, same time step, tangent requested in both or in neither; the objects, the batches and the linear solvers
    may be different *)
Definition same_setting (b b' : BCall) : Prop :=
  b_solver b' = b_solver b /\ b_dt b' = b_dt b /\ b_mtan b' = b_mtan b.

(** What point [i'] of [b'] gives is what point [i] of [b] gives, turned by [Q]: deformation rate, spin, stress deviator
    and orientation are turned; volume ratios, energy, pressure and all history entries but the quaternion are the same *)
Definition turned_in (c : MClass R) (Q : M3) (b : BCall) (i : nat) (b' : BCall) (i' : nat) : Prop :=
  let s := b_s b in let m := b_m b in let s' := b_s b' in let m' := b_m b' in
  devRate s' m' i' = cong Q (devRate s m i) /\ spin s' m' i' = mulv Q (spin s m i) /\
  devStress s' m' i' = cong Q (devStress s m i) /\
  (exists C, rotates (unit4 (quat s m i)) C /\ rotates (unit4 (quat s' m' i')) (mul3 Q C)) /\
  (forall k, (k < 4)%nat -> val s' m' AV i' k = val s m AV i k) /\ eInt s' m' i' = eInt s m i /\ pres s' m' i' = pres s m i /\
  (forall k, (k < 14 + c_nslip c)%nat -> ~ (9 <= k < 13)%nat -> val s' m' AH i' k = val s m AH i k).

(** the same for what the calls return; here also temperature, bulk and shear modulus are the same *)
Definition turned_out (c : MClass R) (Q : M3) (b : BCall) (i : nat) (b' : BCall) (i' : nat) : Prop :=
  let s := b_s b in let m1 := b_m1 b in let s' := b_s b' in let m1' := b_m1 b' in
  devStress s' m1' i' = cong Q (devStress s m1 i) /\
  (exists C, rotates (quat s m1 i) C /\ rotates (quat s' m1' i') (mul3 Q C)) /\
  eInt s' m1' i' = eInt s m1 i /\ pres s' m1' i' = pres s m1 i /\
  (forall k, (k < 14 + c_nslip c)%nat -> ~ (9 <= k < 13)%nat -> val s' m1' AH i' k = val s m1 AH i k) /\
  val s' m1' AT i' 0 = val s m1 AT i 0 /\
  val s' m1' AB i' 0 = val s m1 AB i 0 /\ val s' m1' AB i' 1 = val s m1 AB i 1.
