(** The helper class and the loop of the Python example: what a user of them relies on (C72). *)
From Coq Require Import List ZArith Bool Reals.
From Verif Require Import Num NumR Hard Evptn MatModel Py SpecApi SpecPy.
Import ListNotations.
Local Open Scope R_scope.

(** an argument for [n] points with [w] numbers each: a table without gaps, or for a single point a vector, or for a single
    number a scalar (the stride between the rows of a table with one row does not matter) *)
Definition rows (n w : nat) (a : PyArr R) : Prop :=
  (n = 1%nat /\ w = 1%nat /\ py_shape a = [] /\ (py_off a < List.length (py_base a))%nat) \/
  (n = 1%nat /\ vector w a) \/
  (py_shape a = [Z.of_nat n; Z.of_nat w] /\ (exists s0, py_strides a = [s0; 1%Z] /\ (n = 1%nat \/ s0 = Z.of_nat w)) /\
    (py_off a + n * w <= List.length (py_base a))%nat).
(** number [j] of point [i] in it, as Python indexes it *)
Definition item (a : PyArr R) (i j : nat) : R :=
  match py_shape a with
  | [] => nth (py_off a) (py_base a) 0
  | [_] => entry1 a j
  | _ => elem a i j
  end.
Definition inputs : list arr := [AD; AW; AV; AE; AS; AH; AT].
Definition returned : list arr := [AE; AS; AH; AT; AB].

(** step [k] of a material whose volume grows at the rate [r]: volumes at the beginning and at the end, the change over time
    step and mean volume, the change *)
Definition volumes (r dt : R) (k : nat) (s : MM R) (m : Mem R) : Prop :=
  let v0 := exp (INR k * (r * dt)) in let v1 := exp (INR (S k) * (r * dt)) in
  val s m AV 0 0 = v0 /\ val s m AV 0 1 = v1 /\ val s m AV 0 2 = (v1 - v0) / (dt * ((v0 + v1) / 2)) /\ val s m AV 0 3 = v1 - v0.
(** deformation rate from its deviator (11, 22, 33, 23, 31, 12) and trace *)
Definition rate_of (d : list R) (i j : nat) : R :=
  let e k := nth k d 0 in
  match i, j with
  | O, O => e 0%nat + e 6%nat / 3
  | 1%nat, 1%nat => e 1%nat + e 6%nat / 3
  | 2%nat, 2%nat => e 2%nat + e 6%nat / 3
  | 1%nat, 2%nat | 2%nat, 1%nat => e 3%nat
  | O, 2%nat | 2%nat, O => e 4%nat
  | O, 1%nat | 1%nat, O => e 5%nat
  | _, _ => 0
  end.
