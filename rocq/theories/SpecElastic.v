(** Stress below which a slip system does not slip at all, and the equations of a step without slip; without the model. *)
From Coq Require Import List ZArith Bool Reals.
From Verif Require Import Num NumR Hard MatModel Cases SpecTensor SpecElast SpecSlip SpecApi SpecKin SpecKinApi SpecStress SpecStep SpecEnergy.
Import ListNotations.
Local Open Scope R_scope.

(** [slip_threshold hs c pars h thr]: at strength [h], system [k] is at rest up to the resolved shear stress [thr k].
    Power law: the strength times 1e-60 to the rate sensitivity. Thermally activated kinetics: the athermal strength. *)
Inductive slip_threshold (hs : Solver R) (c : MClass R) (pars : list R) (h : R) : (nat -> R) -> Prop :=
| thr_V : c = cls_FCC_A hs \/ c = cls_FCC_AH hs \/ c = cls_BCC_B hs \/ c = cls_BCC_BH hs ->
    slip_threshold hs c pars h (fun _ => h * Rpower (/ 10 ^ 60) (kin_par c pars 1))
| thr_F : c = cls_FCC_B hs -> slip_threshold hs c pars h (fun _ => kin_par c pars 3)
| thr_B : c = cls_BCC_A hs -> slip_threshold hs c pars h (fun _ => kin_par c pars 9 + kin_par c pars 10 * sqrt h)
| thr_H : c = cls_HCP_A hs -> slip_threshold hs c pars h (fun k => kin_par c pars (32 + k) + kin_par c pars (56 + k) * sqrt h).
(** at the end of the call no system of point [i] is loaded beyond its threshold *)
Definition stays_below (c : MClass R) (pars : list R) (b : BCall) (i : nat) (md sd : nat -> V3) (thr : nat -> R) : Prop :=
  forall k, (k < c_nslip c)%nat -> Rabs (tau_after c pars b i (sd k) (md k)) <= thr k.

(** Step without slip: the elastic strain takes up the whole deformation, the lattice turns with the spin of the sample and of
    the elastic strain; [bound] in rates. *)
Definition elastic_step (b : BCall) (i : nat) (bound : R) : Prop :=
  let s := b_s b in let m := b_m b in let m1 := b_m1 b in let dt := b_dt b in let a := Rpower (vNew s m i) (1 / 3) in
  let E0 := dev_strain s m i in let E1 := dev_strain s m1 i in
  exists (C0 C1 : M3) (xi : V3), rotates (unit4 (quat s m i)) C0 /\ rotates (quat s m1 i) C1 /\ C1 = mul3 C0 (turn xi) /\
    dev_within (sub3 (sub3 E1 E0) (scal3 (a * dt) (cong (tr3 C1) (devRate s m i)))) (a * dt * bound) /\
    skew_within (sub3 (axial xi) (scal3 dt (add3 (cong (tr3 C1) (axial (spin s m i)))
                                                (scal3 (/ (2 * a * a)) (commutator (scal3 (/ dt) (sub3 E1 E0)) E1))))) (dt * bound).

(** ** First loading of a crystal that carries no elastic strain and did not slip, without spin *)
(** elastic strain at the end of the step, in crystal axes, volume change included *)
Definition load_strain (dt v : R) (C D : M3) : M3 := add3 (scal3 dt (cong (tr3 C) D)) (scal3 (ln v / 3) I3).
(** the same in the unknowns of the solver: strain in units of 5e-4, no lattice rotation *)
Definition load_x (dt v : R) (C D : M3) : list R :=
  map (fun k => Rpower v (1 / 3) * dt * inner (cong (tr3 C) D) (basis k) / (5 / 10000)) (seq 0 5) ++ [0; 0; 0].
(** point [i], with orientation [C]; the stress of the purely elastic solution stays below the thresholds *)
Definition first_load (hs : Solver R) (c : MClass R) (pars : list R) (s : MM R) (m : Mem R) (i : nat) (dt : R) (md sd : nat -> V3) (C : M3) : Prop :=
  let v := vNew s m i in let h := kept c pars (strength s m i) in
  trace (devRate s m i) = 0 /\ dev_strain s m i = Z3 /\ (forall k, (k < c_nslip c)%nat -> val s m AH i (14 + k) = 0) /\
  0 < v /\ norm2 (quat s m i) <> 0 /\ 0 < strength s m i /\ spin s m i = mkV 0 0 0 /\ rotates (unit4 (quat s m i)) C /\
  exists law ref thr, slip_law hs c pars ((eInt s m i - p_ec0 c pars) / p_cv pars) h law ref /\ slip_threshold hs c pars h thr /\
    forall k, (k < c_nslip c)%nat ->
      Rabs (resolved c pars v (eInt s m i - delv s m i * pres s m i) (load_strain dt v C (devRate s m i)) (sd k) (md k)) <= thr k.
