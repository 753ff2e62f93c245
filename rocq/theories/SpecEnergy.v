(** Work and stored elastic energy of one step, as a caller can compute them from the buffers. *)
From Coq Require Import List ZArith Bool Reals.
From Verif Require Import Num NumR Hard MatModel Cases SpecTensor SpecElast SpecSlip SpecApi SpecKin SpecKinApi SpecStress SpecStep.
Import ListNotations.
Local Open Scope R_scope.

(** Kirchhoff stress in crystal axes after the call, up to its spherical part *)
Definition kirch_after (c : MClass R) (pars : list R) (b : BCall) (i : nat) : M3 :=
  let s := b_s b in let m := b_m b in let v := vNew s m i in
  scal3 v (latStress c pars v (eInt s m i - delv s m i * pres s m i) (latStrain s (b_m1 b) i v)).
(** its work on the change of the elastic strain during the call, per reference volume *)
Definition elastic_work (c : MClass R) (pars : list R) (b : BCall) (i : nat) : R :=
  let s := b_s b in
  inner (kirch_after c pars b i)
        (scal3 (/ Rpower (vNew s (b_m b) i) (1 / 3)) (sub3 (dev_strain s (b_m1 b) i) (dev_strain s (b_m b) i))).
(** work of the returned deviatoric stress on the prescribed deformation, per reference volume *)
Definition end_work (b : BCall) (i : nat) : R :=
  let s := b_s b in b_dt b * (vNew s (b_m b) i * inner (devStress s (b_m1 b) i) (devRate s (b_m b) i)).
(** sum of the absolute components of a symmetric deviatoric tensor *)
Definition abs5 (A : M3) : R := fold_right Rplus 0 (map (fun k => Rabs (inner A (basis k))) (seq 0 5)).

(** stored elastic energy of shape change, at relative volume [v] and stored strain [E] *)
Definition elastic_energy (c : MClass R) (pars : list R) (v : R) (E : M3) : R :=
  let F := scal3 (/ Rpower v (1 / 3)) E in / 2 * inner F (p_hooke c pars F).
(** at relative volume [v] and energy [e] the crystal without elastic shape change carries no deviatoric stress:
    always so for cubic crystals, at the reference volume without thermal-pressure anisotropy for hexagonal ones *)
Definition unloaded (c : MClass R) (pars : list R) (v e : R) : Prop :=
  dev3 (scal3 v (latStress c pars v e (scal3 (ln v / 3) I3))) = Z3.

(** ** A material at rest *)
(** a solver that looks at the starting point [x0] first and returns it if it solves the equations exactly *)
Definition keeps_solution (bs : Solver R) : Prop := forall n rj tol it x0, 0 <= tol ->
  (forall j, (j < n)%nat -> nth j (fst (rj x0)) 0 = 0) ->
  so_converged (bs n rj tol it x0) = true /\ so_x (bs n rj tol it x0) = x0 /\ so_xlast (bs n rj tol it x0) = x0.
(** a solver that finds the exact solution [x] of a crystal update *)
Definition finds (bs : Solver R) (x : list R) : Prop := forall rj tol it x0, 0 <= tol ->
  (forall j, (j < 8)%nat -> nth j (fst (rj x)) 0 = 0) ->
  so_converged (bs 8%nat rj tol it x0) = true /\ so_x (bs 8%nat rj tol it x0) = x /\ so_xlast (bs 8%nat rj tol it x0) = x.
(** a solver that succeeds whenever [x] is an exact solution of the crystal update *)
Definition reaches (bs : Solver R) (x : list R) : Prop := forall rj tol it x0, 0 <= tol ->
  (forall j, (j < 8)%nat -> nth j (fst (rj x)) 0 = 0) -> so_converged (bs 8%nat rj tol it x0) = true.
(** strength after a step without slip: dislocation densities are raised to the minimum, if below *)
Definition kept (c : MClass R) (pars : list R) (h : R) : R :=
  if Nat.leb 14 (c_kinNP c) then km_old c pars h else h.
(** point [i] neither deforms nor carries elastic strain nor slipped before *)
Definition at_rest (hs : Solver R) (c : MClass R) (pars : list R) (s : MM R) (m : Mem R) (i : nat) : Prop :=
  devRate s m i = Z3 /\ dev_strain s m i = Z3 /\ (forall k, (k < c_nslip c)%nat -> val s m AH i (14 + k) = 0) /\
  0 < vNew s m i /\ norm2 (quat s m i) <> 0 /\ 0 < strength s m i /\
  unloaded c pars (vNew s m i) (eInt s m i - delv s m i * pres s m i) /\
  exists law ref, slip_law hs c pars ((eInt s m i - p_ec0 c pars) / p_cv pars) (kept c pars (strength s m i)) law ref.
