(** End states that solve the equations of a step exactly, and the deformation that leads to a given end state; without the model. *)
From Coq Require Import List ZArith Bool Reals.
From Verif Require Import Num NumR Hard MatModel Cases SpecTensor SpecElast SpecSlip SpecApi SpecKin SpecKinApi SpecStress SpecStep SpecEnergy.
Import ListNotations.
Local Open Scope R_scope.

(** an end state (elastic strain [E1], lattice rotation [xi] of the step) in the unknowns of the solver: strain increment in units of
    5e-4, rotation in units of 1e-2 *)
Definition step_x (E0 E1 : M3) (xi : V3) : list R :=
  map (fun k => inner (sub3 E1 E0) (basis k) / (5 / 10000)) (seq 0 5) ++ [v0 xi / (1 / 100); v1 xi / (1 / 100); v2 xi / (1 / 100)].
(** slip rate of system [k] in an end state *)
Definition end_rate (c : MClass R) (pars : list R) (s : MM R) (m : Mem R) (i : nat) (md sd : nat -> V3) (law : nat -> R -> R) (E1 : M3) (k : nat) : R :=
  let v := vNew s m i in
  law k (resolved c pars v (eInt s m i - delv s m i * pres s m i) (add3 (scal3 (/ Rpower v (1 / 3)) E1) (scal3 (ln v / 3) I3)) (sd k) (md k)).
(** a hardening solver that, started at zero as the code does, finds the exact solution [x] of an equation for one unknown *)
Definition finds1 (hs : Solver R) (x : R) : Prop := forall rj tol it, 0 <= tol -> nth 0 (fst (rj [x])) 0 = 0 ->
  so_converged (hs 1%nat rj tol it [0]) = true /\ so_x (hs 1%nat rj tol it [0]) = [x].
(** the strength [h1] after the hardening step from [h0] with the slip rates of the step before: unchanged if there was no slip, otherwise
    an exact implicit step of the hardening law (of the logarithm of the density in the dislocation density models), in units of the old
    value or one, whichever is larger *)
Inductive hardened (hs : Solver R) (c : MClass R) (pars : list R) (dt : R) (rates : list R) (h0 : R) : R -> Prop :=
| hard_rest : keeps_solution hs -> 0 < h0 -> (forall k, (k < c_nslip c)%nat -> nth k rates 0 = 0) -> hardened hs c pars dt rates h0 (kept c pars h0)
| hard_voce h1 : c = cls_FCC_A hs \/ c = cls_BCC_B hs -> 0 < kin_par c pars 7 ->
    implicit_step (voce_rate_at c pars (shear_sum rates)) dt h0 h1 -> finds1 hs ((h1 - h0) / Rmax h0 1) -> hardened hs c pars dt rates h0 h1
| hard_voce_nl h1 : c = cls_FCC_AH hs \/ c = cls_BCC_BH hs -> 0 < kin_par c pars 8 ->
    kin_par c pars 4 < voce_sat_at true c pars (shear_sum rates) -> h1 < voce_sat_at true c pars (shear_sum rates) ->
    implicit_step (voce_nl_rate_at c pars (shear_sum rates)) dt h0 h1 -> finds1 hs ((h1 - h0) / Rmax h0 1) -> hardened hs c pars dt rates h0 h1
| hard_km l1 : c = cls_FCC_B hs \/ c = cls_BCC_A hs \/ c = cls_HCP_A hs -> 0 < kin_par c pars (11 + 3 * km_groups c) ->
    implicit_step (fun l => km_rate_at c pars (shear_sum rates) (exp l)) dt (ln (km_old c pars h0)) l1 ->
    finds1 hs ((l1 - ln (km_old c pars h0)) / Rmax (ln (km_old c pars h0)) 1) -> hardened hs c pars dt rates h0 (exp l1).
(** a point whose hardening step succeeds with strength [h1], with the slip law at that strength *)
Definition startable (hs : Solver R) (c : MClass R) (pars : list R) (s : MM R) (m : Mem R) (i : nat) (dt h1 : R) (C0 : M3) (law : nat -> R -> R) (ref : R) : Prop :=
  hardened hs c pars dt (slip_rates c s m i) (strength s m i) h1 /\ 0 < vNew s m i /\ norm2 (quat s m i) <> 0 /\ 0 < h1 /\
  rotates (unit4 (quat s m i)) C0 /\ slip_law hs c pars ((eInt s m i - p_ec0 c pars) / p_cv pars) h1 law ref.
(** the end state solves the equations of the step exactly *)
Definition exact_step (c : MClass R) (pars : list R) (s : MM R) (m : Mem R) (i : nat) (dt : R) (md sd : nat -> V3) (C0 : M3) (law : nat -> R -> R)
    (E1 : M3) (xi : V3) : Prop :=
  let a := Rpower (vNew s m i) (1 / 3) in let g := end_rate c pars s m i md sd law E1 in let C1 := mul3 C0 (turn xi) in
  trace (devRate s m i) = 0 /\ is_dev E1 /\
  strain_gap dt a (dev_strain s m i) E1 C1 (devRate s m i) (c_nslip c) sd md g = Z3 /\
  spin_gap dt a (dev_strain s m i) E1 C1 (spin s m i) xi (c_nslip c) sd md g = Z3.
(** the deformation rate and the spin (as a skew tensor) that lead to the end state *)
Definition rate_to (dt a : R) (E0 E1 C1 : M3) (n : nat) (sd md : nat -> V3) (g : nat -> R) : M3 :=
  cong C1 (add3 (scal3 (/ a) (erate dt E0 E1)) (slip_sum n g (fun k => symp (outer (sd k) (md k))))).
Definition spin_to (dt a : R) (E0 E1 C1 : M3) (xi : V3) (n : nat) (sd md : nat -> V3) (g : nat -> R) : M3 :=
  cong C1 (add3 (scal3 (/ dt) (axial xi))
    (sub3 (slip_sum n g (fun k => skwp (outer (sd k) (md k)))) (scal3 (/ (2 * a * a)) (commutator (erate dt E0 E1) E1)))).
