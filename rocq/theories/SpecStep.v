(** The equations of one step of crystal plasticity, written with 3x3 tensors and without the model.

    Lattice frame: stored elastic strain [E0] before and [E1] after the step (deviatoric, scaled by the cube root [a]
    of the relative volume), rotation [C] of the lattice after the step, lattice rotation increment [xi], slip systems
    with unit normals [m k] and directions [s k] slipping at the rates [g k], sample deformation rate [D] and spin [w]. *)
From Coq Require Import List ZArith Bool Reals.
From Verif Require Import Num NumR Hard MatModel Cases SpecTensor SpecElast SpecSlip SpecApi SpecKin SpecKinApi SpecStress.
Import ListNotations.
Local Open Scope R_scope.

Definition sub3 (A B : M3) : M3 := add3 A (scal3 (-1) B).
(** sum of [g k * f k] over the systems *)
Definition slip_sum (n : nat) (g : nat -> R) (f : nat -> M3) : M3 :=
  fold_right (fun k A => add3 (scal3 (g k) (f k)) A) Z3 (seq 0 n).
(** AB - BA *)
Definition commutator (A B : M3) : M3 := sub3 (mul3 A B) (mul3 B A).

Section Step.
  Variables (dt a : R) (E0 E1 C D : M3) (w xi : V3) (n : nat) (s m : nat -> V3) (g : nat -> R).
  (** elastic strain rate *)
  Definition erate : M3 := scal3 (/ dt) (sub3 E1 E0).
  (** elastic rate + plastic rate - deformation rate seen by the lattice *)
  Definition strain_gap : M3 :=
    sub3 (add3 (scal3 (/ a) erate) (slip_sum n g (fun k => symp (outer (s k) (m k))))) (cong (tr3 C) D).
  (** lattice rotation - time step * (spin seen by the lattice - plastic spin + spin of the elastic strain) *)
  Definition spin_gap : M3 :=
    sub3 (axial xi) (scal3 dt (add3 (sub3 (cong (tr3 C) (axial w)) (slip_sum n g (fun k => skwp (outer (s k) (m k)))))
                                    (scal3 (/ (2 * a * a)) (commutator erate E1)))).
End Step.

(** every component of the deviatoric tensor / of the axial vector is at most [tol] *)
Definition dev_within (A : M3) (tol : R) : Prop := forall k, (k < 5)%nat -> Rabs (inner A (basis k)) <= tol.
Definition skew_within (A : M3) (tol : R) : Prop := Rabs (a21 A) <= tol /\ Rabs (a02 A) <= tol /\ Rabs (a10 A) <= tol.
(** Frobenius norm *)
Definition norm3t (A : M3) : R := sqrt (inner A A).
(** the rate a residual is compared with: the reference rate of the kinetics when there is hardly any deformation,
    otherwise the deformation rate, but not less than 1 / (1e6 dt) *)
Definition rate_scale (ref dt : R) (D : M3) : R :=
  if Rlt_dec (norm3t D) (/ 10 ^ 8 * ref) then ref else Rmax (norm3t D) (/ (10 ^ 6 * dt)).

(** ** The built-in models *)
Inductive systems (hs : Solver R) (c : MClass R) (pars : list R) : (nat -> V3) -> (nat -> V3) -> Prop :=
| sys_F : c = cls_FCC_A hs \/ c = cls_FCC_AH hs \/ c = cls_FCC_B hs ->
    systems hs c pars (fun i => unitv (cub (fst (nth i sys_fcc d3)))) (fun i => unitv (cub (snd (nth i sys_fcc d3))))
| sys_B : c = cls_BCC_A hs \/ c = cls_BCC_B hs \/ c = cls_BCC_BH hs ->
    systems hs c pars (fun i => unitv (cub (fst (nth i (sys_bcc 12) d3)))) (fun i => unitv (cub (snd (nth i (sys_bcc 12) d3))))
| sys_H : c = cls_HCP_A hs -> 0 < nth 3 pars 0 ->
    systems hs c pars (fun i => unitv (hexnrm (nth 3 pars 0) (fst (nth i sys_hcp d4))))
                      (fun i => unitv (hexdir (nth 3 pars 0) (snd (nth i sys_hcp d4)))).

(** the kinetics part of the parameter vector *)
Definition kin_pars (c : MClass R) (pars : list R) : list R := map (kin_par c pars) (seq 0 (c_kinNP c)).
(** [slip_law hs c pars T h f ref]: with parameters in their ranges, at temperature [T] and strength [h], system [k] slips
    at the rate [f k tau] under the resolved shear stress [tau]; [ref] is the reference rate *)
Definition km_ref (n : nat) (P : list R) (h : R) : R := nth (5 + n) P 0 / sqrt h + nth (6 + n) P 0 * h.
Inductive slip_law (hs : Solver R) (c : MClass R) (pars : list R) (T h : R) : (nat -> R -> R) -> R -> Prop :=
| law_V : c = cls_FCC_A hs \/ c = cls_FCC_AH hs \/ c = cls_BCC_B hs \/ c = cls_BCC_BH hs -> 0 < kin_par c pars 2 ->
    slip_law hs c pars T h (fun _ => voce_law (kin_par c pars 2) (kin_par c pars 1) h) (kin_par c pars 2)
| law_F : c = cls_FCC_B hs -> km_params_ok false false 1 (kin_pars c pars) h T 0 ->
    slip_law hs c pars T h (fun _ => km_law (km_spec false false 1 (kin_pars c pars) h T 0)) (km_ref 1 (kin_pars c pars) h)
| law_B : c = cls_BCC_A hs -> km_params_ok true false 1 (kin_pars c pars) h T 0 ->
    slip_law hs c pars T h (fun _ => km_law (km_spec true false 1 (kin_pars c pars) h T 0)) (km_ref 1 (kin_pars c pars) h)
| law_H : c = cls_HCP_A hs -> (forall v, (v < 24)%nat -> km_params_ok true true 24 (kin_pars c pars) h T v) ->
    nth 28 (kin_pars c pars) 0 = 1 ->
    slip_law hs c pars T h (fun k => km_law (km_spec true true 24 (kin_pars c pars) h T k)) (km_ref 24 (kin_pars c pars) h).

(** ** What a caller reads from the buffers *)
Definition dev_strain s m i : M3 := ten5 (map (fun k => val s m AH i (4 + k)) [0; 1; 2; 3; 4]%nat).
Definition spin s m i : V3 := mkV (val s m AW i 0) (val s m AW i 1) (val s m AW i 2).
(** resolved shear stress: Kirchhoff stress (relative volume times Cauchy stress) on the system *)
Definition resolved (c : MClass R) (pars : list R) (v e : R) (E : M3) (sd md : V3) : R :=
  inner (scal3 v (latStress c pars v e E)) (outer sd md).
(** the resolved shear stress of system [k] at point [i] after the call *)
Definition tau_after (c : MClass R) (pars : list R) (b : BCall) (i : nat) (sd md : V3) : R :=
  let s := b_s b in let m := b_m b in let m1 := b_m1 b in
  resolved c pars (vNew s m i) (eInt s m i - delv s m i * pres s m i) (latStrain s m1 i (vNew s m i)) sd md.
(** the by-products of a solve stem from the answer: the last evaluation was made at the answer, or a tangent was
    requested, which evaluates there again *)
Definition last_at_answer (bs : Solver R) : Prop := forall n rj tol it x0,
  so_converged (bs n rj tol it x0) = true -> so_xlast (bs n rj tol it x0) = so_x (bs n rj tol it x0).

(** rotation by the angle |xi| about xi; below 1e-90 the code turns about the first axis *)
Definition turn (xi : V3) : M3 := rodrigues (if Rlt_dec (/ 10 ^ 90) (norm3 xi) then unitv xi else mkV 1 0 0) (norm3 xi).
Definition scalv (x : R) (w : V3) : V3 := mkV (x * v0 w) (x * v1 w) (x * v2 w).
Definition unit4 (q : list R) : list R := map (fun x => x / sqrt (norm2 q)) q.
(** Point [i] of the call satisfies the equations of the step within the tolerance of the parameter vector: the returned
    elastic strain and orientation, with the slip rates that the law gives for the returned stress. *)
Definition step_solved (c : MClass R) (pars : list R) (b : BCall) (i : nat) (md sd : nat -> V3) (law : nat -> R -> R) (ref : R) : Prop :=
  let s := b_s b in let m := b_m b in let m1 := b_m1 b in let dt := b_dt b in let D := devRate s m i in
  let a := Rpower (vNew s m i) (1 / 3) in
  let g k := law k (tau_after c pars b i (sd k) (md k)) in
  let bound := nth 2 pars 0 * rate_scale ref dt D in
  exists (C0 C1 : M3) (xi : V3),
    rotates (unit4 (quat s m i)) C0 /\ rotates (quat s m1 i) C1 /\ C1 = mul3 C0 (turn xi) /\
    dev_within (strain_gap dt a (dev_strain s m i) (dev_strain s m1 i) C1 D (c_nslip c) sd md g) bound /\
    skew_within (spin_gap dt a (dev_strain s m i) (dev_strain s m1 i) C1 (spin s m i) xi (c_nslip c) sd md g) (dt * bound).
