(** The tangent stiffness a call returns: how it acts on a strain, and what it should be the derivative of. *)
From Coq Require Import List ZArith Bool Reals.
From Coquelicot Require Import Coquelicot.
From Verif Require Import Num NumR Evptn MatModel Cases SpecTensor SpecElast SpecSlip SpecApi SpecStress SpecStep SpecJac P_Eos.
Import ListNotations.
Local Open Scope R_scope.

(** entry (r, q) of the tangent of point [i] (row by row) *)
Definition tangent s m i (r q : nat) : R := val s m AM i (6 * r + q).
(** Voigt components of a strain with engineering shears *)
Definition eng (E : M3) : list R := [a00 E; a11 E; a22 E; 2 * a12 E; 2 * a02 E; 2 * a01 E].
(** stress that a 6 by 6 stiffness gives for a strain *)
Definition stiff (K : nat -> nat -> R) (E : M3) : M3 :=
  sym6 (fun r => fold_right Rplus 0 (map (fun q => K r q * nth q (eng E) 0) [0; 1; 2; 3; 4; 5]%nat)).
(** [F] has the derivative [B] at [t], component by component *)
Definition derives (F : R -> M3) (t : R) (B : M3) : Prop := forall K, is_derive (fun s => inner (F s) K) t (inner B K).

(** The linear solver for the tangent succeeds only on nonsingular matrices, and then its answer is exact.  [A] is [n] by [n];
    [B] holds [k] right-hand sides, one per row. *)
Definition solves_exactly (lu : LUSolver R) : Prop := forall n A B k X, lu n A B k = Some X ->
  (forall j i, (j < k)%nat -> (i < n)%nat ->
    fold_right Rplus 0 (map (fun q => nth (i * n + q) A 0 * nth (j * n + q) X 0) (seq 0 n)) = nth (j * n + i) B 0) /\
  (forall y : list R, List.length y = n -> (forall i, (i < n)%nat -> fold_right Rplus 0 (map (fun q => nth (i * n + q) A 0 * nth q y 0) (seq 0 n)) = 0) ->
    forall i, (i < n)%nat -> nth i y 0 = 0).

Section Tan.
  Variables (c : MClass R) (pars : list R) (b : BCall) (i : nat) (md sd : nat -> V3) (law : nat -> R -> R) (C0 : M3).
  Let s := b_s b. Let m := b_m b.
  Let v := vNew s m i.
  Let a := Rpower v (1 / 3).
  Let e1 := eInt s m i - delv s m i * pres s m i.
  Let E0 := dev_strain s m i.
  (** Cauchy stress at a trial state: Hooke's law turned by the trial orientation, and the pressure (with the contribution
      of the elastic strain in hexagonal crystals) *)
  Definition trial_dev (x : list R) : M3 :=
    cong (trial_turn C0 x) (dev3 (latStress c pars v e1 (add3 (scal3 (/ a) (trial_strain E0 x)) (scal3 (ln v / 3) I3)))).
  Definition trial_pres (x : list R) : R :=
    spec_p false (p_bulk c pars) (p_gamma c pars) v e1 - sqrt 6 / 9 * p_coupling c pars * inner (trial_strain E0 x) (basis 1) / Rpower v (4 / 3).
  Definition trial_cauchy (x : list R) : M3 := add3 (trial_dev x) (scal3 (- trial_pres x) I3).
  (** the two tensor equations of the step at a trial state under the deformation rate [D] *)
  Definition gap_strain (D : M3) (x : list R) : M3 :=
    strain_gap (b_dt b) a E0 (trial_strain E0 x) (trial_turn C0 x) D (c_nslip c) sd md (trial_rate c pars b i md sd law x).
  Definition gap_spin (x : list R) : M3 :=
    spin_gap (b_dt b) a E0 (trial_strain E0 x) (trial_turn C0 x) (spin s m i) (trial_rot x) (c_nslip c) sd md (trial_rate c pars b i md sd law x).
  (** along the curve [X] of trial states under the deformation rate [Dt] the residuals of both equations do not change to first order *)
  Definition keeps_solved (Dt : R -> M3) (X : R -> list R) (t : R) : Prop :=
    (forall k, (k < 5)%nat -> is_derive (fun u => inner (gap_strain (Dt u) (X u)) (basis k)) t 0) /\
    is_derive (fun u => a21 (gap_spin (X u))) t 0 /\ is_derive (fun u => a02 (gap_spin (X u))) t 0 /\ is_derive (fun u => a10 (gap_spin (X u))) t 0.
End Tan.
