(** The system of equations of one step as the nonlinear solver sees it, and what it means that a Jacobian is exact. *)
From Coq Require Import List ZArith Bool Reals.
From Coquelicot Require Import Coquelicot.
From Verif Require Import Num NumR Hard MatModel Cases SpecTensor SpecElast SpecSlip SpecApi SpecKin SpecKinApi SpecStress SpecStep.
Import ListNotations.
Local Open Scope R_scope.

(** [f] returns values and an [n] by [n] matrix (row by row).  At [x] the matrix gives the rate of change of every value along
    every differentiable curve through [x]; in particular its entries are the partial derivatives. *)
Definition jac_exact (n : nat) (f : list R -> list R * list R) (x : list R) : Prop :=
  forall (y : R -> list R) (t : R) (v : list R), y t = x -> (forall s, List.length (y s) = n) ->
  (forall j, (j < n)%nat -> is_derive (fun s => nth j (y s) 0) t (nth j v 0)) ->
  forall i, (i < n)%nat ->
  is_derive (fun s => nth i (fst (f (y s))) 0) t (fold_right Rplus 0 (map (fun j => nth (i * n + j) (snd (f x)) 0 * nth j v 0) (seq 0 n))).

(** ** Unknowns: five strain increments in units of 5e-4, three rotation components in units of 0.01 *)
Definition trial_strain (E0 : M3) (x : list R) : M3 := add3 E0 (scal3 (5 / 10000) (ten5 (map (fun k => nth k x 0) [0; 1; 2; 3; 4]%nat))).
Definition trial_rot (x : list R) : V3 := scalv (1 / 100) (mkV (nth 5 x 0) (nth 6 x 0) (nth 7 x 0)).

Section Trial.
  Variables (c : MClass R) (pars : list R) (b : BCall) (i : nat) (md sd : nat -> V3) (law : nat -> R -> R) (ref : R) (C0 : M3).
  Let s := b_s b. Let m := b_m b.
  Let v := vNew s m i.
  Let a := Rpower v (1 / 3).
  Let D := devRate s m i.
  (** resolved shear stress at the trial state *)
  Definition trial_tau (x : list R) (k : nat) : R :=
    resolved c pars v (eInt s m i - delv s m i * pres s m i)
      (add3 (scal3 (/ a) (trial_strain (dev_strain s m i) x)) (scal3 (ln v / 3) I3)) (sd k) (md k).
  Definition trial_rate (x : list R) (k : nat) : R := law k (trial_tau x k).
  Definition trial_turn (x : list R) : M3 := mul3 C0 (turn (trial_rot x)).
  Definition trial_strain_gap (x : list R) : M3 :=
    strain_gap (b_dt b) a (dev_strain s m i) (trial_strain (dev_strain s m i) x) (trial_turn x) D (c_nslip c) sd md (trial_rate x).
  Definition trial_spin_gap (x : list R) : M3 :=
    spin_gap (b_dt b) a (dev_strain s m i) (trial_strain (dev_strain s m i) x) (trial_turn x) (spin s m i) (trial_rot x) (c_nslip c) sd md (trial_rate x).
  (** the eight scaled equations *)
  Definition trial_eqs (x : list R) : list R :=
    map (fun k => inner (trial_strain_gap x) (basis k) / rate_scale ref (b_dt b) D) [0; 1; 2; 3; 4]%nat ++
    map (fun y => y / (b_dt b * rate_scale ref (b_dt b) D)) [a21 (trial_spin_gap x); a02 (trial_spin_gap x); a10 (trial_spin_gap x)].
End Trial.

(** ** Where the slip laws report the exact slope (C16) *)
Definition km_smooth (L : KMLaw) (tau : R) : Prop :=
  interior_drag L (Rabs tau) \/ (tau <> 0 /\ interior_off L (Rabs tau)) \/ (interior L (Rabs tau) /\ backward L (Rabs tau) < ln_cut).
(** [smooth_law hs c pars T h law ref ok]: [law] and [ref] as in [slip_law]; [ok k tau] holds where system [k] is off the
    switches of its law at the resolved shear stress [tau] and, for the dislocation-density laws, does not jump back *)
Inductive smooth_law (hs : Solver R) (c : MClass R) (pars : list R) (T h : R) : (nat -> R -> R) -> R -> (nat -> R -> Prop) -> Prop :=
| sm_V : c = cls_FCC_A hs \/ c = cls_FCC_AH hs \/ c = cls_BCC_B hs \/ c = cls_BCC_BH hs -> 0 < kin_par c pars 2 -> kin_par c pars 1 <> 0 ->
    smooth_law hs c pars T h (fun _ => voce_law (kin_par c pars 2) (kin_par c pars 1) h) (kin_par c pars 2)
      (fun _ tau => Rabs tau / h <> Rpower (/ 10 ^ 60) (kin_par c pars 1) /\ Rabs tau / h <> Rpower (10 ^ 60) (kin_par c pars 1))
| sm_F : c = cls_FCC_B hs -> km_params_ok false false 1 (kin_pars c pars) h T 0 ->
    smooth_law hs c pars T h (fun _ => km_law (km_spec false false 1 (kin_pars c pars) h T 0)) (km_ref 1 (kin_pars c pars) h)
      (fun _ => km_smooth (km_spec false false 1 (kin_pars c pars) h T 0))
| sm_B : c = cls_BCC_A hs -> km_params_ok true false 1 (kin_pars c pars) h T 0 ->
    smooth_law hs c pars T h (fun _ => km_law (km_spec true false 1 (kin_pars c pars) h T 0)) (km_ref 1 (kin_pars c pars) h)
      (fun _ => km_smooth (km_spec true false 1 (kin_pars c pars) h T 0))
| sm_H : c = cls_HCP_A hs -> (forall v, (v < 24)%nat -> km_params_ok true true 24 (kin_pars c pars) h T v) ->
    nth 28 (kin_pars c pars) 0 = 1 ->
    smooth_law hs c pars T h (fun k => km_law (km_spec true true 24 (kin_pars c pars) h T k)) (km_ref 24 (kin_pars c pars) h)
      (fun k => km_smooth (km_spec true true 24 (kin_pars c pars) h T k)).
