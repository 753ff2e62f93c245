(** C20: the nonlinear solver is given the equations of the step and their exact Jacobian. *)
From Coq Require Import List ZArith Bool Lia PeanoNat Reals Lra String.
From Coquelicot Require Import Coquelicot.
From Verif Require Import Num Arr NumR Hard MatModel Cases SpecTensor SpecElast SpecSlip SpecApi SpecStress SpecKin SpecKinApi SpecStep SpecEnergy SpecJac
  P_Batch4 P_Builtin P_Demo P_Demo2 P_Demo3 P_Rigid2 P_Rigid4 P_Demo4 P_Demo5 P_Jac3.
Import ListNotations.
Local Open Scope R_scope.

(** For every successful call of every built-in model and every point: there is a function [f] such that the returned
    elastic strain and orientation are the ones of the answer the solver gave when run on [f] from zero; the values of [f]
    are the equations of the step at the trial state, for every trial state; and where the trial rotation is not smaller
    than 1e-9 and no slip system sits on a switch of its law, the matrix that [f] returns is the exact Jacobian of its
    values.  Rotations below 1e-9 are excluded: there the code uses a Taylor form, and below 1e-90 the values themselves
    are not differentiable.  Dislocation-density laws with a backward jump above the cut-off are excluded because the
    reported slope is wrong there (C16_km_dtau_refuted). *)
Theorem C20_exact hs c b i pars md sd law ref ok :
  good hs c b -> (i < b_n b)%nat -> in_use c (b_s b) pars -> systems hs c pars md sd ->
  smooth_law hs c pars (tKel (b_s b) (b_m1 b) i) (strength (b_s b) (b_m1 b) i) law ref ok ->
  0 < vNew (b_s b) (b_m b) i -> 0 < b_dt b -> norm2 (quat (b_s b) (b_m b) i) <> 0 -> trace (devRate (b_s b) (b_m b) i) = 0 ->
  let s := b_s b in let m := b_m b in let m1 := b_m1 b in
  exists (f : list R -> list R * list R) (C0 : M3), rotates (unit4 (quat s m i)) C0 /\
    (let r := b_solver b 8%nat f (nth 2 pars 0) 200%nat [0; 0; 0; 0; 0; 0; 0; 0] in
     so_converged r = true /\ dev_strain s m1 i = trial_strain (dev_strain s m i) (so_x r) /\
     rotates (quat s m1 i) (trial_turn C0 (so_x r))) /\
    (forall x, fst (f x) = trial_eqs c pars b i md sd law ref C0 x) /\
    (forall x, / 10 ^ 9 <= norm3 (trial_rot x) -> (forall k, (k < c_nslip c)%nat -> ok k (trial_tau c pars b i md sd x k)) ->
      jac_exact 8 f x).
Proof. intros G Hi U HS HL Hv Hdt Hq HT. exact (call_jac hs c b i pars G Hi U md sd law ref ok HS HL Hv Hdt Hq HT). Qed.

(** A spinning crystal, and a trial state with rotation 0.01 and resolved shear stresses 0, 1/2 and 1 times the strength. *)
Example C20_case : let c := d2_c checked in let b := d4_call d4_w in exists md sd law ref ok,
  good checked c b /\ (0 < b_n b)%nat /\ in_use c (b_s b) demo_pars /\ systems checked c demo_pars md sd /\
  smooth_law checked c demo_pars (tKel (b_s b) (b_m1 b) 0) (strength (b_s b) (b_m1 b) 0) law ref ok /\
  0 < vNew (b_s b) (b_m b) 0 /\ 0 < b_dt b /\ norm2 (quat (b_s b) (b_m b) 0) <> 0 /\ trace (devRate (b_s b) (b_m b) 0) = 0 /\
  / 10 ^ 9 <= norm3 (trial_rot d5_x) /\ (forall k, (k < c_nslip c)%nat -> ok k (trial_tau c demo_pars b 0 md sd d5_x k)).
Proof.
  intros c b. exists (fun i => unitv (cub (fst (nth i sys_fcc d3)))), (fun i => unitv (cub (snd (nth i sys_fcc d3)))).
  exists (fun _ => voce_law (kin_par (d2_c checked) demo_pars 2) (kin_par (d2_c checked) demo_pars 1) 1), (kin_par (d2_c checked) demo_pars 2).
  exists (fun _ tau => Rabs tau / 1 <> Rpower (/ 10 ^ 60) (kin_par (d2_c checked) demo_pars 1) /\ Rabs tau / 1 <> Rpower (10 ^ 60) (kin_par (d2_c checked) demo_pars 1)).
  assert (W := d4_spins checked). assert (L : List.length d4_w = 3%nat) by reflexivity.
  destruct (d4_at_rest checked d4_w L) as (R0 & _ & _ & R1 & R2 & _).
  assert (A1 : (0 < b_n b)%nat) by (cbn; lia).
  assert (A2 : systems checked c demo_pars (fun i => unitv (cub (fst (nth i sys_fcc d3)))) (fun i => unitv (cub (snd (nth i sys_fcc d3)))))
    by (apply sys_F; now left).
  assert (A3 : 0 < b_dt b) by (cbn; lra).
  assert (A4 : trace (devRate (b_s b) (b_m b) 0) = 0).
  { change (trace (devRate (d2_s checked) (d4_m d4_w) 0) = 0). rewrite R0. unfold trace, Z3. cbn [a00 a11 a22]. ring. }
  unfold b. rewrite d5_strength.
  exact (conj (d4_good d4_w L (or_introl W)) (conj A1 (conj (d2_in_use _) (conj A2 (conj d5_smooth (conj R1 (conj A3 (conj R2 (conj A4 (conj d5_rot d5_off)))))))))).
Qed.

Print Assumptions C20_exact.
