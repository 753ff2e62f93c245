(** C36: the tangent stiffness is the derivative of the stress along solutions of the step; requesting it changes no
    other output than the evaluation counter. *)
From Coq Require Import List ZArith Bool Lia PeanoNat Reals Lra String.
From Coquelicot Require Import Coquelicot.
From Verif Require Import Num Arr NumR Hard MatModel Cases SpecTensor SpecElast SpecSlip SpecApi SpecStress SpecKin SpecKinApi SpecStep SpecEnergy SpecJac SpecTan
  P_Batch P_Batch3 P_Batch4 P_Builtin P_Demo P_Demo2 P_Demo3 P_Rigid2 P_Rigid4 P_Demo4 P_Demo5 P_Tan2 P_Tan3 P_Lu P_Demo6.
Import ListNotations.
Local Open Scope R_scope.

(** For every successful call of every built-in model and every point: [x] is the answer of the solver run from zero on a
    function whose values are the equations of the step; the returned strain, orientation, stress and pressure are the
    ones of the trial state [x].  If the tangent was requested: a volume change gives the bulk modulus reported for the
    point and no shear.  And if the linear solver is exact, the rotation of the step is at least 1e-9 and no slip system
    sits on a switch of its law: along every curve of trial states [X] that, under deformation rates [Dt], keeps the
    residuals of the equations to first order, the Cauchy stress changes at the rate that the tangent gives for the
    increment of the strain (time step times deformation rate); and such a curve exists for every change of the rate.
    Excluded, as in C20_exact: rotations below 1e-9, and dislocation-density laws with a backward jump. *)
Theorem C36_tangent hs c b i pars md sd law ref ok :
  good hs c b -> (i < b_n b)%nat -> in_use c (b_s b) pars -> systems hs c pars md sd ->
  smooth_law hs c pars (tKel (b_s b) (b_m1 b) i) (strength (b_s b) (b_m1 b) i) law ref ok ->
  0 < vNew (b_s b) (b_m b) i -> 0 < b_dt b -> norm2 (quat (b_s b) (b_m b) i) <> 0 -> trace (devRate (b_s b) (b_m b) i) = 0 ->
  let s := b_s b in let m := b_m b in let m1 := b_m1 b in
  exists (f : list R -> list R * list R) (C0 : M3), rotates (unit4 (quat s m i)) C0 /\
    (forall x, fst (f x) = trial_eqs c pars b i md sd law ref C0 x) /\
    let r := b_solver b 8%nat f (nth 2 pars 0) 200%nat [0; 0; 0; 0; 0; 0; 0; 0] in
    let x := so_x r in
    so_converged r = true /\ dev_strain s m1 i = trial_strain (dev_strain s m i) x /\ rotates (quat s m1 i) (trial_turn C0 x) /\
    devStress s m1 i = trial_dev c pars b i C0 x /\ pres s m1 i = trial_pres c pars b i x /\
    (b_mtan b = true ->
      stiff (tangent s m1 i) I3 = scal3 (3 * val s m1 AB i 0) I3 /\
      (solves_exactly (b_lu b) -> / 10 ^ 9 <= norm3 (trial_rot x) -> (forall k, (k < c_nslip c)%nat -> ok k (trial_tau c pars b i md sd x k)) ->
       forall (Dt : R -> M3) (X : R -> list R) (t : R) (Dd : M3) (dX : list R),
         (forall u, is_dev (Dt u)) -> Dt t = devRate s m i -> derives Dt t Dd ->
         (forall u, List.length (X u) = 8%nat) -> X t = x -> (forall j, (j < 8)%nat -> is_derive (fun u => nth j (X u) 0) t (nth j dX 0)) ->
         keeps_solved c pars b i md sd law C0 Dt X t ->
         derives (fun u => trial_cauchy c pars b i C0 (X u)) t (stiff (tangent s m1 i) (scal3 (b_dt b) Dd))) /\
      (solves_exactly (b_lu b) -> / 10 ^ 9 <= norm3 (trial_rot x) -> (forall k, (k < c_nslip c)%nat -> ok k (trial_tau c pars b i md sd x k)) ->
       List.length x = 8%nat -> forall Dd, is_dev Dd -> exists dX : list R,
         keeps_solved c pars b i md sd law C0 (fun u => add3 (devRate s m i) (scal3 u Dd)) (fun u => map (fun j => nth j x 0 + u * nth j dX 0) (seq 0 8)) 0)).
Proof. intros G Hi U HS HL Hv Hdt Hq HT. exact (call_tan hs c b i pars G Hi U md sd law ref ok HS HL Hv Hdt Hq HT). Qed.

(** A crystal that turns by half a radian about its third axis, with an exact linear solver. *)
Example C36_case : let c := d2_c checked in let b := d6_call true in exists md sd law ref ok,
  good checked c b /\ (0 < b_n b)%nat /\ in_use c (b_s b) demo_pars /\ systems checked c demo_pars md sd /\
  smooth_law checked c demo_pars (tKel (b_s b) (b_m1 b) 0) (strength (b_s b) (b_m1 b) 0) law ref ok /\
  0 < vNew (b_s b) (b_m b) 0 /\ 0 < b_dt b /\ norm2 (quat (b_s b) (b_m b) 0) <> 0 /\ trace (devRate (b_s b) (b_m b) 0) = 0 /\
  b_mtan b = true /\ solves_exactly (b_lu b) /\
  (forall f tol it x0, let x := so_x (b_solver b 8%nat f tol it x0) in
    List.length x = 8%nat /\ / 10 ^ 9 <= norm3 (trial_rot x) /\ (forall k, (k < c_nslip c)%nat -> ok k (trial_tau c demo_pars b 0 md sd x k))).
Proof.
  intros c b. exists (fun i => unitv (cub (fst (nth i sys_fcc d3)))), (fun i => unitv (cub (snd (nth i sys_fcc d3)))).
  exists (fun _ => voce_law (kin_par (d2_c checked) demo_pars 2) (kin_par (d2_c checked) demo_pars 1) 1), (kin_par (d2_c checked) demo_pars 2).
  exists (fun _ tau => Rabs tau / 1 <> Rpower (/ 10 ^ 60) (kin_par (d2_c checked) demo_pars 1) /\ Rabs tau / 1 <> Rpower (10 ^ 60) (kin_par (d2_c checked) demo_pars 1)).
  destruct (d6_at_rest checked) as (R0 & _ & _ & R1 & R2 & _).
  assert (A1 : (0 < b_n b)%nat) by (cbn; lia).
  assert (A2 : systems checked c demo_pars (fun i => unitv (cub (fst (nth i sys_fcc d3)))) (fun i => unitv (cub (snd (nth i sys_fcc d3)))))
    by (apply sys_F; now left).
  assert (A3 : 0 < b_dt b) by (cbn; lra).
  unfold b. rewrite d6_strength.
  refine (conj (d6_good true) (conj A1 (conj (d2_in_use _) (conj A2 (conj (d6_smooth true) (conj R1 (conj A3 (conj R2 (conj (d6_trace true) (conj eq_refl (conj (lu_by_exact _) _))))))))))).
  intros f tol it x0. cbv zeta. rewrite d6_answer. exact (conj eq_refl (conj d6_rot (d6_off true))).
Qed.

(** Two successful calls that differ only in whether the tangent is requested give the same energy, stress, history,
    temperature and moduli, except for the evaluation counter in entry 3 of the history, for solvers whose last
    evaluation was at the answer. *)
Theorem C36_request hs c b b' : good hs c b -> good hs c b' -> b_mtan b = true -> b_mtan b' = false ->
  b_s b' = b_s b -> b_n b' = b_n b -> b_dt b' = b_dt b -> b_solver b' = b_solver b -> (forall a, a <> AM -> b_m b' a = b_m b a) ->
  last_at_answer (b_solver b) -> forall i a k, (i < b_n b)%nat -> In a [AE; AS; AH; AT; AB] -> (k < per_point (c_nH c) (c_nslip c) false a)%nat ->
  ~ (a = AH /\ k = 3%nat) -> val (b_s b) (b_m1 b) a i k = val (b_s b) (b_m1 b') a i k.
Proof. exact (call_request hs c b b'). Qed.
Example C36_request_case : let c := d2_c checked in let b := d6_call true in let b' := d6_call false in
  good checked c b /\ good checked c b' /\ b_mtan b = true /\ b_mtan b' = false /\
  b_s b' = b_s b /\ b_n b' = b_n b /\ b_dt b' = b_dt b /\ b_solver b' = b_solver b /\ (forall a, a <> AM -> b_m b' a = b_m b a) /\
  last_at_answer (b_solver b) /\ (0 < b_n b)%nat.
Proof.
  intros c b b'. unfold b, b'. rewrite !d6_mtan, !d6_s, !d6_n, !d6_dt, !d6_solver, !d6_mem.
  refine (conj (d6_good true) (conj (d6_good false) (conj eq_refl (conj eq_refl (conj eq_refl (conj eq_refl (conj eq_refl (conj eq_refl (conj (fun _ _ => eq_refl) (conj (offer_last _) (le_n 1))))))))))).
Qed.

(** The evaluation counter is what changes: it counts the extra evaluation for the tangent. *)
Theorem C36_counter_refuted : exists hs c b b', good hs c b /\ good hs c b' /\ b_mtan b = true /\ b_mtan b' = false /\
  b_s b' = b_s b /\ b_n b' = b_n b /\ b_dt b' = b_dt b /\ b_solver b' = b_solver b /\ b_lu b' = b_lu b /\ b_m b' = b_m b /\
  last_at_answer (b_solver b) /\ (forall f tol it x0, so_nfev_rj (b_solver b 8%nat f tol it x0) = S (so_nfev (b_solver b 8%nat f tol it x0))) /\
  (0 < b_n b)%nat /\ val (b_s b) (b_m1 b) AH 0 3 <> val (b_s b) (b_m1 b') AH 0 3.
Proof.
  exists checked, (d2_c checked), (d6_call true), (d6_call false).
  pose proof d6_counter as K. rewrite d6_s in K. rewrite !d6_mtan, !d6_s, !d6_n, !d6_dt, !d6_solver, !d6_mem, !d6_linear.
  exact (conj (d6_good true) (conj (d6_good false) (conj eq_refl (conj eq_refl (conj eq_refl (conj eq_refl (conj eq_refl (conj eq_refl (conj eq_refl (conj eq_refl (conj (offer_last _) (conj (fun _ _ _ _ => eq_refl) (conj (le_n 1) K))))))))))))).
Qed.

Print Assumptions C36_tangent.
Print Assumptions C36_counter_refuted.
Print Assumptions C36_request.
