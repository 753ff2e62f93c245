(** Property theorems about the equations of a step: C14 (rates stored by a call), C23, C24, C45 - C47.
    The equations are in SpecStep.v, work and energy in SpecEnergy.v. *)
From Coq Require Import List ZArith Bool Lia Reals Lra.
From Verif Require Import Num NumR Hard MatModel Cases P_Api P_Builtin SpecTensor SpecElast SpecSlip SpecApi SpecKin SpecKinApi SpecStress SpecStep SpecEnergy
  P_Call P_Demo P_Demo2 P_Demo3 P_Step2 P_Step3 P_Energy P_Rest P_Rigid P_Rigid2 P_Rigid3 P_Rigid4 P_Demo4.
Import ListNotations.
Local Open Scope R_scope.

(** ** C45. What a successful call returns solves the equations of the step. *)
Theorem C45_solves hs c b i pars md sd law ref : good hs c b -> (i < b_n b)%nat -> in_use c (b_s b) pars ->
  systems hs c pars md sd -> slip_law hs c pars (tKel (b_s b) (b_m1 b) i) (strength (b_s b) (b_m1 b) i) law ref ->
  0 < vNew (b_s b) (b_m b) i -> accurate (b_solver b) -> 0 < b_dt b -> SpecTensor.norm2 (quat (b_s b) (b_m b) i) <> 0 ->
  trace (devRate (b_s b) (b_m b) i) = 0 ->
  step_solved c pars b i md sd law ref.
Proof. intros. now apply (call_solves hs). Qed.

(** ** C14. Slip rates stored by a call. *)
Theorem C14_rates hs c b i pars md sd law ref : good hs c b -> (i < b_n b)%nat -> in_use c (b_s b) pars ->
  systems hs c pars md sd -> slip_law hs c pars (tKel (b_s b) (b_m1 b) i) (strength (b_s b) (b_m1 b) i) law ref ->
  0 < vNew (b_s b) (b_m b) i -> b_mtan b = true \/ last_at_answer (b_solver b) -> forall k, (k < c_nslip c)%nat ->
  let tau := tau_after c pars b i (sd k) (md k) in
  val (b_s b) (b_m1 b) AH i (14 + k) = law k tau /\ 0 <= val (b_s b) (b_m1 b) AH i (14 + k) * tau.
Proof.
  intros G Hi U HS HL Hv HM k Hk tau. split; [exact (call_rates hs c b i pars G Hi U md sd law ref HS HL Hv HM k Hk)|].
  exact (call_rate_sign hs c b i pars G Hi U md sd law ref HS HL Hv HM k Hk).
Qed.

(** ** C46. Work: what is not stored elastically is dissipated by slip, and the dissipation is not negative. *)
Theorem C46_dissipation hs c b i pars md sd law ref : good hs c b -> (i < b_n b)%nat -> in_use c (b_s b) pars ->
  systems hs c pars md sd -> slip_law hs c pars (tKel (b_s b) (b_m1 b) i) (strength (b_s b) (b_m1 b) i) law ref ->
  0 < vNew (b_s b) (b_m b) i -> accurate (b_solver b) -> 0 < b_dt b -> SpecTensor.norm2 (quat (b_s b) (b_m b) i) <> 0 ->
  trace (devRate (b_s b) (b_m b) i) = 0 -> 0 <= nth 2 pars 0 ->
  let dissipated := b_dt b * sum (c_nslip c) (fun k => let tau := tau_after c pars b i (sd k) (md k) in law k tau * tau) in
  let error := b_dt b * (nth 2 pars 0 * rate_scale ref (b_dt b) (devRate (b_s b) (b_m b) i) * abs5 (kirch_after c pars b i)) in
  0 <= dissipated /\ elastic_work c pars b i + dissipated <= end_work b i + error /\ elastic_work c pars b i <= end_work b i + error.
Proof.
  intros G Hi U HS HL Hv HA Hdt Hq HT Htol dissipated error.
  destruct (work_bound hs c b i pars G Hi U md sd law ref HS HL Hv HA Hdt Hq HT Htol) as [W1 W2].
  split; [|split; [exact W2|exact W1]].
  unfold dissipated. apply Rmult_le_pos; [lra|]. apply sum_nonneg. intros k Hk.
  cbv zeta. rewrite Rmult_comm. exact (law_nonneg hs c b i pars law ref HL k _ Hk).
Qed.
(** flow strength: stored flow strength times effective deformation rate is the dissipation of the stored slip rates *)
Theorem C46_flow_strength hs c b i pars md sd law ref : good hs c b -> (i < b_n b)%nat -> in_use c (b_s b) pars ->
  systems hs c pars md sd -> slip_law hs c pars (tKel (b_s b) (b_m1 b) i) (strength (b_s b) (b_m1 b) i) law ref ->
  0 < vNew (b_s b) (b_m b) i -> b_mtan b = true \/ last_at_answer (b_solver b) ->
  trace (devRate (b_s b) (b_m b) i) = 0 ->
  let Deff := sqrt (2 / 3) * norm3t (devRate (b_s b) (b_m b) i) in / 10 ^ 90 < Deff ->
  vNew (b_s b) (b_m b) i * (val (b_s b) (b_m1 b) AH i 2 * Deff) =
  sum (c_nslip c) (fun k => tau_after c pars b i (sd k) (md k) * val (b_s b) (b_m1 b) AH i (14 + k)).
Proof. intros G Hi U HS HL Hv HM HT. exact (call_flow hs c b i pars G Hi U md sd law ref HS HL Hv HM HT). Qed.

(** ** C47. Without deformation the stored elastic energy does not grow. *)
Theorem C47_relaxation hs c b i pars md sd law ref : good hs c b -> (i < b_n b)%nat -> in_use c (b_s b) pars ->
  systems hs c pars md sd -> slip_law hs c pars (tKel (b_s b) (b_m1 b) i) (strength (b_s b) (b_m1 b) i) law ref ->
  0 < vNew (b_s b) (b_m b) i -> accurate (b_solver b) -> 0 < b_dt b -> SpecTensor.norm2 (quat (b_s b) (b_m b) i) <> 0 ->
  devRate (b_s b) (b_m b) i = Z3 -> 0 <= nth 2 pars 0 ->
  unloaded c pars (vNew (b_s b) (b_m b) i) (eInt (b_s b) (b_m b) i - delv (b_s b) (b_m b) i * pres (b_s b) (b_m b) i) ->
  pos_def (p_hooke c pars) ->
  elastic_energy c pars (vNew (b_s b) (b_m b) i) (dev_strain (b_s b) (b_m1 b) i) <=
  elastic_energy c pars (vNew (b_s b) (b_m b) i) (dev_strain (b_s b) (b_m b) i) +
  b_dt b * (nth 2 pars 0 * rate_scale ref (b_dt b) (devRate (b_s b) (b_m b) i) * abs5 (kirch_after c pars b i)).
Proof.
  intros G Hi U HS HL Hv HA Hdt Hq HD Htol HU HP.
  exact (relax_energy hs c b i pars G Hi U md sd law ref HS HL Hv HA Hdt Hq HD Htol HU HP).
Qed.

(** ** C23. Doing nothing changes nothing. *)
(** The call succeeds; strain, stress, slip rates stay zero, strength and accumulated slip stay, the orientation is only
    normalised, and the energy changes by the volume work. *)
Theorem C23_rest hs c s pars bs lu n dt m md sd : builtin hs c -> in_use c s pars -> mm_complete s = true ->
  batch_ok c s false n m -> systems hs c pars md sd -> pos_def (p_hooke c pars) -> keeps_solution hs -> keeps_solution bs ->
  0 < dt -> 0 <= nth 2 pars 0 ->
  (forall i, (i < n)%nat -> at_rest hs c pars s m i /\ spin s m i = mkV 0 0 0) ->
  let b := call_of c s bs lu false n dt m in let m1 := b_m1 b in good hs c b /\ forall i, (i < n)%nat ->
    strength s m1 i = kept c pars (strength s m i) /\ (forall k, (k < 5)%nat -> val s m1 AH i (4 + k) = 0) /\
    (forall k, (k < c_nslip c)%nat -> val s m1 AH i (14 + k) = 0) /\ val s m1 AH i 0 = 0 /\ val s m1 AH i 1 = val s m AH i 1 /\
    quat s m1 i = unit4 (quat s m i) /\ devStress s m1 i = Z3 /\ eInt s m1 i = eInt s m i - delv s m i * pres s m i.
Proof.
  intros HB U HC HO HS HPD HK HKb Hdt Htol HR b m1.
  assert (X : forall i, (i < n)%nat -> forall rj it, (forall j, (j < 8)%nat -> nth j (fst (rj (rest_x s m dt i))) 0 = 0) ->
    let r := bs 8%nat rj (nth 2 pars 0) it (tab 8 (fun _ => 0)) in so_converged r = true /\ so_x r = rest_x s m dt i /\ so_xlast r = rest_x s m dt i).
  { intros i Hi rj it HZ. destruct (HR i Hi) as [_ H0]. rewrite (rest_x0 s m dt i H0) in *. now apply HKb. }
  assert (G : good hs c b).
  { exact (rest_good hs c s pars HB U HC bs lu n dt m HO md sd HS HPD HK Hdt (fun i Hi => proj1 (HR i Hi)) (fun i Hi => or_intror (proj2 (HR i Hi)))
      (fun i Hi rj it HZ => proj1 (X i Hi rj it HZ))). }
  split; [exact G|]. intros i Hi. destruct (HR i Hi) as [H1 H2].
  destruct (rest_state hs c b i pars G Hi U md sd HS HK Hdt H1 (or_intror H2) (fun rj it HZ => proj2 (X i Hi rj it HZ))) as (A & B & C & D & E & _).
  refine (conj A (conj B (conj C (conj D (conj E (conj _ (conj _ _))))))).
  - exact (rest_quat hs c b i pars G Hi U md sd HS HK Hdt H1 (or_intror H2) (fun rj it HZ => proj2 (X i Hi rj it HZ)) H2).
  - exact (rest_zero_stress hs c b i pars G Hi U md sd HS HK Hdt H1 (or_intror H2) (fun rj it HZ => proj2 (X i Hi rj it HZ))).
  - exact (rest_energy hs c b i pars G Hi H1).
Qed.
(** With any solver that returns accurate answers and tolerance zero, the state cannot change either. *)
Theorem C23_unique hs c b i pars md sd law ref : good hs c b -> (i < b_n b)%nat -> in_use c (b_s b) pars ->
  systems hs c pars md sd -> slip_law hs c pars (tKel (b_s b) (b_m1 b) i) (strength (b_s b) (b_m1 b) i) law ref ->
  0 < vNew (b_s b) (b_m b) i -> accurate (b_solver b) -> 0 < b_dt b -> SpecTensor.norm2 (quat (b_s b) (b_m b) i) <> 0 ->
  devRate (b_s b) (b_m b) i = Z3 -> nth 2 pars 0 = 0 ->
  unloaded c pars (vNew (b_s b) (b_m b) i) (eInt (b_s b) (b_m b) i - delv (b_s b) (b_m b) i * pres (b_s b) (b_m b) i) ->
  pos_def (p_hooke c pars) -> dev_strain (b_s b) (b_m b) i = Z3 ->
  dev_strain (b_s b) (b_m1 b) i = Z3 /\ devStress (b_s b) (b_m1 b) i = Z3 /\
  (b_mtan b = true \/ last_at_answer (b_solver b) -> forall k, (k < c_nslip c)%nat -> val (b_s b) (b_m1 b) AH i (14 + k) = 0).
Proof.
  intros G Hi U HS HL Hv HA Hdt Hq HD Hex HU HP HE0. assert (Htol : 0 <= nth 2 pars 0) by lra.
  refine (conj _ (conj _ _)).
  - exact (rest_strain hs c b i pars G Hi U md sd law ref HS HL Hv HA Hdt Hq HD Htol HU HP HE0 Hex).
  - exact (rest_stress hs c b i pars G Hi U md sd law ref HS HL Hv HA Hdt Hq HD Htol HU HP HE0 Hex).
  - exact (rest_rates hs c b i pars G Hi U md sd law ref HS HL Hv HA Hdt Hq HD Htol HU HP HE0 Hex).
Qed.
(** With a positive tolerance, the elastic strain that can appear is of the order of the tolerance. *)
Theorem C23_bound hs c b i pars md sd law ref : good hs c b -> (i < b_n b)%nat -> in_use c (b_s b) pars ->
  systems hs c pars md sd -> slip_law hs c pars (tKel (b_s b) (b_m1 b) i) (strength (b_s b) (b_m1 b) i) law ref ->
  0 < vNew (b_s b) (b_m b) i -> accurate (b_solver b) -> 0 < b_dt b -> SpecTensor.norm2 (quat (b_s b) (b_m b) i) <> 0 ->
  devRate (b_s b) (b_m b) i = Z3 -> 0 <= nth 2 pars 0 ->
  unloaded c pars (vNew (b_s b) (b_m b) i) (eInt (b_s b) (b_m b) i - delv (b_s b) (b_m b) i * pres (b_s b) (b_m b) i) ->
  dev_strain (b_s b) (b_m b) i = Z3 ->
  forall lam Lam, 0 < lam -> 0 <= Lam -> (forall A, is_dev A -> lam * inner A A <= inner A (p_hooke c pars A)) ->
  (forall A, is_dev A -> abs5 (p_hooke c pars A) <= Lam * norm3t A) ->
  norm3t (scal3 (/ Rpower (vNew (b_s b) (b_m b) i) (1 / 3)) (dev_strain (b_s b) (b_m1 b) i)) <=
  b_dt b * (nth 2 pars 0 * rate_scale ref (b_dt b) (devRate (b_s b) (b_m b) i)) * (Lam / lam).
Proof.
  intros G Hi U HS HL Hv HA Hdt Hq HD Htol HU HE0 lam Lam H1 H2 H3 H4.
  exact (rest_bound hs c b i pars G Hi U md sd law ref HS HL Hv HA Hdt Hq HD Htol HU HE0 lam Lam H1 H2 H3 H4).
Qed.

(** ** C24. A crystal that only spins turns rigidly. *)
(** There are exact solutions of the crystal updates of all points; with any solver that finds them the call succeeds and
    every orientation is turned by the angle |w| dt about the spin [w]. *)
Theorem C24_spin hs c s pars n dt m md sd : builtin hs c -> in_use c s pars -> mm_complete s = true ->
  batch_ok c s false n m -> systems hs c pars md sd -> pos_def (p_hooke c pars) -> keeps_solution hs ->
  0 < dt -> 0 <= nth 2 pars 0 ->
  (forall i, (i < n)%nat -> at_rest hs c pars s m i /\ / 10 ^ 90 < norm3 (scalv dt (spin s m i))) ->
  exists x : nat -> list R, forall bs lu, let b := call_of c s bs lu false n dt m in let m1 := b_m1 b in
    ((forall i, (i < n)%nat -> reaches bs (x i)) -> good hs c b) /\
    ((forall i, (i < n)%nat -> finds bs (x i)) -> forall i, (i < n)%nat ->
      (forall C0, rotates (unit4 (quat s m i)) C0 -> rotates (quat s m1 i) (mul3 (turn (scalv dt (spin s m i))) C0)) /\
      (forall k, (k < 5)%nat -> val s m1 AH i (4 + k) = 0) /\ devStress s m1 i = Z3 /\
      (forall k, (k < c_nslip c)%nat -> val s m1 AH i (14 + k) = 0) /\ strength s m1 i = kept c pars (strength s m i)).
Proof.
  intros HB U HC HO HS HPD HK Hdt Htol HR. exists (rest_x s m dt). intros bs lu b m1.
  assert (G : (forall i, (i < n)%nat -> reaches bs (rest_x s m dt i)) -> good hs c b).
  { intros HF. exact (rest_good hs c s pars HB U HC bs lu n dt m HO md sd HS HPD HK Hdt (fun i Hi => proj1 (HR i Hi)) (fun i Hi => or_introl (proj2 (HR i Hi)))
      (fun i Hi rj it HZ => HF i Hi rj (nth 2 pars 0) it (tab 8 (fun _ => 0)) Htol HZ)). }
  split; [exact G|]. intros HF i Hi.
  assert (G' : good hs c b) by (apply G; intros j Hj rj tol it x0 Ht HZ; exact (proj1 (HF j Hj rj tol it x0 Ht HZ))).
  destruct (HR i Hi) as [H1 H2].
  pose proof (fun rj it HZ => proj2 (HF i Hi rj (nth 2 pars 0) it (tab 8 (fun _ => 0)) Htol HZ)) as HX.
  destruct (rest_state hs c b i pars G' Hi U md sd HS HK Hdt H1 (or_introl H2) HX) as (A & B & C & D & E & F).
  refine (conj _ (conj B (conj _ (conj C A)))).
  - intros C0 HC0. apply P_Stress.rotates_rotq in HC0; [|reflexivity]. subst C0.
    refine (eq_ind _ (rotates _) (P_Stress.rotq_rotates (quat (b_s b) (b_m1 b) i) eq_refl) _ F).
  - exact (rest_zero_stress hs c b i pars G' Hi U md sd HS HK Hdt H1 (or_introl H2) HX).
Qed.
(** With any solver that returns accurate answers and tolerance zero, no other orientation can be returned. *)
Theorem C24_unique hs c b i pars md sd law ref : good hs c b -> (i < b_n b)%nat -> in_use c (b_s b) pars ->
  systems hs c pars md sd -> slip_law hs c pars (tKel (b_s b) (b_m1 b) i) (strength (b_s b) (b_m1 b) i) law ref ->
  0 < vNew (b_s b) (b_m b) i -> accurate (b_solver b) -> 0 < b_dt b -> SpecTensor.norm2 (quat (b_s b) (b_m b) i) <> 0 ->
  devRate (b_s b) (b_m b) i = Z3 -> nth 2 pars 0 = 0 ->
  unloaded c pars (vNew (b_s b) (b_m b) i) (eInt (b_s b) (b_m b) i - delv (b_s b) (b_m b) i * pres (b_s b) (b_m b) i) ->
  pos_def (p_hooke c pars) -> dev_strain (b_s b) (b_m b) i = Z3 ->
  let xi := scalv (b_dt b) (spin (b_s b) (b_m b) i) in / 10 ^ 90 < norm3 xi \/ xi = mkV 0 0 0 ->
  forall C0, rotates (unit4 (quat (b_s b) (b_m b) i)) C0 -> rotates (quat (b_s b) (b_m1 b) i) (mul3 (turn xi) C0).
Proof.
  intros G Hi U HS HL Hv HA Hdt Hq HD Hex HU HP HE0 xi HW C0. assert (Htol : 0 <= nth 2 pars 0) by lra.
  exact (rest_spin hs c b i pars G Hi U md sd law ref HS HL Hv HA Hdt Hq HD Htol HU HP HE0 Hex C0 HW).
Qed.

(** ** Cases *)
(** an FCC crystal at rest, orientation (1,2,0,0) not normalised, relative volume 11/10 *)
Example C23_case : let c := d2_c checked in let s := d2_s checked in let m := d4_m [0; 0; 0] in
  builtin checked c /\ in_use c s demo_pars /\ mm_complete s = true /\ batch_ok c s false 1 m /\ (exists md sd, systems checked c demo_pars md sd) /\
  pos_def (p_hooke c demo_pars) /\ keeps_solution checked /\ 0 <= nth 2 demo_pars 0 /\
  at_rest checked c demo_pars s m 0 /\ spin s m 0 = mkV 0 0 0 /\ quat s m 0 = [1; 2; 0; 0] /\ delv s m 0 = / 10.
Proof.
  intros c s m. refine (conj (d2_builtin _) (conj (d2_in_use _) (conj (d2_complete _) (conj (d4_batch _ [0; 0; 0] eq_refl) (conj (d4_systems _) (conj (d4_pd _) (conj checked_keeps
    (conj _ (conj (d4_at_rest _ [0; 0; 0] eq_refl) (conj (d4_spin _ [0; 0; 0] eq_refl) _)))))))))).
  - cbn. lra.
  - unfold quat, delv, val, s. rewrite d2_strides. split; reflexivity.
Qed.
(** the same crystal with the spin (0,3,4): the call succeeds with a solver that checks its answer *)
Example C24_case : let c := d2_c checked in let s := d2_s checked in let m := d4_m d4_w in let b := d4_call d4_w in
  at_rest checked c demo_pars s m 0 /\ / 10 ^ 90 < norm3 (scalv (/ 10) (spin s m 0)) /\
  good checked c b /\ accurate (b_solver b) /\ last_at_answer (b_solver b) /\ in_use c (b_s b) demo_pars /\
  (forall T h, exists law ref, slip_law checked c demo_pars T h law ref) /\
  0 < vNew (b_s b) (b_m b) 0 /\ SpecTensor.norm2 (quat (b_s b) (b_m b) 0) <> 0 /\ dev_strain (b_s b) (b_m b) 0 = Z3 /\
  unloaded c demo_pars (vNew (b_s b) (b_m b) 0) (eInt (b_s b) (b_m b) 0 - delv (b_s b) (b_m b) 0 * pres (b_s b) (b_m b) 0).
Proof.
  intros c s m b. pose proof (d4_at_rest checked d4_w eq_refl) as R. pose proof (d4_spins checked) as W.
  refine (conj R (conj W (conj (d4_good d4_w eq_refl (or_introl W)) (conj (offer_accurate _) (conj (offer_last _) (conj (d2_in_use _) _)))))).
  split; [|destruct R as (_ & R1 & _ & R2 & R3 & _ & R4 & _); exact (conj R2 (conj R3 (conj R1 R4)))].
  intros T h. do 2 eexists. apply law_V; [now left|]. cbn. lra.
Qed.

Print Assumptions C45_solves.
Print Assumptions C14_rates.
Print Assumptions C46_dissipation.
Print Assumptions C46_flow_strength.
Print Assumptions C47_relaxation.
Print Assumptions C23_rest.
Print Assumptions C23_unique.
Print Assumptions C23_bound.
Print Assumptions C24_spin.
Print Assumptions C24_unique.
