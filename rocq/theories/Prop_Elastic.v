(** Property theorems about steps without slip: C73. Thresholds and the equations of such steps are in SpecElastic.v. *)
From Coq Require Import List ZArith Bool Lia Reals Lra.
From Verif Require Import Num NumR Hard MatModel Cases P_Api P_Builtin SpecTensor SpecElast SpecSlip SpecApi SpecKin SpecKinApi SpecStress SpecStep SpecEnergy SpecElastic
  P_Call P_Demo P_Demo2 P_Demo3 P_Demo4 P_Rigid2 P_Elastic P_Load P_Demo34.
Import ListNotations.
Local Open Scope R_scope.

(** ** C73. Below the slip thresholds a crystal is elastic. *)
(** Below its threshold a slip system does not slip at all; with the power law, beyond it it does. *)
Theorem C73_threshold hs c pars T h law ref thr k tau : slip_law hs c pars T h law ref -> slip_threshold hs c pars h thr -> 0 < h -> (k < c_nslip c)%nat ->
  (Rabs tau <= thr k -> law k tau = 0) /\
  (c = cls_FCC_A hs \/ c = cls_FCC_AH hs \/ c = cls_BCC_B hs \/ c = cls_BCC_BH hs -> thr k < Rabs tau -> law k tau <> 0).
Proof.
  intros HL HT Hh Hk. split; [exact (threshold_law hs c pars T h law ref thr HL HT Hh k tau Hk)|].
  intros HV. exact (threshold_sharp hs c pars T h law ref thr HL HT Hh k tau HV Hk).
Qed.
(** A successful call that ends below the thresholds: no stored slip rate, effective rate, flow strength or new accumulated
    shear; the elastic strain takes up the deformation and the lattice the spin, within the tolerance; and the work done is
    the work of the elastic strain, within the tolerance. *)
Theorem C73_step hs c b i pars md sd law ref thr : good hs c b -> (i < b_n b)%nat -> in_use c (b_s b) pars ->
  systems hs c pars md sd -> slip_law hs c pars (tKel (b_s b) (b_m1 b) i) (strength (b_s b) (b_m1 b) i) law ref ->
  slip_threshold hs c pars (strength (b_s b) (b_m1 b) i) thr -> 0 < strength (b_s b) (b_m1 b) i ->
  stays_below c pars b i md sd thr -> 0 < vNew (b_s b) (b_m b) i -> 0 < b_dt b ->
  (b_mtan b = true \/ last_at_answer (b_solver b) ->
     (forall k, (k < c_nslip c)%nat -> val (b_s b) (b_m1 b) AH i (14 + k) = 0) /\ val (b_s b) (b_m1 b) AH i 0 = 0 /\
     val (b_s b) (b_m1 b) AH i 1 = val (b_s b) (b_m b) AH i 1 /\
     (trace (devRate (b_s b) (b_m b) i) = 0 -> / 10 ^ 90 < sqrt (2 / 3) * norm3t (devRate (b_s b) (b_m b) i) -> val (b_s b) (b_m1 b) AH i 2 = 0)) /\
  (accurate (b_solver b) -> norm2 (quat (b_s b) (b_m b) i) <> 0 -> trace (devRate (b_s b) (b_m b) i) = 0 ->
     let bound := nth 2 pars 0 * rate_scale ref (b_dt b) (devRate (b_s b) (b_m b) i) in
     elastic_step b i bound /\
     (0 <= nth 2 pars 0 -> Rabs (elastic_work c pars b i - end_work b i) <= b_dt b * (bound * abs5 (kirch_after c pars b i)))).
Proof.
  intros G Hi U HS HL HT Hh HB Hv Hdt. split.
  - intros HM. split; [exact (below_rates hs c b i pars G Hi U md sd law ref thr HS HL HT Hh HB Hv HM)|].
    destruct (below_shear hs c b i pars G Hi U md sd law ref thr HS HL HT Hh HB Hv HM Hdt) as [A B]. split; [exact A|]. split; [exact B|].
    exact (below_flow hs c b i pars G Hi U md sd law ref thr HS HL HT Hh HB Hv HM).
  - intros HA Hq Htr bound. split; [exact (below_step hs c b i pars G Hi U md sd law ref thr HS HL HT Hh HB Hv HA Hdt Hq Htr)|].
    exact (below_work hs c b i pars G Hi U md sd law ref thr HS HL HT Hh HB Hv HA Hdt Hq Htr).
Qed.
(** Any history that starts without slip and ends every call below the thresholds of the initial strength leaves the strength and
    the accumulated shear as they were and never slips. *)
Theorem C73_history hs c i pars md sd thr l b0 : chain hs c [AH] (b0 :: l) -> (i < b_n b0)%nat -> keeps_solution hs ->
  systems hs c pars md sd -> 0 < strength (b_s b0) (b_m b0) i ->
  (forall k, (k < c_nslip c)%nat -> val (b_s b0) (b_m b0) AH i (14 + k) = 0) ->
  let h := kept c pars (strength (b_s b0) (b_m b0) i) in slip_threshold hs c pars h thr ->
  (forall b, In b (b0 :: l) -> in_use c (b_s b) pars /\ 0 < b_dt b /\ 0 < vNew (b_s b) (b_m b) i /\
    (b_mtan b = true \/ last_at_answer (b_solver b)) /\ (exists law ref, slip_law hs c pars (tKel (b_s b) (b_m1 b) i) h law ref) /\
    stays_below c pars b i md sd thr) ->
  forall b, In b (b0 :: l) -> strength (b_s b) (b_m1 b) i = h /\ (forall k, (k < c_nslip c)%nat -> val (b_s b) (b_m1 b) AH i (14 + k) = 0) /\
    val (b_s b) (b_m1 b) AH i 0 = 0 /\ val (b_s b) (b_m1 b) AH i 1 = val (b_s b0) (b_m b0) AH i 1.
Proof.
  intros HC Hi HK HS Hs HZ h HT HQ b HI.
  exact (quiet_chain hs c i pars md sd thr h HK HS HT l b0 HC Hi Hs eq_refl HZ HQ b HI).
Qed.
(** Loading an unstrained crystal without spin: if the stress of the elastic solution is below the thresholds, every solver that
    finds exact solutions makes the call succeed with exactly that strain and stress, the orientation unchanged. *)
Theorem C73_load hs c s pars bs lu n dt m md sd C : builtin hs c -> in_use c s pars -> mm_complete s = true ->
  batch_ok c s false n m -> systems hs c pars md sd -> pos_def (p_hooke c pars) -> keeps_solution hs -> 0 < dt -> 0 <= nth 2 pars 0 ->
  (forall i, (i < n)%nat -> first_load hs c pars s m i dt md sd (C i) /\ finds bs (load_x dt (vNew s m i) (C i) (devRate s m i))) ->
  let b := call_of c s bs lu false n dt m in let m1 := b_m1 b in good hs c b /\ forall i, (i < n)%nat ->
    dev_strain s m1 i = scal3 (Rpower (vNew s m i) (1 / 3) * dt) (cong (tr3 (C i)) (devRate s m i)) /\
    devStress s m1 i = cong (C i) (dev3 (latStress c pars (vNew s m i) (eInt s m i - delv s m i * pres s m i) (load_strain dt (vNew s m i) (C i) (devRate s m i)))) /\
    quat s m1 i = unit4 (quat s m i) /\ strength s m1 i = kept c pars (strength s m i) /\
    (forall k, (k < c_nslip c)%nat -> val s m1 AH i (14 + k) = 0) /\ val s m1 AH i 0 = 0 /\ val s m1 AH i 1 = val s m AH i 1.
Proof.
  intros HB U HC HO HS HPD HK Hdt Htol HR b m1.
  assert (G : good hs c b) by exact (load_good hs c s pars HB U HC bs lu n dt m HO md sd HS HPD HK Hdt Htol C (fun i Hi => proj1 (HR i Hi)) (fun i Hi => proj2 (HR i Hi))).
  split; [exact G|]. intros i Hi. destruct (HR i Hi) as [H1 H2].
  destruct (load_state hs c b i pars G Hi U md sd HS HK Hdt Htol (C i) H1 H2) as (A1 & A2 & A3 & A4 & A5 & A6).
  pose proof (load_stress hs c b i pars G Hi U md sd HS HK Hdt Htol (C i) H1 H2) as A7.
  exact (conj A2 (conj A7 (conj A6 (conj A1 (conj A3 (conj A4 A5)))))).
Qed.
(** an FCC crystal stretched at 1e-6 of the reference rate: it ends strained, below the threshold *)
Example C73_case : exists md sd, systems checked (d2_c checked) demo_pars md sd /\
  first_load checked (d2_c checked) demo_pars (d2_s checked) d34_m 0 (/ 10) md sd d34_C /\ good checked (d2_c checked) d34_call /\
  chain checked (d2_c checked) [AH] [d34_call] /\
  accurate (b_solver d34_call) /\ last_at_answer (b_solver d34_call) /\ keeps_solution checked /\
  strength (d2_s checked) (b_m1 d34_call) 0 = 1 /\ dev_strain (d2_s checked) (b_m1 d34_call) 0 <> Z3 /\
  slip_threshold checked (d2_c checked) demo_pars 1 (fun _ => 1 * Rpower (/ 10 ^ 60) (kin_par (d2_c checked) demo_pars 1)) /\
  Rpower (/ 10 ^ 60) (kin_par (d2_c checked) demo_pars 1) = / 10 ^ 6 /\
  stays_below (d2_c checked) demo_pars d34_call 0 md sd (fun _ => 1 * Rpower (/ 10 ^ 60) (kin_par (d2_c checked) demo_pars 1)) /\
  (exists law ref, slip_law checked (d2_c checked) demo_pars (tKel (d2_s checked) (b_m1 d34_call) 0) 1 law ref).
Proof.
  destruct (d4_systems checked) as (md & sd & HS). exists md, sd.
  refine (conj HS (conj (d34_load md sd HS) (conj d34_good (conj (conj d34_good (conj I I)) (conj d34_accurate (conj d34_last (conj checked_keeps
    (conj (proj1 (d34_state md sd HS)) (conj (d34_strained md sd HS) (conj (thr_V _ _ _ _ (or_introl eq_refl)) (conj pow_thr (conj (d34_below md sd HS) _)))))))))))).
  do 2 eexists. apply law_V; [now left|]. cbn. lra.
Qed.

Print Assumptions C73_threshold.
Print Assumptions C73_step.
Print Assumptions C73_history.
Print Assumptions C73_load.
