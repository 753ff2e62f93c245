(** C40, C41, C48, C49: the mini-app. *)
From Coq Require Import List ZArith Bool Lia Reals Lra Permutation String.
From Verif Require Import Num NumR Hard MatModel Cases Miniapp SpecTensor SpecApi SpecObj SpecStep SpecMini P_Api P_Builtin P_Hist P_Demo P_Demo3 P_Mini P_Mini2 P_Mini3 P_Demo8.
Import ListNotations.
Local Open Scope R_scope.

(** ** C40: what goes to the library and comes back *)
(** Before a step the buffers of the library say the same as the arrays of the mini-app ([given]), for every order in which
    the points are visited. *)
Theorem C40_given hs openmp gpu model device params c s nst d n dt qs a q :
  app_main hs openmp gpu model device params = Ready c s nst d -> sized nst n a -> visits n qs -> (q < n)%nat ->
  given nst dt a s (ap_m (setup_data nst dt qs a)) q.
Proof.
  intros HM SZ HV Hq. destruct (app_ready _ _ _ _ _ _ _ _ _ _ HM) as (_ & _ & _ & _ & AV & HN & _).
  exact (setup_given nst n s ltac:(lia) AV dt qs a q SZ HV Hq).
Qed.
(** After a step the arrays of the mini-app say the same as the buffers of the library. *)
Theorem C40_taken hs openmp gpu model device params c s nst d n qs a q :
  app_main hs openmp gpu model device params = Ready c s nst d -> sized nst n a -> visits n qs -> (q < n)%nat ->
  taken nst (retrieve_data nst qs a) s (ap_m a) q.
Proof.
  intros HM SZ HV Hq. destruct (app_ready _ _ _ _ _ _ _ _ _ _ HM) as (_ & _ & _ & _ & AV & HN & _).
  exact (retrieve_taken nst n s ltac:(lia) AV qs a q SZ HV Hq).
Qed.
(** Reading the Voigt stress and writing it back restores it. *)
Theorem C40_stress_back hs openmp gpu model device params c s nst d n dt qs qs' a q :
  app_main hs openmp gpu model device params = Ready c s nst d -> sized nst n a -> visits n qs -> visits n qs' -> (q < n)%nat ->
  cauchy (retrieve_data nst qs' (setup_data nst dt qs a)) q = cauchy a q.
Proof.
  intros HM SZ HV HV' Hq. pose proof (setup_sized nst n dt qs a SZ) as SZ1.
  destruct (C40_given _ _ _ _ _ _ _ _ _ _ n dt qs a q HM SZ HV Hq) as (_ & _ & E1 & _).
  destruct (C40_taken _ _ _ _ _ _ _ _ _ _ n qs' _ q HM SZ1 HV' Hq) as (E2 & _). congruence.
Qed.
(** Any number of steps that succeed, with any solvers: they are as many successful library calls on all points, each
    continuing with energy, stress and history of the one before; the volume grows at the rate trace(L), the energy is the
    initial one plus the work of all calls. *)
Theorem C40_run hs openmp gpu model device params c s nst d solver lu dt n orders a a' :
  app_main hs openmp gpu model device params = Ready c s nst d ->
  (36 * (Z.of_nat n - 1) <= 2147483647)%Z -> sized nst n a -> orders_ok n orders ->
  app_run solver lu c s nst dt n orders a = (BRet Done, a') ->
  exists l, List.length l = List.length orders /\ run_of hs c s nst n dt a l a' /\ chain hs c [AE; AS] l /\ linked n (nst - 2) l /\
  forall q, (q < n)%nat ->
    volume nst a' q = volume nst a q * exp (INR (List.length orders) * dt * trace (velGrad a q)) /\
    energy nst a' q = energy nst a q + fold_right (fun b x => work b q + x) 0 l.
Proof. exact (main_run hs openmp gpu model device params c s nst d solver lu dt n orders a a'). Qed.
(** So a positive volume ratio stays positive. *)
Theorem C40_positive hs openmp gpu model device params c s nst d solver lu dt n orders a a' q :
  app_main hs openmp gpu model device params = Ready c s nst d ->
  (36 * (Z.of_nat n - 1) <= 2147483647)%Z -> sized nst n a -> orders_ok n orders ->
  app_run solver lu c s nst dt n orders a = (BRet Done, a') -> (q < n)%nat -> 0 < volume nst a q -> 0 < volume nst a' q.
Proof.
  intros HM HW SZ HO E Hq HP. destruct (C40_run _ _ _ _ _ _ _ _ _ _ solver lu dt n orders a a' HM HW SZ HO E) as (l & _ & _ & _ & _ & HQ).
  rewrite (proj1 (HQ q Hq)). apply Rmult_lt_0_compat; [exact HP|apply exp_pos].
Qed.

(** ** C48: state before the first step *)
(** Every history variable of every point has the library's initial value, the orientation is the one read for the point,
    volume 1, no energy, no stress.  Missing: the flow strength (entry 2), see below. *)
Theorem C48_start_partial hs openmp gpu model device params c s nst d n ori qs a :
  app_main hs openmp gpu model device params = Ready c s nst d -> sized nst n a -> visits n qs ->
  exists h a1, mm_getHistInfo c s = Some h /\ app_start c s ori n qs nst a = Some a1 /\ started nst n (map entry_init h) ori a1 /\
    forall q, (q < n)%nat -> stored nst a1 q 2 = stored nst a q 2.
Proof. exact (main_start hs openmp gpu model device params c s nst d n ori qs a). Qed.
(** The flow strength keeps whatever was in the allocated memory: here 17 instead of the library's 0. *)
Theorem C48_start_refuted : exists c s d h a a1, app_main echo true true "voce" "OpenMP" demo_pars = Ready c s 28 d /\
  sized 28 3 a /\ mm_getHistInfo c s = Some h /\ app_start c s (repeat 1 12) 3 (seq 0 3) 28 a = Some a1 /\
  stored 28 a1 1 2 <> nth 2 (map entry_init h) 0.
Proof.
  destruct (voce_ready echo true true "OpenMP" OPENMP eq_refl) as [s HM].
  destruct (C48_start_partial _ _ _ _ _ _ _ _ _ _ 3 (repeat 1 12) (seq 0 3) (fresh 3) HM (fresh_sized 3) (visits_seq 3)) as (h & a1 & E1 & E2 & _ & E4).
  exists (cls_FCC_A echo), s, OPENMP, h, (fresh 3), a1. refine (conj HM (conj (fresh_sized 3) (conj E1 (conj E2 _)))).
  rewrite (E4 1%nat) by lia.
  destruct (app_ready _ _ _ _ _ _ _ _ _ _ HM) as (HB & _ & HU & _).
  destruct (P_Api2.hist_in_use echo (cls_FCC_A echo) s demo_pars HB HU) as (nm & HI & _). rewrite HI in E1. apply some_inj in E1. subst h.
  cbn. lra.
Qed.
(** The built-in loading keeps the volume. *)
Theorem C40_volume hs openmp gpu model device params c s nst d solver lu dt n h ori orders a a' :
  app_main hs openmp gpu model device params = Ready c s nst d ->
  (36 * (Z.of_nat n - 1) <= 2147483647)%Z -> started nst n h ori a -> orders_ok n orders ->
  app_run solver lu c s nst dt n orders a = (BRet Done, a') ->
  forall q, (q < n)%nat -> volume nst a' q = 1.
Proof. exact (main_volume hs openmp gpu model device params c s nst d solver lu dt n h ori orders a a'). Qed.

(** ** C49: the printed stress is the mean over the points *)
Theorem C49_average n a : (0 < n)%nat ->
  scal3 (INR n) (sym6 (stress_avg n a)) =
  mk3 (sum n (fun q => a00 (cauchy a q))) (sum n (fun q => a01 (cauchy a q))) (sum n (fun q => a02 (cauchy a q)))
      (sum n (fun q => a10 (cauchy a q))) (sum n (fun q => a11 (cauchy a q))) (sum n (fun q => a12 (cauchy a q)))
      (sum n (fun q => a20 (cauchy a q))) (sum n (fun q => a21 (cauchy a q))) (sum n (fun q => a22 (cauchy a q))).
Proof. intros Hn. unfold sym6, scal3. cbn [a00 a01 a02 a10 a11 a12 a20 a21 a22]. f_equal; apply avg_mean; exact Hn. Qed.

(** ** Cases: five crystals on memory with left-over values, four steps, the points visited forwards and backwards *)
Example C40_case : let n := 5%nat in let orders := repeat (seq 0 n, rev (seq 0 n)) 4 in let ori := tab 20 (fun k => INR k) in
  exists s h a a', app_main echo true true "voce" "OpenMP" demo_pars = Ready demo_c s 28 OPENMP /\ mm_getHistInfo demo_c s = Some h /\
  app_start demo_c s ori n (rev (seq 0 n)) 28 (fresh n) = Some a /\ started 28 n (map entry_init h) ori a /\ orders_ok n orders /\
  app_run echo anyLU demo_c s 28 (/ 10) n orders a = (BRet Done, a').
Proof.
  intros n orders ori. destruct (voce_ready echo true true "OpenMP" OPENMP eq_refl) as [s HM].
  destruct (C48_start_partial _ _ _ _ _ _ _ _ _ _ n ori (rev (seq 0 n)) (fresh n) HM (fresh_sized n) (visits_rev n)) as (h & a & E1 & E2 & E3 & E4).
  assert (OK : orders_ok n orders).
  { intros o Ho. apply repeat_spec in Ho. subst o. split; [apply visits_seq|apply visits_rev]. }
  assert (HH : hard_ok n a).
  { intros q Hq. destruct E3 as [_ E3]. destruct (E3 q Hq) as (_ & _ & _ & _ & _ & X). rewrite X by lia.
    destruct (app_ready _ _ _ _ _ _ _ _ _ _ HM) as (HB & _ & HU & _).
    destruct (P_Api2.hist_in_use echo (cls_FCC_A echo) s demo_pars HB HU) as (nm & HI & _). rewrite HI in E1. apply some_inj in E1. subst h.
    cbn. lra. }
  destruct (run_total s OPENMP HM n (/ 10) ltac:(unfold n; lia) orders a (proj1 E3) OK HH) as [a' E].
  exists s, h, a, a'. exact (conj HM (conj E1 (conj E2 (conj E3 (conj OK E))))).
Qed.

(** ** C41: the requested device *)
(** The device named in the option file is the one chosen, and it is set on the model that runs if that is "voce" or if it
    is the CPU (which is the default).  Missing: "mts" on other devices, see below. *)
Theorem C41_device_partial hs openmp gpu model device params c s nst d :
  app_main hs openmp gpu model device params = Ready c s nst d ->
  names_device device d /\ (model = "voce"%string \/ d = CPU -> mm_accel s = d).
Proof.
  intros HM. destruct (main_device _ _ _ _ _ _ _ _ _ _ HM) as (H1 & H2 & H3 & H4). split; [exact H1|].
  intros [H|H]; [now apply H3|]. destruct H2 as [H2|H2]; [now apply H3|]. rewrite H. now apply H4.
Qed.
(** "mts" with OpenMP or GPU: the model that runs stays on the CPU (the device is set on the other model). *)
Theorem C41_device_refuted : exists params, forall hs gpu, exists c s,
  app_main hs true gpu "mts" "OpenMP" params = Ready c s 28 OPENMP /\ mm_accel s = CPU.
Proof.
  exists d3_pars. intros hs gpu. destruct (mts_ready hs true gpu "OpenMP" OPENMP eq_refl) as [s HM].
  exists (cls_FCC_B hs), s. split; [exact HM|]. destruct (main_device _ _ _ _ _ _ _ _ _ _ HM) as (_ & _ & _ & H). now apply H.
Qed.
Example C41_case : exists c s, app_main echo true true "voce" "GPU" demo_pars = Ready c s 28 GPU /\ mm_accel s = GPU.
Proof.
  destruct (voce_ready echo true true "GPU" GPU eq_refl) as [s HM]. exists (cls_FCC_A echo), s. split; [exact HM|].
  apply (C41_device_partial _ _ _ _ _ _ _ _ _ _ HM). now left.
Qed.

Print Assumptions C40_given.
Print Assumptions C40_taken.
Print Assumptions C40_stress_back.
Print Assumptions C40_run.
Print Assumptions C40_positive.
Print Assumptions C40_volume.
Print Assumptions C40_case.
Print Assumptions C41_device_partial.
Print Assumptions C41_device_refuted.
Print Assumptions C48_start_partial.
Print Assumptions C48_start_refuted.
Print Assumptions C49_average.
