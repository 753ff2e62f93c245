(** Property theorems about how accurately a call solves the equations of the step: C50. *)
From Coq Require Import List ZArith Bool Lia Reals Lra.
From Verif Require Import Num NumR Hard MatModel Cases P_Api P_Builtin SpecTensor SpecElast SpecSlip SpecApi SpecKin SpecKinApi SpecStress SpecStep SpecEnergy SpecSlow
  P_Call P_Demo P_Demo2 P_Demo3 P_Demo4 P_Step3 P_Rigid2 P_Slow P_Demo10.
Import ListNotations.
Local Open Scope R_scope.

(** ** C50. Accuracy relative to the applied deformation rate. *)
(** At deformation rates of at least 1e-8 of the reference rate, and strain increments of at least 1e-6, the equations hold
    within the tolerance times the deformation rate. *)
Theorem C50_relative hs c b i pars md sd law ref : good hs c b -> (i < b_n b)%nat -> in_use c (b_s b) pars ->
  systems hs c pars md sd -> slip_law hs c pars (tKel (b_s b) (b_m1 b) i) (strength (b_s b) (b_m1 b) i) law ref ->
  0 < vNew (b_s b) (b_m b) i -> accurate (b_solver b) -> 0 < b_dt b -> norm2 (quat (b_s b) (b_m b) i) <> 0 ->
  trace (devRate (b_s b) (b_m b) i) = 0 ->
  / 10 ^ 8 * ref <= norm3t (devRate (b_s b) (b_m b) i) -> 1 <= 10 ^ 6 * b_dt b * norm3t (devRate (b_s b) (b_m b) i) ->
  step_within c pars b i md sd law (nth 2 pars 0 * norm3t (devRate (b_s b) (b_m b) i)).
Proof.
  intros G Hi U HS HL Hv HA Hdt Hq HT H1 H2.
  pose proof (call_solves hs c b i pars G Hi U md sd law ref HS HL Hv HA Hdt Hq HT) as S.
  assert (E : rate_scale ref (b_dt b) (devRate (b_s b) (b_m b) i) = norm3t (devRate (b_s b) (b_m b) i)).
  { unfold rate_scale. destruct (Rlt_dec _ _) as [N|_]; [lra|]. apply Rmax_left.
    assert (P : 0 < 10 ^ 6 * b_dt b) by (apply Rmult_lt_0_compat; [cbn; lra|assumption]).
    apply Rmult_le_reg_l with (10 ^ 6 * b_dt b); [assumption|]. rewrite Rinv_r by lra. exact H2. }
  unfold step_solved in S. rewrite E in S. exact S.
Qed.
(** Below that, a stress-free crystal can be left as it is: with every solver that keeps a start whose residuals are within
    the tolerance the call succeeds, returns no elastic strain, no stress and no slip, and what it returns misses the
    equations by the whole deformation rate. *)
Theorem C50_slow hs c s pars bs lu n dt m md sd : builtin hs c -> in_use c s pars -> mm_complete s = true ->
  batch_ok c s false n m -> systems hs c pars md sd -> pos_def (p_hooke c pars) -> keeps_solution hs -> settles bs -> 0 < dt ->
  (forall i, (i < n)%nat -> slow hs c pars s m i) ->
  let b := call_of c s bs lu false n dt m in let m1 := b_m1 b in good hs c b /\ forall i, (i < n)%nat ->
    dev_strain s m1 i = Z3 /\ devStress s m1 i = Z3 /\ (forall k, (k < c_nslip c)%nat -> val s m1 AH i (14 + k) = 0) /\
    quat s m1 i = unit4 (quat s m i) /\
    forall law ref bound, slip_law hs c pars (tKel s m1 i) (strength s m1 i) law ref -> last_at_answer bs ->
      step_within c pars b i md sd law bound -> norm3t (devRate s m i) <= sqrt 5 * bound.
Proof.
  intros HB U HC HO HS HPD HK HF Hdt HR b m1.
  assert (G : good hs c b) by exact (slow_good hs c s pars HB U HC bs lu n dt m HO md sd HS HPD HK Hdt HR HF).
  split; [exact G|]. intros i Hi.
  destruct (slow_state hs c b i pars G Hi U md sd HS HK Hdt (HR i Hi) HF) as (_ & A & B & _ & _ & C).
  split; [|split; [|split; [exact B|split; [exact C|]]]].
  - unfold dev_strain. cbn [map]. fold m1 in A. change (b_s b) with s in A. rewrite !A by lia. apply P_Rigid.ten5_0.
  - exact (slow_zero_stress hs c b i pars G Hi U md sd HS HK Hdt (HR i Hi) HF).
  - intros law ref bound HL HM. exact (slow_gap hs c b i pars G Hi U md sd HS HK Hdt (HR i Hi) HF law ref bound HL (or_intror HM)).
Qed.
(** So the tolerance does not bound the error relative to the applied rate. *)
Theorem C50_relative_refuted : exists hs c b i pars md sd law ref, good hs c b /\ (i < b_n b)%nat /\ in_use c (b_s b) pars /\
  systems hs c pars md sd /\ slip_law hs c pars (tKel (b_s b) (b_m1 b) i) (strength (b_s b) (b_m1 b) i) law ref /\
  0 < vNew (b_s b) (b_m b) i /\ accurate (b_solver b) /\ last_at_answer (b_solver b) /\ 0 < b_dt b /\
  norm2 (quat (b_s b) (b_m b) i) <> 0 /\ trace (devRate (b_s b) (b_m b) i) = 0 /\
  0 < norm3t (devRate (b_s b) (b_m b) i) /\ nth 2 pars 0 = / 100 /\
  ~ step_within c pars b i md sd law (nth 2 pars 0 * norm3t (devRate (b_s b) (b_m b) i)).
Proof.
  destruct (d4_systems checked) as (md & sd & HS).
  exists checked, (d2_c checked), d10_call, 0%nat, demo_pars, md, sd.
  pose proof (d10_slow checked) as SL. pose proof SL as (A & B & C & D & E & F & HU & W & _).
  do 2 eexists. pose proof (law_V checked (d2_c checked) demo_pars (tKel (b_s d10_call) (b_m1 d10_call) 0) (strength (b_s d10_call) (b_m1 d10_call) 0) (or_introl eq_refl) ltac:(cbn; lra)) as HL.
  split; [exact d10_good|]. split; [exact (le_n 1)|]. split; [exact (d2_in_use checked)|]. split; [exact HS|]. split; [exact HL|].
  split; [exact D|]. split; [exact checked_accurate|]. split; [exact checked_last|]. split; [cbn; lra|]. split; [exact E|]. split; [exact A|].
  split; [exact (proj2 (d10_norm checked))|]. split; [reflexivity|]. intros SW.
  assert (Hdt : 0 < b_dt d10_call) by (cbn; lra).
  pose proof (slow_gap checked (d2_c checked) d10_call 0 demo_pars d10_good (le_n 1) (d2_in_use checked) md sd HS checked_keeps Hdt SL checked_settles _ _ _ HL (or_intror checked_last) SW) as X.
  pose proof (proj2 (d10_norm checked)) as P. change (devRate (b_s d10_call) (b_m d10_call) 0) with (devRate (d2_s checked) d10_m 0) in X.
  set (N := norm3t (devRate (d2_s checked) d10_m 0)) in *. change (nth 2 demo_pars 0) with (/ 100) in X. clearbody N. clear - X P.
  assert (S5 : sqrt 5 <= 3). { rewrite <- (sqrt_square 3) by lra. apply sqrt_le_1_alt. lra. }
  assert (0 <= sqrt 5) by apply sqrt_pos. nra.
Qed.
(** an FCC crystal deformed at 1e-9 of the reference rate *)
Example C50_case : let c := d2_c checked in let s := d2_s checked in
  builtin checked c /\ in_use c s demo_pars /\ mm_complete s = true /\ batch_ok c s false 1 d10_m /\ (exists md sd, systems checked c demo_pars md sd) /\
  pos_def (p_hooke c demo_pars) /\ keeps_solution checked /\ settles checked /\ slow checked c demo_pars s d10_m 0 /\ last_at_answer checked.
Proof.
  intros c s. exact (conj (d2_builtin _) (conj (d2_in_use _) (conj (d2_complete _) (conj (d10_batch _) (conj (d4_systems _) (conj (d4_pd _) (conj checked_keeps
    (conj checked_settles (conj (d10_slow _) checked_last))))))))).
Qed.

Print Assumptions C50_relative.
Print Assumptions C50_slow.
Print Assumptions C50_relative_refuted.
