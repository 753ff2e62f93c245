(** Property theorems C67: what a call that throws leaves behind.  Except for the counterexamples they hold in any arithmetic
    [N : Num T], so in particular bit for bit for doubles. *)
From Coq Require Import List ZArith Bool Lia Reals Lra.
From Verif Require Import Num NumR Util Hard Evptn MatModel Cases SpecTensor P_Batch3 P_Builtin SpecApi SpecBatch P_Batch P_Batch4 P_Hist P_Demo P_Demo2 P_Demo4 SpecState P_State2 P_Fail P_Demo25 P_Demo26.
Import ListNotations.
Local Open Scope nat_scope.

(** ** C67: with parameters with which some call has ever succeeded ([proven]), a call that fails at point k has given the points
    before k their results, and has changed nothing of point k but the temperature, and nothing at all of the points after k *)
Theorem C67_state {T} {N : Num T} (c : MClass T) pars solver lu dt mtan s n m m1 o : in_use c s pars -> proven c pars -> mm_complete s = true -> batch_ok c s mtan n m ->
  mm_getResponse solver lu c s dt mtan (Z.of_nat n) m = (BRet o, m1) -> o <> Done -> exists k, k < n /\
  (exists mk, alone solver lu c s dt mtan m k = (BRet o, mk)) /\
  (forall i, i < k -> exists mi, alone solver lu c s dt mtan m i = (BRet Done, mi) /\ forall a, mi a = point c s mtan m1 i a) /\
  (forall i, k <= i < n -> forall a j, (i = k -> a <> AT) -> j < per_point (c_nH c) (c_nslip c) mtan a -> entry s m1 a i j = entry s m a i j).
Proof. intros U PR EC B. exact (failed_state c pars solver lu dt mtan s n m U PR EC B m1 o). Qed.
Print Assumptions C67_state.
(** with threads, whatever the interleaving: when all have stopped every point has its results or, if it failed, its state *)
Theorem C67_threads {T} {N : Num T} (c : MClass T) pars solver lu dt mtan s n m ts ps m2 : in_use c s pars -> proven c pars -> mm_complete s = true -> batch_ok c s mtan n m ->
  mm_tasks solver lu c s dt mtan (Z.of_nat n) = Some ts -> psteps (ts, m) (ps, m2) -> ended ps ->
  forall i, i < n -> exists o mi, alone solver lu c s dt mtan m i = (BRet o, mi) /\ (forall a, point c s mtan m2 i a = mi a) /\
    (o <> Done -> forall a j, a <> AT -> j < per_point (c_nH c) (c_nslip c) mtan a -> entry s m2 a i j = entry s m a i j).
Proof. intros U PR EC B. exact (failed_threads c pars solver lu dt mtan s n m U PR EC B ts ps m2). Qed.
Print Assumptions C67_threads.
(** hence the points from k on can be continued from what the failed call left (with smaller steps, other solvers, in other batches):
    the results are those of a calculation that never made the failed call *)
Theorem C67_retry {T} {N : Num T} (c : MClass T) pars solver lu dt mtan s n (m m1 : Mem T) o : in_use c s pars -> proven c pars -> mm_complete s = true -> batch_ok c s mtan n m ->
  mm_getResponse solver lu c s dt mtan (Z.of_nat n) m = (BRet o, m1) -> o <> Done ->
  exists k, k < n /\ (forall i, i < k -> exists mi, alone solver lu c s dt mtan m i = (BRet Done, mi)) /\
  forall i, k <= i < n -> forall solver' lu' l l', journey c pars solver' lu' l -> journey c pars solver' lu' l' -> Forall2 (same_drive c) l l' ->
    (forall v r, l = v :: r -> same_state c s m i (v_s v) (v_m v) (v_i v)) -> (forall v r, l' = v :: r -> same_state c s m1 i (v_s v) (v_m v) (v_i v)) ->
    Forall2 (same_result c) l l'.
Proof. exact (retry c pars solver lu dt mtan s n m m1 o). Qed.
Print Assumptions C67_retry.

(** a failed call is not without effect: the points before the failing one have made the step, so the batch as a whole must not be
    repeated.  Here the second point fails, and the orientation of the first has changed *)
Theorem C67_atomic_refuted : exists (c : MClass R) s pars m m1 solver lu dt, in_use c s pars /\ proven c pars /\ mm_complete s = true /\ batch_ok c s false 2 m /\
  mm_getResponse solver lu c s dt false (Z.of_nat 2) m = (BRet Failed, m1) /\ norm2 (quat s m 0) = 5%R /\ norm2 (quat s m1 0) = 1%R.
Proof.
  destruct fl_result as (m1 & E & Q). exists fl_c, fl_s, demo_pars, fl_m, m1, echo, noLU, (/ 10)%R.
  refine (conj (d2_in_use checked) (conj fl_proven (conj (d2_complete checked) (conj (fl_batch fl_m fl_m_len) (conj E (conj _ Q)))))).
  unfold quat, val, fl_s. rewrite d2_strides. unfold SpecTensor.norm2. cbn. lra.
Qed.
Print Assumptions C67_atomic_refuted.
(** without [proven]: a model with a negative shear modulus is accepted; its calls fail after stress and history have been stored and
    before the energy is, so the point is left half updated *)
Theorem C67_late_refuted : exists (c : MClass R) s pars m m1 solver lu dt, builtin solver c /\ in_use c s pars /\ mm_complete s = true /\ batch_ok c s false 1 m /\
  mm_getResponse solver lu c s dt false (Z.of_nat 1) m = (BRet Failed, m1) /\ eInt s m1 0 = eInt s m 0 /\ norm2 (quat s m 0) = 5%R /\ norm2 (quat s m1 0) = 1%R.
Proof.
  destruct lt_fails as (m1 & E & Q). exists demo_c, lt_s, lt_pars, lt_m, m1, echo, noLU, (/ 10)%R.
  exact (conj demo_builtin (conj lt_in_use (conj lt_complete (conj lt_batch (conj E Q))))).
Qed.
Print Assumptions C67_late_refuted.

(** the hypotheses are met: the call of C67_atomic_refuted *)
Example C67_case : in_use fl_c fl_s demo_pars /\ proven fl_c demo_pars /\ mm_complete fl_s = true /\ batch_ok fl_c fl_s false 2 fl_m /\
  exists m1, mm_getResponse echo noLU fl_c fl_s (/ 10)%R false (Z.of_nat 2) fl_m = (BRet Failed, m1).
Proof.
  destruct fl_result as (m1 & E & _). exact (conj (d2_in_use checked) (conj fl_proven (conj (d2_complete checked) (conj (fl_batch fl_m fl_m_len) (ex_intro _ m1 E))))).
Qed.
