(** Property theorems C26 - C29: batches of points.  Except for the counterexample C29_refuted they hold in any arithmetic
    [N : Num T], so in particular bit for bit for doubles, whatever exp, pow etc. return, with infinities and NaN. *)
From Coq Require Import List ZArith Bool Lia Reals Lra.
From Verif Require Import Num NumR Util SlipGeom Hard Evptn MatModel Cases P_Batch P_Batch3 P_Api P_Builtin SpecApi P_Hist P_Demo SpecBatch P_Batch4 P_Batch5.
Import ListNotations.
Local Open Scope nat_scope.

(** ** C26: every point of a successful batch is what the call with that point alone gives *)
Theorem C26_alone {T} {N : Num T} (c : MClass T) s solver lu dt mtan n m m1 : reachable c s -> batch_ok c s mtan n m ->
  mm_getResponse solver lu c s dt mtan (Z.of_nat n) m = (BRet Done, m1) -> forall i, i < n ->
  exists mi, alone solver lu c s dt mtan m i = (BRet Done, mi) /\ forall a, mi a = point c s mtan m1 i a.
Proof. exact (alone_done c mtan solver lu dt s n m m1). Qed.
(** the batch succeeds exactly when every point alone succeeds *)
Theorem C26_success {T} {N : Num T} (c : MClass T) s solver lu dt mtan n m : reachable c s -> batch_ok c s mtan n m -> mm_complete s = true ->
  (exists m1, mm_getResponse solver lu c s dt mtan (Z.of_nat n) m = (BRet Done, m1)) <->
  (forall i, i < n -> exists mi, alone solver lu c s dt mtan m i = (BRet Done, mi)).
Proof. exact (alone_all c mtan solver lu dt s n m). Qed.
(** when it fails: the points before the first failing one are as if alone, that one is as if alone, the
    later ones are as they were *)
Theorem C26_failure {T} {N : Num T} (c : MClass T) s solver lu dt mtan n m m1 o : reachable c s -> batch_ok c s mtan n m -> mm_complete s = true ->
  mm_getResponse solver lu c s dt mtan (Z.of_nat n) m = (BRet o, m1) -> o <> Done ->
  exists k, k < n /\
    (exists mk, alone solver lu c s dt mtan m k = (BRet o, mk) /\ forall a, mk a = point c s mtan m1 k a) /\
    (forall i, i < k -> exists mi, alone solver lu c s dt mtan m i = (BRet Done, mi) /\ forall a, mi a = point c s mtan m1 i a) /\
    (forall i, k < i < n -> forall a, point c s mtan m1 i a = point c s mtan m i a).
Proof. exact (alone_failed c mtan solver lu dt s n m m1 o). Qed.
(** same parameters, same values at a point: same results, whatever the strides, the number of points, the
    position of the point and the other points are *)
Theorem C26_local {T} {N : Num T} (c : MClass T) s s' pars solver lu dt mtan n n' m m' m1 m1' i i' :
  in_use c s pars -> in_use c s' pars ->
  batch_ok c s mtan n m -> batch_ok c s' mtan n' m' ->
  mm_getResponse solver lu c s dt mtan (Z.of_nat n) m = (BRet Done, m1) ->
  mm_getResponse solver lu c s' dt mtan (Z.of_nat n') m' = (BRet Done, m1') ->
  i < n -> i' < n' -> (forall a, point c s mtan m i a = point c s' mtan m' i' a) ->
  forall a, point c s mtan m1 i a = point c s' mtan m1' i' a.
Proof. exact (point_local c mtan solver lu dt s s' pars n n' m m' m1 m1' i i'). Qed.

(** ** C27: any interleaving of single loads and stores of the per-point tasks *)
(** that runs to the end leaves the memory of the sequential loop *)
Theorem C27_same_memory {T} {N : Num T} (c : MClass T) s solver lu dt mtan n m m1 ts ps m2 : reachable c s -> batch_ok c s mtan n m ->
  mm_getResponse solver lu c s dt mtan (Z.of_nat n) m = (BRet Done, m1) ->
  mm_tasks solver lu c s dt mtan (Z.of_nat n) = Some ts -> psteps (ts, m) (ps, m2) -> ended ps ->
  (forall p, In p ps -> p = Ret (BRet Done)) /\ forall a, m2 a = m1 a.
Proof. exact (threads_done c mtan solver lu dt s n m m1 ts ps m2). Qed.
(** at any moment of any interleaving, whether or not points fail: what a task still does gives its point the
    outcome and values of the call with that point alone *)
Theorem C27_each_task {T} {N : Num T} (c : MClass T) s solver lu dt mtan n m ts ps m2 : reachable c s -> batch_ok c s mtan n m ->
  mm_tasks solver lu c s dt mtan (Z.of_nat n) = Some ts -> psteps (ts, m) (ps, m2) ->
  List.length ps = n /\
  forall i p, nth_error ps i = Some p -> exists o mi,
    alone solver lu c s dt mtan m i = (BRet o, mi) /\ fst (exec p m2) = BRet o /\
    forall a, point c s mtan (snd (exec p m2)) i a = mi a.
Proof.
  intros HR HB HT HP. destruct (threads_inv c mtan solver lu dt s n m ts ps m2 HR HB HT HP) as (L & _ & H).
  split; [exact L|]. intros i p Hi. exact (proj2 (H i p Hi)).
Qed.
(** no interleaving gets stuck or runs for ever *)
Theorem C27_terminates {T} (ps : list (prog T)) m : Acc (fun y x => pstep x y) (ps, m).
Proof. exact (acc_pstep ps m). Qed.
Theorem C27_progress {T} (ps : list (prog T)) m : ended ps \/ exists s', pstep (ps, m) s'.
Proof. exact (progress ps m). Qed.
(** the same for any tasks that touch only their own cells (and read the inputs), whatever the order of their
    loads and stores: independence of how getResponseSngl orders its accesses *)
Theorem C27_any_tasks {T} {N : Num T} (own : nat -> arr -> nat -> Prop) (body : nat -> prog T) (n : nat) m m1 ps m2 :
  (forall k a j, own k a j -> ~ In a [AD; AW; AV]) ->
  (forall k l a j, k <> l -> own k a j -> own l a j -> False) ->
  (forall k a j, own k a j \/ ~ own k a j) ->
  (forall k, k < n -> confined (own k) (body k)) ->
  runSeq body (seq 0 n) m = (BRet Done, m1) ->
  psteps (map body (seq 0 n), m) (ps, m2) -> ended ps ->
  (forall p, In p ps -> p = Ret (BRet Done)) /\ forall a, m2 a = m1 a.
Proof.
  intros HW HD HDec HC. apply (interleaving_unique own).
  - intros k a j Ho Hr. apply (HW k a j Ho). unfold ro in Hr. cbn. intuition.
  - exact HD.
  - exact HDec.
  - intros k p Hk. rewrite nth_error_map in Hk.
    destruct (nth_error (seq 0 n) k) as [i|] eqn:E; [|discriminate]. cbn in Hk. injection Hk as <-.
    assert (Hl : k < List.length (seq 0 n)) by (apply nth_error_Some; congruence).
    rewrite seq_length in Hl. rewrite (nth_error_nth' _ 0) in E by (rewrite seq_length; assumption).
    rewrite seq_nth in E by assumption. injection E as <-. now apply HC.
Qed.

(** ** C28: in bounds, and nothing else is touched *)
Theorem C28_in_bounds {T} {N : Num T} (c : MClass T) s pars solver lu dt mtan n m : in_use c s pars -> batch_ok c s mtan n m ->
  fst (mm_getResponse solver lu c s dt mtan (Z.of_nat n) m) <> BUndef.
Proof.
  intros HU B. destruct (in_use_ok c s pars HU) as (HR & mat & tol & HM).
  destruct (mm_complete s) eqn:EC; [|unfold mm_getResponse; rewrite EC; discriminate].
  destruct (api_batch c s solver lu dt mtan n m _ _ HR EC HM B) as (o & m1 & -> & _). discriminate.
Qed.
Theorem C28_in_bounds_parallel {T} {N : Num T} (c : MClass T) s solver lu dt mtan n m ts ps m2 : reachable c s -> batch_ok c s mtan n m ->
  mm_tasks solver lu c s dt mtan (Z.of_nat n) = Some ts -> psteps (ts, m) (ps, m2) -> ~ In (Ret BUndef) ps.
Proof.
  intros HR HB HT HP Hin. destruct (threads_inv c mtan solver lu dt s n m ts ps m2 HR HB HT HP) as (_ & _ & H).
  apply In_nth_error in Hin. destruct Hin as [i Hi]. destruct (H i _ Hi) as (_ & o & mi & _ & E & _). discriminate.
Qed.
Theorem C28_frame {T} {N : Num T} (c : MClass T) s solver lu dt mtan n m m1 o : reachable c s -> batch_ok c s mtan n m ->
  mm_getResponse solver lu c s dt mtan (Z.of_nat n) m = (o, m1) ->
  (forall a, List.length (m1 a) = List.length (m a)) /\
  (forall a j, ~ output_cell c s mtan n a j -> nth_error (m1 a) j = nth_error (m a) j) /\
  (forall a, In a [AD; AW; AV] -> m1 a = m a) /\ (mtan = false -> m1 AM = m AM).
Proof.
  intros HR HB H.
  assert (E : (exists mat tol, mm_ready s = Some (mat, tol) /\ mm_complete s = true) \/ m1 = m).
  { unfold mm_getResponse in H. destruct (mm_complete s); [|right; apply (f_equal snd) in H; symmetry; exact H].
    destruct (mm_ready s) as [[mat tol]|]; [left; eauto|]. right.
    cbn [negb] in H. destruct (seq 0 (Z.to_nat (Z.of_nat n))); apply (f_equal snd) in H; symmetry; exact H. }
  destruct E as [(mat & tol & HM & EC) | ->]; [|auto].
  destruct (api_batch c s solver lu dt mtan n m mat tol HR EC HM HB) as (o' & m1' & E & U & _).
  rewrite H in E. assert (m1' = m1) by congruence. subst.
  exact (untouched_frame c mtan s n m m1 (proj1 HB) U).
Qed.
Theorem C28_frame_parallel {T} {N : Num T} (c : MClass T) s solver lu dt mtan n m ts ps m2 : reachable c s -> batch_ok c s mtan n m ->
  mm_tasks solver lu c s dt mtan (Z.of_nat n) = Some ts -> psteps (ts, m) (ps, m2) ->
  (forall a, List.length (m2 a) = List.length (m a)) /\
  (forall a j, ~ output_cell c s mtan n a j -> nth_error (m2 a) j = nth_error (m a) j) /\
  (forall a, In a [AD; AW; AV] -> m2 a = m a) /\ (mtan = false -> m2 AM = m AM).
Proof.
  intros HR HB HT HP. destruct (threads_inv c mtan solver lu dt s n m ts ps m2 HR HB HT HP) as (_ & U & _).
  exact (untouched_frame c mtan s n m m2 (proj1 HB) U).
Qed.

(** ** C29: the claim is false: 32-bit offsets wrap *)
(** with an accepted stride and three points, no output depends on the deformation rate of the last point *)
Theorem C29_refuted : exists (c : MClass R) s pars hs, builtin hs c /\ in_use c s pars /\ mm_complete s = true /\
  forall solver lu dt (m m' : Mem R),
    (forall a, List.length (m a) = List.length (m' a)) ->
    (forall a j, (a = AD -> j < stride_of (mm_strides s) AD * 2) -> nth_error (m a) j = nth_error (m' a) j) ->
    let r := mm_getResponse solver lu c s dt false 3 m in
    let r' := mm_getResponse solver lu c s dt false 3 m' in
    fst r = fst r' /\ forall a, a <> AD -> snd r a = snd r' a.
Proof.
  exists demo_c, far_s, demo_pars, echo. split; [exact demo_builtin|]. split; [exact far_in_use|]. split; [exact far_complete|].
  rewrite far_st. exact far_blind.
Qed.
(** with a tangent buffer no batch of more than 59652324 points returns normally (signed overflow) *)
Theorem C29_tangent_refuted {T} {N : Num T} (c : MClass T) s solver lu dt n m m1 : (59652324 < n)%Z ->
  mm_getResponse solver lu c s dt true n m <> (BRet Done, m1).
Proof. exact (tangent_limit c s solver lu dt n m m1). Qed.
(** the exact range in which the offsets are stride * i *)
Theorem C29_range (st : list nat) (mtan : bool) (n : nat) : 0 < n ->
  ((forall a i, a <> AM -> i < n -> addr (stride_of st a) i = stride_of st a * i) /\
   (mtan = true -> forall i, i < n -> mtan_addr i = Some (36 * i))) <->
  ((forall a, a <> AM -> (Z.of_nat (stride_of st a) * (Z.of_nat n - 1) < 2 ^ 32)%Z) /\
   (mtan = true -> (36 * (Z.of_nat n - 1) <= 2147483647)%Z)).
Proof. intros Hn. exact (iff_sym (no_wrap_iff st mtan n Hn)). Qed.

(** ** the hypotheses are met *)
Example C26_case : exists m1, reachable demo_c demo_s /\ in_use demo_c demo_s demo_pars /\ builtin echo demo_c /\
  batch_ok demo_c demo_s false 2 demo_m /\ mm_complete demo_s = true /\
  mm_getResponse echo noLU demo_c demo_s 1%R false (Z.of_nat 2) demo_m = (BRet Done, m1) /\
  mm_tasks echo noLU demo_c demo_s 1%R false (Z.of_nat 2) = Some demo_tasks /\
  psteps (demo_tasks, demo_m) ([Ret (BRet Done); Ret (BRet Done)], m1) /\ @ended R [Ret (BRet Done); Ret (BRet Done)].
Proof.
  destruct demo_run as (m1 & E & P). exists m1.
  refine (conj demo_reach (conj demo_in_use (conj demo_builtin (conj _ (conj demo_complete (conj E (conj demo_tasks_ok (conj P _)))))))).
  - apply demo_batch. reflexivity.
  - intros p [<-|[<-|[]]]; eauto.
Qed.
(** a cell that is not an output cell of a two-point batch with padded strides, and one that is *)
Example C28_case : ~ output_cell demo_c demo_s false 2 AS 14 /\ output_cell demo_c demo_s false 2 AS 13.
Proof.
  unfold output_cell. rewrite demo_strides. split.
  - intros [_ (i & k & Hi & Hk & E)]. cbn in Hk, E. lia.
  - split; [cbn; tauto|]. exists 1, 6. cbn. lia.
Qed.

Print Assumptions C26_alone.
Print Assumptions C26_success.
Print Assumptions C26_failure.
Print Assumptions C26_local.
Print Assumptions C27_same_memory.
Print Assumptions C27_each_task.
Print Assumptions C27_terminates.
Print Assumptions C27_progress.
Print Assumptions C27_any_tasks.
Print Assumptions C28_in_bounds.
Print Assumptions C28_in_bounds_parallel.
Print Assumptions C28_frame.
Print Assumptions C28_frame_parallel.
Print Assumptions C29_refuted.
Print Assumptions C29_tangent_refuted.
Print Assumptions C29_range.
