(** Batch calls against single-point calls, interleavings of a call's tasks, address ranges: proofs for C26 - C29. *)
From Coq Require Import List ZArith Bool Lia PeanoNat Reals Lra String.
From Verif Require Import Num Arr NumR Util SlipGeom Eos Hard Elast Evptn MatModel Cases
  P_Sngl P_Sngl2 P_Batch P_Batch2 P_Batch3 P_Api P_Builtin SpecApi P_Hist SpecBatch.
Import ListNotations.
Local Open Scope nat_scope.

Lemma lext {A} (l l' : list A) : (forall j, nth_error l j = nth_error l' j) -> l = l'.
Proof. apply list_nth_error_ext. Qed.

Section B.
  Context {T : Type} {N : Num T}.
  Variables (c : MClass T) (mtan : bool).
  Notation pp := (per_point (c_nH c) (c_nslip c) mtan).

  Lemma cell_len s n m a i : batch_ok c s mtan n m -> i < n -> List.length (cell_of c s mtan m a i) = pp a.
  Proof.
    intros [HW HB] Hi. unfold cell_of, cell. rewrite width_eq.
    destruct (Nat.eq_dec (pp a) 0) as [E|E]; [rewrite E; reflexivity|].
    apply sub_length. rewrite (offs_eq (mm_strides s) mtan n HW) by assumption. apply HB; [assumption|lia].
  Qed.
  Lemma point_len s m a i : List.length (point c s mtan m i a) = pp a.
  Proof. unfold point. now rewrite map_length, seq_length. Qed.

  Lemma point_cell s n m a i : batch_ok c s mtan n m -> i < n -> point c s mtan m i a = cell_of c s mtan m a i.
  Proof.
    intros HB Hi. apply list_get_ext.
    - now rewrite point_len, (cell_len s n m a i HB Hi).
    - intros k Hk. rewrite point_len in Hk. destruct HB as [HW _].
      unfold cell_of, cell. rewrite get_sub by (rewrite width_eq; exact Hk).
      rewrite (offs_eq (mm_strides s) mtan n HW) by assumption.
      unfold point. refine (get_tab _ _ _ Hk).
  Qed.

  Lemma batch_one s m : (forall a, List.length (m a) = pp a) -> batch_ok c s mtan 1 m.
  Proof.
    intros H. split.
    - split; [intros a _|intros _]; lia.
    - intros a i Hi _. rewrite H. assert (i = 0) by lia. subst. lia.
  Qed.
  Lemma cell_whole s m a : (forall b, List.length (m b) = pp b) -> cell_of c s mtan m a 0 = m a.
  Proof.
    intros H. rewrite <- (point_cell s 1 m a 0 (batch_one s m H)) by lia.
    apply list_get_ext; [rewrite point_len; now rewrite H|].
    intros k Hk. rewrite point_len in Hk. unfold point.
    refine (eq_trans (get_tab _ _ _ Hk) _). unfold get. f_equal. lia.
  Qed.

  (** the writable cells of a point are determined by its [Pt] *)
  Lemma pt_cells s s' n n' m m' i i' : batch_ok c s mtan n m -> batch_ok c s' mtan n' m' -> i < n -> i' < n' ->
    pt_of c s mtan m i = pt_of c s' mtan m' i' -> forall a, ~ ro a -> cell_of c s mtan m a i = cell_of c s' mtan m' a i'.
  Proof.
    intros B B' Hi Hi' E a Ha.
    unfold pt_of, pt_at in E.
    change (cell (mm_strides s) (c_nH c) (c_nslip c) mtan) with (cell_of c s mtan) in E.
    change (cell (mm_strides s') (c_nH c) (c_nslip c) mtan) with (cell_of c s' mtan) in E.
    destruct a; try (exfalso; apply Ha; unfold ro; tauto).
    - exact (f_equal pt_eInt E).
    - exact (f_equal pt_stress E).
    - exact (f_equal pt_hist E).
    - apply (f_equal pt_tkelv) in E. cbn [pt_tkelv] in E.
      pose proof (cell_len s n m AT i B Hi) as L. pose proof (cell_len s' n' m' AT i' B' Hi') as L'.
      cbn [per_point] in L, L'.
      destruct (cell_of c s mtan m AT i) as [|x [|]]; try discriminate L.
      destruct (cell_of c s' mtan m' AT i') as [|y [|]]; try discriminate L'.
      cbn in E. now rewrite E.
    - exact (f_equal pt_sdd E).
    - apply (f_equal pt_mtan) in E. cbn [pt_mtan] in E.
      pose proof (cell_len s n m AM i B Hi) as L. pose proof (cell_len s' n' m' AM i' B' Hi') as L'. clear B B'.
      destruct mtan.
      + congruence.
      + cbn [per_point] in L, L'. apply length_zero_iff_nil in L. apply length_zero_iff_nil in L'. congruence.
  Qed.

  Lemma ro_not_own st n (m m1 : Mem T) a : ro a -> untouched st (c_nH c) (c_nslip c) mtan n m m1 -> m1 a = m a.
  Proof.
    intros Ha [_ U]. apply lext. intros j. apply U. intros i Hi [_ [H _]]. contradiction.
  Qed.

  Section One.
    Variables (solver : Solver T) (lu : LUSolver T) (dt : T).
    Notation call s := (mm_getResponse solver lu c s dt mtan).
    Notation one s m i mat tol := (getResponseSngl solver lu mat dt tol (cell_of c s mtan m AD i) (cell_of c s mtan m AW i)
                  (cell_of c s mtan m AV i) (pt_of c s mtan m i)).

    Lemma batch_after s n (m m1 : Mem T) : untouched (mm_strides s) (c_nH c) (c_nslip c) mtan n m m1 -> batch_ok c s mtan n m -> batch_ok c s mtan n m1.
    Proof. intros [U _] [HW HB]. split; [assumption|]. intros a i Hi Hp. rewrite U. now apply HB. Qed.

    Lemma pt_of_point s n m i : batch_ok c s mtan n m -> i < n ->
      pt_of c s mtan (point c s mtan m i) 0 = pt_of c s mtan m i /\
      forall a, cell_of c s mtan (point c s mtan m i) a 0 = cell_of c s mtan m a i.
    Proof.
      intros B Hi.
      assert (E : forall a, cell_of c s mtan (point c s mtan m i) a 0 = cell_of c s mtan m a i).
      { intros a. rewrite cell_whole by (intros b; apply point_len). now apply (point_cell s n). }
      split; [|exact E]. unfold pt_of, pt_at. fold (cell_of c s mtan (point c s mtan m i)).
      change (cell (mm_strides s) (c_nH c) (c_nslip c) mtan) with (cell_of c s mtan).
      now rewrite !E.
    Qed.

    (** the call with a point alone *)
    Lemma alone_spec s n m i mat tol : reachable c s -> mm_complete s = true -> mm_ready s = Some (mat, tol) ->
      batch_ok c s mtan n m -> i < n ->
      exists mi, alone solver lu c s dt mtan m i = (BRet (fst (one s m i mat tol)), mi) /\
        (forall a, List.length (mi a) = pp a) /\ pt_of c s mtan mi 0 = snd (one s m i mat tol) /\
        forall a, ro a -> mi a = cell_of c s mtan m a i.
    Proof.
      intros HR HC HM HB Hi. unfold alone. change 1%Z with (Z.of_nat 1).
      pose proof (batch_one s (point c s mtan m i) (fun a => point_len s m a i)) as B1.
      destruct (api_batch c s solver lu dt mtan 1 (point c s mtan m i) mat tol HR HC HM B1) as (o & mi & E & U & P).
      cbv zeta in P. destruct (pt_of_point s n m i HB Hi) as [E1 E2]. 
      assert (G : one s m i mat tol = (o, pt_of c s mtan mi 0)).
      { rewrite <- E1, <- !E2. destruct o.
        - apply P. lia.
        - destruct P as (k & Hk & P & _). assert (k = 0) by lia. subst. exact P.
        - destruct P as (k & Hk & P & _). assert (k = 0) by lia. subst. exact P. }
      exists mi. rewrite G. cbn [fst snd]. split; [exact E|]. split.
      - intros a. destruct U as [U _]. rewrite U. apply point_len.
      - split; [reflexivity|]. intros a Ha. rewrite (ro_not_own _ _ _ _ a Ha U). now apply (point_cell s n).
    Qed.

    Lemma same_point s n m m1 i mi mat tol : batch_ok c s mtan n m -> i < n ->
      untouched (mm_strides s) (c_nH c) (c_nslip c) mtan n m m1 ->
      pt_of c s mtan m1 i = snd (one s m i mat tol) ->
      (forall a, List.length (mi a) = pp a) -> pt_of c s mtan mi 0 = snd (one s m i mat tol) ->
      (forall a, ro a -> mi a = cell_of c s mtan m a i) ->
      forall a, mi a = point c s mtan m1 i a.
    Proof.
      intros B Hi U E1 L E2 Hro a.
      pose proof (batch_after s n m m1 U B) as B1.
      rewrite (point_cell s n m1 a i B1 Hi).
      assert (D : ro a \/ ~ ro a).
      { unfold ro. destruct a; try (left; tauto); right; intros [|[|]]; discriminate. }
      destruct D as [Ha|Ha].
      - rewrite (Hro a Ha). unfold cell_of, cell. now rewrite (ro_not_own _ _ _ _ a Ha U).
      - rewrite <- (cell_whole s mi a L). apply (pt_cells s s 1 n); try assumption; try lia.
        + now apply batch_one.
        + congruence.
    Qed.

    Theorem alone_done s n m m1 : reachable c s -> batch_ok c s mtan n m ->
      call s (Z.of_nat n) m = (BRet Done, m1) -> forall i, i < n ->
      exists mi, alone solver lu c s dt mtan m i = (BRet Done, mi) /\ forall a, mi a = point c s mtan m1 i a.
    Proof.
      intros HR HB H i Hi.
      destruct (mm_complete s) eqn:EC; [|unfold mm_getResponse in H; rewrite EC in H; discriminate].
      destruct (mm_ready s) as [[mat tol]|] eqn:EM.
      2:{ unfold mm_getResponse in H. rewrite EC, EM, Nat2Z.id in H. destruct n; [lia|discriminate]. }
      destruct (api_batch c s solver lu dt mtan n m mat tol HR EC EM HB) as (o & m1' & E & U & P).
      rewrite H in E. assert (m1' = m1) by congruence. assert (o = Done) by congruence. subst. cbv zeta in P.
      destruct (alone_spec s n m i mat tol HR EC EM HB Hi) as (mi & A1 & A2 & A3 & A4).
      exists mi. specialize (P i Hi). split; [rewrite A1, P; reflexivity|].
      apply (same_point s n m m1 i mi mat tol); try assumption. now rewrite P.
    Qed.

    Theorem alone_failed s n m m1 o : reachable c s -> batch_ok c s mtan n m -> mm_complete s = true ->
      call s (Z.of_nat n) m = (BRet o, m1) -> o <> Done ->
      exists k, k < n /\
        (exists mk, alone solver lu c s dt mtan m k = (BRet o, mk) /\ forall a, mk a = point c s mtan m1 k a) /\
        (forall i, i < k -> exists mi, alone solver lu c s dt mtan m i = (BRet Done, mi) /\ forall a, mi a = point c s mtan m1 i a) /\
        (forall i, k < i < n -> forall a, point c s mtan m1 i a = point c s mtan m i a).
    Proof.
      intros HR HB EC H HO.
      destruct (mm_ready s) as [[mat tol]|] eqn:EM.
      2:{ unfold mm_getResponse in H. rewrite EC, EM, Nat2Z.id in H. destruct n; [cbn in H; congruence|discriminate]. }
      destruct (api_batch c s solver lu dt mtan n m mat tol HR EC EM HB) as (o' & m1' & E & U & P).
      rewrite H in E. assert (m1' = m1) by congruence. assert (o' = o) by congruence. subst. cbv zeta in P.
      assert (P' : exists k, k < n /\ one s m k mat tol = (o, pt_of c s mtan m1 k) /\
           (forall i, i < k -> one s m i mat tol = (Done, pt_of c s mtan m1 i)) /\
           (forall i, k < i < n -> pt_of c s mtan m1 i = pt_of c s mtan m i)) by (destruct o; [congruence|exact P|exact P]).
      clear P. destruct P' as (k & Hk & Pk & Pl & Pg). exists k. split; [assumption|]. split; [|split].
      - destruct (alone_spec s n m k mat tol HR EC EM HB Hk) as (mi & A1 & A2 & A3 & A4).
        exists mi. split; [rewrite A1, Pk; reflexivity|]. apply (same_point s n m m1 k mi mat tol); try assumption. now rewrite Pk.
      - intros i Hi. assert (Hn : i < n) by lia. specialize (Pl i Hi).
        destruct (alone_spec s n m i mat tol HR EC EM HB Hn) as (mi & A1 & A2 & A3 & A4).
        exists mi. split; [rewrite A1, Pl; reflexivity|]. apply (same_point s n m m1 i mi mat tol); try assumption. now rewrite Pl.
      - intros i Hi a. pose proof (batch_after s n m m1 U HB) as B1.
        rewrite (point_cell s n m1 a i B1), (point_cell s n m a i HB) by lia.
        assert (D : ro a \/ ~ ro a).
        { unfold ro. destruct a; try (left; tauto); right; intros [|[|]]; discriminate. }
        destruct D as [Ha|Ha]; [unfold cell_of, cell; now rewrite (ro_not_own _ _ _ _ a Ha U)|].
        apply (pt_cells s s n n); try assumption; try lia. now apply Pg.
    Qed.

    Theorem alone_all s n m : reachable c s -> batch_ok c s mtan n m -> mm_complete s = true ->
      (exists m1, call s (Z.of_nat n) m = (BRet Done, m1)) <->
      (forall i, i < n -> exists mi, alone solver lu c s dt mtan m i = (BRet Done, mi)).
    Proof.
      intros HR HB EC. split.
      - intros [m1 H] i Hi. destruct (alone_done s n m m1 HR HB H i Hi) as (mi & E & _). now exists mi.
      - intros H. destruct (mm_ready s) as [[mat tol]|] eqn:EM.
        + destruct (api_batch c s solver lu dt mtan n m mat tol HR EC EM HB) as (o & m1 & E & _).
          destruct o; [now exists m1| |]; exfalso;
          (destruct (alone_failed s n m m1 _ HR HB EC E) as (k & Hk & (mk & A & _) & _); [discriminate|];
           destruct (H k Hk) as (mi & A'); rewrite A' in A; discriminate).
        + destruct n as [|n].
          * exists m. unfold mm_getResponse. rewrite EC. reflexivity.
          * destruct (H 0 ltac:(lia)) as (mi & A). unfold alone, mm_getResponse in A. rewrite EC, EM in A. discriminate.
    Qed.

    (** ** the object's strides, the number of points and the position of a point do not matter *)
    Theorem point_local s s' pars n n' m m' m1 m1' i i' : in_use c s pars -> in_use c s' pars ->
      batch_ok c s mtan n m -> batch_ok c s' mtan n' m' ->
      call s (Z.of_nat n) m = (BRet Done, m1) -> call s' (Z.of_nat n') m' = (BRet Done, m1') ->
      i < n -> i' < n' -> (forall a, point c s mtan m i a = point c s' mtan m' i' a) ->
      forall a, point c s mtan m1 i a = point c s' mtan m1' i' a.
    Proof.
      intros U U' B B' H H' Hi Hi' E a.
      assert (RD : mm_ready s = mm_ready s').
      { destruct U as [s0 o p st s1 ops HR HI HF]. destruct U' as [s0' o' p' st' s1' ops' HR' HI' HF'].
        destruct (run_harmless c ops s1 HF) as (-> & _). destruct (run_harmless c ops' s1' HF') as (-> & _).
        destruct (init_done _ _ _ _ _ _ HI) as (_ & x & (P1 & P2 & P3 & P4) & _ & ->).
        destruct (init_done _ _ _ _ _ _ HI') as (_ & y & (Q1 & Q2 & Q3 & Q4) & _ & ->).
        assert (X1 : pa_sg x = pa_sg y) by (rewrite P1 in Q1; clear - Q1; congruence).
        assert (X3 : pa_kin x = pa_kin y).
        { rewrite P3 in Q3. apply (f_equal (option_map fst)) in Q3. cbn [option_map fst] in Q3. clear - Q3; congruence. }
        assert (X2 : pa_el x = pa_el y) by congruence.
        assert (X4 : pa_bulk x = pa_bulk y) by (rewrite X2, Q4 in P4; clear - P4; congruence).
        unfold mm_ready, with_parts, with_scalars, with_vecs. cbn [mm_sg mm_kin mm_el mm_eos mm_tol].
        unfold parts_eos. now rewrite X1, X2, X3, X4. }
      destruct (in_use_ok c s pars U) as (HR & mat & tol & HM).
      destruct (in_use_ok c s' pars U') as (HR' & _).
      assert (HM' : mm_ready s' = Some (mat, tol)) by congruence.
      destruct (mm_complete s) eqn:EC; [|unfold mm_getResponse in H; rewrite EC in H; discriminate].
      destruct (mm_complete s') eqn:EC'; [|unfold mm_getResponse in H'; rewrite EC' in H'; discriminate].
      destruct (api_batch c s solver lu dt mtan n m mat tol HR EC HM B) as (o & x & E1 & UT & P).
      destruct (api_batch c s' solver lu dt mtan n' m' mat tol HR' EC' HM' B') as (o' & x' & E1' & UT' & P').
      rewrite H in E1. rewrite H' in E1'.
      assert (x = m1) by congruence. assert (o = Done) by congruence.
      assert (x' = m1') by congruence. assert (o' = Done) by congruence. subst. cbv zeta in P, P'.
      specialize (P i Hi). specialize (P' i' Hi'). cbv beta in P, P'.
      assert (CE : forall b, cell_of c s mtan m b i = cell_of c s' mtan m' b i').
      { intros b. rewrite <- (point_cell s n m b i B Hi), <- (point_cell s' n' m' b i' B' Hi'). apply E. }
      assert (PE : pt_of c s mtan m i = pt_of c s' mtan m' i').
      { unfold pt_of, pt_at. change (cell (mm_strides s) (c_nH c) (c_nslip c) mtan) with (cell_of c s mtan).
        change (cell (mm_strides s') (c_nH c) (c_nslip c) mtan) with (cell_of c s' mtan). now rewrite !CE. }
      assert (PE1 : pt_of c s mtan m1 i = pt_of c s' mtan m1' i').
      { rewrite (CE AD), (CE AW), (CE AV), PE in P. rewrite P in P'. clear - P'. congruence. }
      pose proof (batch_after s n m m1 UT B) as B1. pose proof (batch_after s' n' m' m1' UT' B') as B1'.
      rewrite (point_cell s n m1 a i B1 Hi), (point_cell s' n' m1' a i' B1' Hi').
      assert (D : ro a \/ ~ ro a).
      { unfold ro. destruct a; try (left; tauto); right; intros [|[|]]; discriminate. }
      destruct D as [Ha|Ha].
      - unfold cell_of, cell. rewrite (ro_not_own _ _ _ _ a Ha UT), (ro_not_own _ _ _ _ a Ha UT'). exact (CE a).
      - now apply (pt_cells s s' n n').
    Qed.

    (** ** Tasks of a call, interleaved *)
    Lemma tasks_conf s n mat tol : mm_complete s = true -> mm_ready s = Some (mat, tol) ->
      mm_tasks solver lu c s dt mtan (Z.of_nat n) =
        Some (map (pointProg solver lu mat dt tol (mm_strides s) (c_nH c) (c_nslip c) mtan) (seq 0 n)).
    Proof. intros HC HM. unfold mm_tasks. now rewrite HC, HM, Nat2Z.id. Qed.

    Lemma tasks_some s n ts : mm_tasks solver lu c s dt mtan (Z.of_nat n) = Some ts ->
      exists mat tol, mm_complete s = true /\ mm_ready s = Some (mat, tol) /\
        ts = map (pointProg solver lu mat dt tol (mm_strides s) (c_nH c) (c_nslip c) mtan) (seq 0 n).
    Proof.
      unfold mm_tasks. destruct (mm_complete s); [|discriminate]. cbn [negb].
      destruct (mm_ready s) as [[mat tol]|]; [|discriminate]. rewrite Nat2Z.id. intros H.
      exists mat, tol. split; [reflexivity|]. split; [reflexivity|]. congruence.
    Qed.

    Lemma pool_ok (s : MM T) n mat tol : pool_conf (ownN (mm_strides s) (c_nH c) (c_nslip c) mtan n)
        (map (pointProg solver lu mat dt tol (mm_strides s) (c_nH c) (c_nslip c) mtan) (seq 0 n)).
    Proof.
      intros k p Hk. rewrite nth_error_map in Hk.
      destruct (nth_error (seq 0 n) k) as [i|] eqn:E; [|discriminate]. cbn in Hk. injection Hk as <-.
      assert (Hl : k < List.length (seq 0 n)) by (apply nth_error_Some; congruence).
      rewrite seq_length in Hl.
      rewrite (nth_error_nth' _ 0) in E by (rewrite seq_length; assumption).
      rewrite seq_nth in E by assumption. injection E as <-. now apply bodyN_conf.
    Qed.
    Lemma task_nth (s : MM T) n mat tol k : k < n ->
      nth_error (map (pointProg solver lu mat dt tol (mm_strides s) (c_nH c) (c_nslip c) mtan) (seq 0 n)) k =
      Some (pointProg solver lu mat dt tol (mm_strides s) (c_nH c) (c_nslip c) mtan k).
    Proof.
      intros H. rewrite nth_error_map, (nth_error_nth' _ 0) by (rewrite seq_length; assumption).
      rewrite seq_nth by assumption. reflexivity.
    Qed.

    Lemma ownN_output s n i a j : no_wrap (mm_strides s) mtan n -> ownN (mm_strides s) (c_nH c) (c_nslip c) mtan n i a j ->
      output_cell c s mtan n a j.
    Proof.
      intros HW [Hi [Hr Ho]]. split.
      - destruct a; cbn; try tauto; exfalso; apply Hr; unfold ro; tauto.
      - rewrite (offs_eq (mm_strides s) mtan n HW) in Ho by assumption. rewrite width_eq in Ho.
        exists i, (j - stride_of (mm_strides s) a * i). split; [assumption|]. lia.
    Qed.
    Lemma untouched_frame s n (m m1 : Mem T) : no_wrap (mm_strides s) mtan n ->
      untouched (mm_strides s) (c_nH c) (c_nslip c) mtan n m m1 ->
      (forall a, List.length (m1 a) = List.length (m a)) /\
      (forall a j, ~ output_cell c s mtan n a j -> nth_error (m1 a) j = nth_error (m a) j) /\
      (forall a, In a [AD; AW; AV] -> m1 a = m a) /\ (mtan = false -> m1 AM = m AM).
    Proof.
      intros HW U. split; [apply U|]. split; [|split].
      - intros a j H. apply U. intros i _ Ho. apply H. exact (ownN_output s n i a j HW Ho).
      - intros a Ha. apply (ro_not_own (mm_strides s) n m m1 a); [|assumption]. unfold ro.
        destruct Ha as [<-|[<-|[<-|[]]]]; tauto.
      - intros E. apply lext. intros j. apply U. intros i Hi [_ [_ Ho]]. cbn [width] in Ho. rewrite E in Ho. lia.
    Qed.

    (** what holds in every state of every interleaving *)
    Theorem threads_inv s n m ts ps m2 : reachable c s -> batch_ok c s mtan n m ->
      mm_tasks solver lu c s dt mtan (Z.of_nat n) = Some ts -> psteps (ts, m) (ps, m2) ->
      List.length ps = n /\
      untouched (mm_strides s) (c_nH c) (c_nslip c) mtan n m m2 /\
      forall i p, nth_error ps i = Some p -> i < n /\ exists o mi,
        alone solver lu c s dt mtan m i = (BRet o, mi) /\ fst (exec p m2) = BRet o /\
        forall a, point c s mtan (snd (exec p m2)) i a = mi a.
    Proof.
      intros HR HB HT HP. destruct (tasks_some s n ts HT) as (mat & tol & EC & EM & ->).
      pose proof (reach_strides_ok c s mtan HR) as HS. pose proof HB as [HW HBu].
      destruct (psteps_inv (ownN (mm_strides s) (c_nH c) (c_nslip c) mtan n)
         (ownN_w _ _ _ _ _) (ownN_disj (mm_strides s) (c_nH c) (c_nslip c) mtan n HS HW) _ _ HP (pool_ok s n mat tol))
        as (PC & L & ML & O & A). cbn [fst snd] in *. rewrite map_length, seq_length in L, O.
      split; [assumption|]. split; [split; assumption|].
      intros i p Hp. assert (Hi : i < n) by (rewrite <- L; apply nth_error_Some; congruence). split; [assumption|].
      destruct (A i _ p (task_nth s n mat tol i Hi) Hp) as [A1 A2].
      destruct (body_exec solver lu mat dt tol (mm_strides s) (c_nH c) (c_nslip c) mtan i m
                  (inb_ok (mm_strides s) (c_nH c) (c_nslip c) mtan n HW m i HBu Hi)) as (m' & E & EP).
      destruct (alone_spec s n m i mat tol HR EC EM HB Hi) as (mi & B1 & B2 & B3 & B4).
      exists (fst (one s m i mat tol)), mi. split; [exact B1|].
      rewrite E in A1, A2. cbn [fst snd] in A1, A2. split; [exact A1|].
      assert (UU : untouched (mm_strides s) (c_nH c) (c_nslip c) mtan n m m').
      { split.
        - intros a. replace m' with (snd (exec (pointProg solver lu mat dt tol (mm_strides s) (c_nH c) (c_nslip c) mtan i) m)) by now rewrite E.
          apply exec_lengths.
        - intros a j H. replace m' with (snd (exec (pointProg solver lu mat dt tol (mm_strides s) (c_nH c) (c_nslip c) mtan i) m)) by now rewrite E.
          apply (exec_outside (ownN (mm_strides s) (c_nH c) (c_nslip c) mtan n i)); [now apply bodyN_conf | now apply H]. }
      intros a. symmetry. rewrite (same_point s n m m' i mi mat tol HB Hi UU EP B2 B3 B4 a).
      assert (LX : forall b, List.length (snd (exec p m2) b) = List.length (m b)).
      { intros b. rewrite exec_lengths. apply ML. }
      rewrite (point_cell s n m' a i (batch_after s n m m' UU HB) Hi).
      rewrite (point_cell s n (snd (exec p m2)) a i).
      - symmetry. exact (cell_agree solver lu mat dt tol (mm_strides s) (c_nH c) (c_nslip c) mtan n (snd (exec p m2)) m' i Hi A2 a).
      - split; [assumption|]. intros b k Hk Hp'. rewrite LX. now apply HBu.
      - assumption.
    Qed.

    Theorem threads_done s n m m1 ts ps m2 : reachable c s -> batch_ok c s mtan n m ->
      call s (Z.of_nat n) m = (BRet Done, m1) ->
      mm_tasks solver lu c s dt mtan (Z.of_nat n) = Some ts -> psteps (ts, m) (ps, m2) -> ended ps ->
      (forall p, In p ps -> p = Ret (BRet Done)) /\ forall a, m2 a = m1 a.
    Proof.
      intros HR HB H HT HP HE. destruct (tasks_some s n ts HT) as (mat & tol & EC & EM & ->).
      pose proof (reach_strides_ok c s mtan HR) as HS. destruct HB as [HW HBu].
      eapply (runSeq_threads solver lu mat dt tol (mm_strides s) (c_nH c) (c_nslip c) mtan n HS HW m m1); try eassumption.
      unfold mm_getResponse in H. rewrite EC, EM, Nat2Z.id in H. cbn [negb] in H.
      destruct (seq 0 n) eqn:En; [|exact H]. cbn [runSeq]. exact H.
    Qed.
  End One.
End B.

(** ** Tasks always end *)
Section Term.
  Context {T : Type}.
  Inductive pdec : prog T -> prog T -> Prop :=
  | pd_read a j k v : pdec (k v) (Read a j k)
  | pd_write a j v p : pdec p (Write a j v p)
  | pd_oob p : (match p with Ret _ => False | _ => True end) -> pdec (Ret BUndef) p.
  Lemma acc_ret o : Acc pdec (Ret o).
  Proof. constructor. intros y H. remember (Ret o) as r. destruct H; try discriminate. subst. contradiction. Qed.
  Lemma acc_prog p : Acc pdec p.
  Proof.
    induction p as [o | a j k IH | a j v p IH]; [apply acc_ret| |]; constructor; intros y H; inversion H; subst; auto using acc_ret.
  Qed.
  Inductive ldec : list (prog T) -> list (prog T) -> Prop :=
  | ld l p q r : pdec q p -> ldec (l ++ q :: r) (l ++ p :: r).
  Lemma acc_cons p : Acc pdec p -> forall l, Acc ldec l -> Acc ldec (p :: l).
  Proof.
    induction 1 as [p _ IHp]. intros l Hl. induction Hl as [l Hl IHl]. constructor. intros y H.
    inversion H as [l0 p0 q0 r0 D E1 E2]. destruct l0 as [|x l0]; cbn in E2; injection E2 as F1 F2; subst.
    - cbn. apply IHp; [assumption|]. now constructor.
    - cbn. apply IHl. now constructor.
  Qed.
  Lemma acc_list l : Acc ldec l.
  Proof.
    induction l as [|p l IH]; [|apply acc_cons; [apply acc_prog|assumption]].
    constructor. intros y H. inversion H. destruct l; discriminate.
  Qed.
  Lemma pstep_ldec (s s' : list (prog T) * Mem T) : pstep s s' -> ldec (fst s') (fst s).
  Proof. destruct 1; cbn [fst]; constructor; constructor; exact I. Qed.
  Lemma acc_pstep ps : forall m, Acc (fun y x => @pstep T x y) (ps, m).
  Proof.
    induction (acc_list ps) as [ps _ IH]. intros m. constructor. intros [ps' m'] H.
    apply IH. exact (pstep_ldec _ _ H).
  Qed.
  Lemma progress (ps : list (prog T)) m : (forall p, In p ps -> exists o, p = Ret o) \/ exists s', pstep (ps, m) s'.
  Proof.
    induction ps as [|p ps IH]; [left; intros p []|].
    destruct p as [o | a j k | a j v p].
    - destruct IH as [IH | [s' St]].
      + left. intros q [<-|Hq]; [now exists o | now apply IH].
      + right. inversion St as [l a j k r m0 v E Q | l a j k r m0 E Q | l a j v p r m0 E Q | l a j v p r m0 E Q]; subst.
        * eexists. exact (ps_read (Ret o :: l) a j k r m v E).
        * eexists. exact (ps_read_oob (Ret o :: l) a j k r m E).
        * eexists. exact (ps_write (Ret o :: l) a j v p r m E).
        * eexists. exact (ps_write_oob (Ret o :: l) a j v p r m E).
    - right. destruct (nth_error (m a) j) as [v|] eqn:E.
      + eexists. exact (ps_read [] a j k ps m v E).
      + eexists. exact (ps_read_oob [] a j k ps m E).
    - right. destruct (Nat.lt_ge_cases j (List.length (m a))) as [E|E].
      + eexists. exact (ps_write [] a j v p ps m E).
      + eexists. exact (ps_write_oob [] a j v p ps m E).
  Qed.
End Term.

(** ** Address ranges *)
Lemma addr_iff st i : addr st i = st * i <-> (Z.of_nat st * Z.of_nat i < 2 ^ 32)%Z.
Proof.
  unfold addr. split; intros H.
  - pose proof (Z.mod_pos_bound (Z.of_nat st * Z.of_nat i) (2 ^ 32) ltac:(lia)). lia.
  - rewrite Z.mod_small by lia. lia.
Qed.
Lemma mtan_iff i : mtan_addr i = Some (36 * i) <-> (36 * Z.of_nat i <= 2147483647)%Z.
Proof.
  unfold mtan_addr. destruct (Z.leb_spec (36 * Z.of_nat i) 2147483647); split; intros; try lia; try reflexivity. discriminate.
Qed.
Lemma no_wrap_iff (st : list nat) mtan n : 0 < n -> no_wrap st mtan n <->
  (forall a i, a <> AM -> i < n -> addr (stride_of st a) i = stride_of st a * i) /\
  (mtan = true -> forall i, i < n -> mtan_addr i = Some (36 * i)).
Proof.
  intros Hn. split.
  - intros [H1 H2]. split.
    + intros a i Ha Hi. apply addr_iff. specialize (H1 a Ha). nia.
    + intros E i Hi. apply mtan_iff. specialize (H2 E). lia.
  - intros [H1 H2]. split.
    + intros a Ha. specialize (H1 a (n - 1) Ha ltac:(lia)). apply addr_iff in H1. rewrite Nat2Z.inj_sub in H1 by lia. exact H1.
    + intros E. specialize (H2 E (n - 1) ltac:(lia)). apply mtan_iff in H2. lia.
Qed.

(** with a tangent buffer, too many points never return normally *)
Lemma runSeq_undef {T} {N : Num T} (body : nat -> prog T) is k : In k is -> (forall m, exec (body k) m = (BUndef, m)) ->
  forall m m1, runSeq body is m <> (BRet Done, m1).
Proof.
  induction is as [|i is IH]; intros Hk Hu m m1; [contradiction|]. cbn [runSeq].
  destruct Hk as [->|Hk].
  - rewrite Hu. discriminate.
  - destruct (exec (body i) m) as [[[]|] m']; try discriminate. now apply IH.
Qed.
Lemma tangent_limit {T} {N : Num T} (c : MClass T) s solver lu dt n m m1 : (59652324 < n)%Z ->
  mm_getResponse solver lu c s dt true n m <> (BRet Done, m1).
Proof.
  intros Hn. unfold mm_getResponse. destruct (negb (mm_complete s)); [discriminate|].
  assert (Hi : In (Z.to_nat 59652324) (seq 0 (Z.to_nat n))) by (apply in_seq; lia).
  destruct (seq 0 (Z.to_nat n)) as [|i is] eqn:E; [contradiction|].
  destruct (mm_ready s) as [[mat tol]|]; [|discriminate].
  apply (runSeq_undef _ _ (Z.to_nat 59652324) Hi). intros m0. unfold pointProg. cbv zeta.
  unfold mtan_addr. rewrite Z2Nat.id by lia. change (36 * 59652324 <=? 2147483647)%Z with false. reflexivity.
Qed.

(** ** Programs that never look at some cells *)
Section Blind.
  Context {T : Type} {N : Num T}.
  Variable P : region.     (* the cells a program may access *)
  Fixpoint within (p : prog T) : Prop :=
    match p with
    | Ret _ => True
    | Read a j k => P a j /\ forall v, within (k v)
    | Write a j v p' => P a j /\ within p'
    end.
  Definition same (m m' : Mem T) : Prop := (forall a, List.length (m a) = List.length (m' a)) /\ forall a j, P a j -> nth_error (m a) j = nth_error (m' a) j.
  Lemma within_readL a n : forall j k, (forall i, j <= i < j + n -> P a i) -> (forall l, List.length l = n -> within (k l)) -> within (readL a j n k).
  Proof.
    induction n as [|n IH]; intros j k H Hk; cbn [readL within]; [now apply Hk|].
    split; [apply H; lia|]. intros v. apply IH; [intros i Hi; apply H; lia|]. intros l Hl. apply Hk. cbn. lia.
  Qed.
  Lemma within_writeL a (l : list T) : forall j p, (forall i, j <= i < j + List.length l -> P a i) -> within p -> within (writeL a j l p).
  Proof.
    induction l as [|x l IH]; intros j p H Hp; cbn [writeL within List.length] in *; [assumption|].
    split; [apply H; lia|]. apply IH; [|assumption]. intros i Hi. apply H. lia.
  Qed.
  Lemma within_exec p : within p -> forall m m', same m m' ->
    fst (exec p m) = fst (exec p m') /\ same (snd (exec p m)) (snd (exec p m')).
  Proof.
    induction p as [o | a j k IH | a j v p IH]; intros W m m' [L S]; cbn [exec within] in *; [repeat split; assumption| |].
    - destruct W as [Hj Hk]. rewrite <- (S a j Hj). destruct (nth_error (m a) j); [|repeat split; assumption]. apply IH; [apply Hk | split; assumption].
    - destruct W as [Hj Hp]. rewrite <- (L a). destruct (Nat.ltb j (List.length (m a))) eqn:E; [|repeat split; assumption].
      apply Nat.ltb_lt in E. apply IH; [assumption|]. split.
      + intros b. unfold mset. destruct arr_eqb; [rewrite !upd_length; apply L | apply L].
      + intros b i Hb. destruct (arr_dec a b) as [->|Hne].
        * rewrite !mset_same. destruct (Nat.eq_dec j i) as [->|Hij].
          -- rewrite !nth_error_upd_same by (try rewrite <- L; assumption). reflexivity.
          -- rewrite !nth_error_upd_other by assumption. now apply S.
        * rewrite !mset_other by assumption. now apply S.
  Qed.
  Lemma within_runSeq (body : nat -> prog T) is : (forall i, In i is -> within (body i)) -> forall m m', same m m' ->
    fst (runSeq body is m) = fst (runSeq body is m') /\ same (snd (runSeq body is m)) (snd (runSeq body is m')).
  Proof.
    induction is as [|i is IH]; intros W m m' S; cbn [runSeq]; [auto|].
    destruct (within_exec (body i) (W i (or_introl eq_refl)) m m' S) as [E1 E2].
    destruct (exec (body i) m) as [o x]. destruct (exec (body i) m') as [o' x']. cbn [fst snd] in *. subst o'.
    destruct o as [[]|]; cbn [fst snd]; auto. apply IH; [|assumption]. intros k Hk. apply W. now right.
  Qed.
End Blind.
