(** The USE_DPEFF build: what a batch call does, and the comparison of the two builds. *)
From Coq Require Import List ZArith Bool Lia PeanoNat.
From Verif Require Import Num Arr Util SlipGeom Eos Hard Elast Evptn MatModel EvptnDp P_Batch P_Batch2 P_Batch3 P_Api P_Dp P_Dp2.
Import ListNotations.

Section B.
  Context {T : Type} {N : Num T}.
  Variables (solver : Solver T) (lu : LUSolver T) (mat : Mat T) (dt tol : T).
  Variables (st : list nat) (nH ns : nat) (mtan : bool) (n : nat).
  Hypothesis HST : strides_ok st nH ns mtan.
  Hypothesis HNW : no_wrap st mtan n.
  Local Notation stride_of := (P_Batch3.stride_of st).
  Local Notation buffers_ok := (P_Batch3.buffers_ok st nH ns mtan n).
  Local Notation ownN := (P_Batch3.ownN st nH ns mtan n).
  Local Notation untouched := (P_Batch3.untouched st nH ns mtan n).
  Let body := pointProg_dp solver lu mat dt tol st nH ns mtan.
  Let rsp := resp_dp solver lu mat dt tol st nH ns mtan.
  Let pta := pt_at st nH ns mtan.

  Lemma bodyN_conf_dp i : (i < n)%nat -> conf (ownN i) (body i).
  Proof. intros Hi. apply (conf_weaken (own st nH ns mtan i)); [intros a j H; split; assumption | apply dp_conf]. Qed.

  Lemma pt_agree_dp (m m' : Mem T) i : (i < n)%nat -> agree (ownN i) m m' -> pta m i = pta m' i.
  Proof. intros Hi A. unfold pta, pt_at. now rewrite !(cell_agree solver lu mat dt tol st nH ns mtan n m m' i Hi A). Qed.
  Lemma rsp_agree_dp (m m' : Mem T) i : (i < n)%nat -> agree (ownN i) m m' -> rsp m i = rsp m' i.
  Proof.
    intros Hi A. unfold rsp, resp_dp. rewrite !(cell_agree solver lu mat dt tol st nH ns mtan n m m' i Hi A).
    fold pta. now rewrite (pt_agree_dp m m' i Hi A).
  Qed.

  Lemma step_frame_dp m i j : (i < n)%nat -> (j < n)%nat -> i <> j -> agree (ownN j) (snd (exec (body i) m)) m.
  Proof.
    intros Hi Hj Hij a k Hk. apply (exec_outside (ownN i)); [now apply bodyN_conf_dp|].
    intros Ho. destruct Hk as [Hr|Hk]; [exact (ownN_w st nH ns mtan n _ _ _ Ho Hr) | exact (ownN_disj st nH ns mtan n HST HNW _ _ _ _ Hij Ho Hk)].
  Qed.

  Lemma buffers_exec_dp m i : buffers_ok m -> buffers_ok (snd (exec (body i) m)).
  Proof. intros B a k Hk Hp. rewrite exec_lengths. now apply B. Qed.

  (** what a point in the batch ends with *)
  Definition point_done_dp (m m1 : Mem T) (i : nat) : Prop := fst (rsp m i) = Done /\ pta m1 i = snd (rsp m i).

  Lemma seq_batch_dp is : forall m, NoDup is -> (forall i, In i is -> (i < n)%nat) -> buffers_ok m ->
    exists o m1, runSeq body is m = (BRet o, m1) /\ untouched m m1 /\
      (forall i, (i < n)%nat -> ~ In i is -> agree (ownN i) m1 m) /\
      match o with
      | Done => forall i, In i is -> point_done_dp m m1 i
      | _ => exists pre k post, is = pre ++ k :: post /\ fst (rsp m k) = o /\ pta m1 k = snd (rsp m k) /\
             (forall i, In i pre -> point_done_dp m m1 i) /\ (forall i, In i post -> agree (ownN i) m1 m)
      end.
  Proof.
    induction is as [|i is IH]; intros m ND HI B.
    - exists Done, m. cbn. split; [reflexivity|]. split; [split; auto|]. split; [intros; intros a j _; reflexivity|]. contradiction.
    - assert (Hi : (i < n)%nat) by (apply HI; now left).
      inversion ND as [|x l Hni ND']; subst.
      destruct (dp_exec solver lu mat dt tol st nH ns mtan i m (inb_ok st nH ns mtan n HNW m i B Hi)) as (m' & E & EP).
      fold body in E. fold rsp in E. fold rsp in EP. fold pta in EP. cbn [runSeq]. rewrite E.
      assert (Em : m' = snd (exec (body i) m)) by now rewrite E.
      assert (FR : forall j, (j < n)%nat -> j <> i -> agree (ownN j) m' m).
      { intros j Hj Hji. rewrite Em. apply step_frame_dp; auto. }
      assert (UT : untouched m m').
      { split; [intros a; rewrite Em; apply exec_lengths|]. intros a j H. rewrite Em.
        apply (exec_outside (ownN i)); [now apply bodyN_conf_dp | now apply H]. }
      destruct (fst (rsp m i)) eqn:Eo.
      + destruct (IH m' ND') as (o & m1 & E1 & U1 & A1 & R1).
        { intros j Hj. apply HI. now right. }
        { rewrite Em. now apply buffers_exec_dp. }
        assert (PD : forall j, In j is -> point_done_dp m' m1 j -> point_done_dp m m1 j).
        { intros j Hj [P1 P2]. assert (Hj' : (j < n)%nat) by (apply HI; now right).
          assert (j <> i) by (intros ->; contradiction).
          rewrite (rsp_agree_dp m' m j Hj' (FR j Hj' H)) in P1, P2. split; assumption. }
        assert (PI : point_done_dp m m1 i).
        { split; [assumption|]. rewrite <- EP. apply pt_agree_dp; [assumption|]. now apply A1. }
        exists o, m1. split; [assumption|]. split; [|split].
        * destruct UT as [U2 U3]. destruct U1 as [U4 U5]. split; [intros a; rewrite U4; apply U2|].
          intros a j H. rewrite U5 by assumption. now apply U3.
        * intros j Hj Hn a k Hk. rewrite (A1 j Hj) by (try assumption; intros Hc; apply Hn; now right).
          apply (FR j Hj); [|assumption]. intros ->. apply Hn. now left.
        * destruct o; [| destruct R1 as (pre & k & post & -> & R2 & R3 & R4 & R5) ..].
          -- intros j [<-|Hj]; [assumption|]. apply PD; auto.
          -- assert (Hk : (k < n)%nat) by (apply HI; right; apply in_or_app; right; now left).
             assert (Hki : k <> i) by (intros ->; apply Hni; apply in_or_app; right; now left).
             exists (i :: pre), k, post. split; [reflexivity|].
             rewrite <- (rsp_agree_dp m' m k Hk (FR k Hk Hki)). split; [assumption|]. split; [assumption|]. split.
             ++ intros j [<-|Hj]; [assumption|]. apply PD; [apply in_or_app; now left|]. now apply R4.
             ++ intros j Hj a q Hq.
                assert (Hjn : (j < n)%nat) by (apply HI; right; apply in_or_app; right; now right).
                assert (Hji : j <> i) by (intros ->; apply Hni; apply in_or_app; right; now right).
                rewrite (R5 j Hj a q Hq). now apply (FR j Hjn Hji).
          -- assert (Hk : (k < n)%nat) by (apply HI; right; apply in_or_app; right; now left).
             assert (Hki : k <> i) by (intros ->; apply Hni; apply in_or_app; right; now left).
             exists (i :: pre), k, post. split; [reflexivity|].
             rewrite <- (rsp_agree_dp m' m k Hk (FR k Hk Hki)). split; [assumption|]. split; [assumption|]. split.
             ++ intros j [<-|Hj]; [assumption|]. apply PD; [apply in_or_app; now left|]. now apply R4.
             ++ intros j Hj a q Hq.
                assert (Hjn : (j < n)%nat) by (apply HI; right; apply in_or_app; right; now right).
                assert (Hji : j <> i) by (intros ->; apply Hni; apply in_or_app; right; now right).
                rewrite (R5 j Hj a q Hq). now apply (FR j Hjn Hji).
      + exists Failed, m'. split; [reflexivity|]. split; [assumption|]. split.
        * intros j Hj Hn. apply FR; [assumption|]. intros ->. apply Hn. now left.
        * exists [], i, is. split; [reflexivity|]. split; [assumption|]. split; [assumption|]. split; [contradiction|].
          intros j Hj. apply FR; [apply HI; now right|]. intros ->. contradiction.
      + exists AssertFailed, m'. split; [reflexivity|]. split; [assumption|]. split.
        * intros j Hj Hn. apply FR; [assumption|]. intros ->. apply Hn. now left.
        * exists [], i, is. split; [reflexivity|]. split; [assumption|]. split; [assumption|]. split; [contradiction|].
          intros j Hj. apply FR; [apply HI; now right|]. intros ->. contradiction.
  Qed.
  (** ** The two builds side by side *)
  Definition twoc (j : nat) : Prop := exists i, (i < n)%nat /\ (j = stride_of AH * i \/ j = stride_of AH * i + 1)%nat.
  Definition msim (m m' : Mem T) : Prop :=
    (forall a, length (m a) = length (m' a)) /\
    forall a j, ~ (a = AH /\ twoc j) -> nth_error (m a) j = nth_error (m' a) j.

  Lemma twoc_dec j : twoc j \/ ~ twoc j.
  Proof.
    unfold twoc. clear HNW. induction n as [|k IH].
    - right. intros (i & Hi & _). lia.
    - destruct IH as [(i & Hi & H)|IH]; [left; exists i; split; [lia|assumption]|].
      destruct (Nat.eq_dec j (stride_of AH * k)); [left; exists k; split; [lia|now left]|].
      destruct (Nat.eq_dec j (stride_of AH * k + 1)); [left; exists k; split; [lia|now right]|].
      right. intros (i & Hi & H). destruct (Nat.eq_dec i k) as [->|]; [lia|]. apply IH. exists i. split; [lia|assumption].
  Qed.

  Lemma nth_error_sub (l : list T) j w k : (k < w)%nat -> nth_error (sub l j w) k = nth_error l (j + k).
  Proof.
    intros Hk. unfold sub. revert l w k Hk. induction j as [|j IH]; intros l w k Hk.
    - cbn [skipn plus]. revert w k Hk. induction l as [|y l IHl]; intros [|w] [|k] Hk; cbn; try lia; auto. apply IHl. lia.
    - destruct l as [|y l]; cbn [skipn plus]; [destruct w; destruct k; reflexivity|]. cbn [nth_error]. now apply IH.
  Qed.

  Lemma msim_refl m : msim m m.
  Proof. split; auto. Qed.
  Lemma msim_cell m m' a i : msim m m' -> a <> AH -> cell st nH ns mtan m a i = cell st nH ns mtan m' a i.
  Proof. intros [_ H] Ha. apply sub_ext. intros k _. apply H. tauto. Qed.
  Lemma msim_hist m m' i : msim m m' -> buffers_ok m -> (i < n)%nat -> hsim (cell st nH ns mtan m AH i) (cell st nH ns mtan m' AH i).
  Proof.
    intros [L H] B Hi. unfold cell. rewrite (offs_eq st mtan n HNW AH i Hi), width_eq.
    assert (P : (2 <= per_point nH ns mtan AH)%nat) by (cbn [per_point]; unfold numHist, iHistLbH; lia).
    pose proof (B AH i Hi ltac:(lia)) as B'. pose proof (HST AH) as S'.
    split; [rewrite !sub_length by (try rewrite <- L; assumption); reflexivity|].
    intros k Hk. destruct (Nat.lt_ge_cases k (per_point nH ns mtan AH)) as [Hkw|Hkw].
    - rewrite !nth_error_sub by assumption. apply H. intros [_ (i' & Hi' & E)].
      set (sh := stride_of AH) in *. clearbody sh.
      destruct (Nat.lt_trichotomy i i') as [Q|[Q|Q]]; [| subst i'; lia |].
      + assert (sh * i + sh <= sh * i')%nat by nia. lia.
      + assert (sh * i' + sh <= sh * i)%nat by nia. lia.
    - rewrite (proj2 (nth_error_None _ _)), (proj2 (nth_error_None _ _)); [reflexivity | ..]; rewrite sub_length by (try rewrite <- L; assumption); assumption.
  Qed.
  Lemma msim_pt m m' i : msim m m' -> buffers_ok m -> (i < n)%nat -> psim (pta m i) (pta m' i).
  Proof.
    intros H B Hi. unfold pta, pt_at, psim. cbn [pt_eInt pt_stress pt_hist pt_tkelv pt_sdd pt_mtan].
    rewrite (msim_cell m m' AE i H), (msim_cell m m' AS i H), (msim_cell m m' AT i H), (msim_cell m m' AB i H), (msim_cell m m' AM i H) by discriminate.
    pose proof (msim_hist m m' i H B Hi) as HH.
    exact (conj eq_refl (conj eq_refl (conj HH (conj eq_refl (conj eq_refl eq_refl))))).
  Qed.
  Lemma msim_bufs m m' : msim m m' -> buffers_ok m -> buffers_ok m'.
  Proof. intros [L _] B a i Hi Hp. rewrite <- L. now apply B. Qed.

  Let body0 := pointProg solver lu mat dt tol st nH ns mtan.

  Lemma sim_step i m m' : msim m m' -> buffers_ok m -> (i < n)%nat ->
    fst (exec (body i) m') = fst (exec (body0 i) m) /\ msim (snd (exec (body0 i) m)) (snd (exec (body i) m')).
  Proof.
    intros H B Hi. pose proof (msim_bufs m m' H B) as B'.
    destruct (body_exec solver lu mat dt tol st nH ns mtan i m (inb_ok st nH ns mtan n HNW m i B Hi)) as (m1 & E & P).
    destruct (dp_exec solver lu mat dt tol st nH ns mtan i m' (inb_ok st nH ns mtan n HNW m' i B' Hi)) as (m1' & E' & P').
    fold body0 in E. fold body in E'.
    pose proof (sngl_sim solver lu mat dt tol (cell st nH ns mtan m AD i) (cell st nH ns mtan m AW i) (cell st nH ns mtan m AV i)
                  (pta m i) (pta m' i) (msim_pt m m' i H B Hi)) as [S1 S2].
    unfold resp in E, P. unfold resp_dp in E', P'. fold pta in E, P, E', P'.
    rewrite (msim_cell m m' AD i H), (msim_cell m m' AW i H), (msim_cell m m' AV i H) in S1, S2, E, P by discriminate.
    rewrite E, E'. cbn [fst snd]. rewrite <- P, <- P' in S2. split; [now rewrite S1|].
    assert (L1 : forall a, length (m1 a) = length (m a)).
    { intros a. replace m1 with (snd (exec (body0 i) m)) by now rewrite E. apply exec_lengths. }
    assert (L1' : forall a, length (m1' a) = length (m' a)).
    { intros a. replace m1' with (snd (exec (body i) m')) by now rewrite E'. apply exec_lengths. }
    assert (B1 : buffers_ok m1) by (intros a k Hk Hp; rewrite L1; now apply B).
    assert (B1' : buffers_ok m1') by (intros a k Hk Hp; rewrite L1'; now apply B').
    split; [intros a; rewrite L1, L1'; apply H|].
    intros a j Hj.
    destruct (ownN_dec st nH ns mtan n i a j) as [Ho|Ho].
    2:{ replace m1 with (snd (exec (body0 i) m)) by now rewrite E. replace m1' with (snd (exec (body i) m')) by now rewrite E'.
        rewrite (exec_outside (ownN i) (body0 i) (bodyN_conf solver lu mat dt tol st nH ns mtan n i Hi)) by assumption.
        rewrite (exec_outside (ownN i) (body i) (bodyN_conf_dp i Hi)) by assumption. now apply H. }
    destruct Ho as [_ [Hro Hoff]]. rewrite (offs_eq st mtan n HNW a i Hi), width_eq in Hoff.
    assert (R : forall x : list T, nth_error x j = nth_error (sub x (offs st a i) (width nH ns mtan a)) (j - stride_of a * i)).
    { intros x. rewrite (offs_eq st mtan n HNW a i Hi), width_eq. rewrite nth_error_sub by lia. f_equal. lia. }
    assert (RC : forall x : Mem T, nth_error (x a) j = nth_error (cell st nH ns mtan x a i) (j - stride_of a * i)) by (intros x; apply R).
    rewrite !RC. destruct S2 as (Q1 & Q2 & Q3 & Q4 & Q5 & Q6).
    unfold pta, pt_at in Q1, Q2, Q3, Q4, Q5, Q6. cbn [pt_eInt pt_stress pt_hist pt_tkelv pt_sdd pt_mtan] in Q1, Q2, Q3, Q4, Q5, Q6.
    destruct a; try (exfalso; apply Hro; unfold ro; tauto).
    - now rewrite Q1.
    - now rewrite Q2.
    - apply (proj2 Q3). destruct (Nat.lt_ge_cases (j - stride_of AH * i) 2); [|assumption].
      exfalso. apply Hj. split; [reflexivity|]. exists i. split; [assumption|lia].
    - assert (Z : (j - stride_of AT * i = 0)%nat) by (cbn [per_point] in Hoff; lia). rewrite Z.
      assert (LT : forall x : Mem T, buffers_ok x -> nth_error (cell st nH ns mtan x AT i) 0 = Some (get (cell st nH ns mtan x AT i) 0)).
      { intros x Bx. assert (LX : length (cell st nH ns mtan x AT i) = 1%nat).
        { unfold cell. rewrite sub_length; [reflexivity|]. rewrite (offs_eq st mtan n HNW AT i Hi), width_eq. apply Bx; [assumption|cbn; lia]. }
        destruct (cell st nH ns mtan x AT i); [discriminate|reflexivity]. }
      rewrite !LT by assumption. now rewrite Q4.
    - now rewrite Q5.
    - cbn [per_point] in Hoff. destruct mtan; [|lia]. injection Q6 as Q6. now rewrite Q6.
  Qed.

  Lemma sim_run is : forall m m', (forall i, In i is -> (i < n)%nat) -> msim m m' -> buffers_ok m ->
    fst (runSeq body is m') = fst (runSeq body0 is m) /\ msim (snd (runSeq body0 is m)) (snd (runSeq body is m')).
  Proof.
    induction is as [|i is IH]; intros m m' HI H B; cbn [runSeq]; [auto|].
    destruct (sim_step i m m' H B (HI i (or_introl eq_refl))) as [E S].
    assert (B1 : buffers_ok (snd (exec (body0 i) m))) by (intros a k Hk Hp; rewrite exec_lengths; now apply B).
    destruct (exec (body0 i) m) as [o m1], (exec (body i) m') as [o' m1']. cbn [fst snd] in *. subst o'.
    destruct o as [[]|]; auto.
    apply IH; [intros j Hj; apply HI; now right | assumption | assumption].
  Qed.

End B.
