(** Batches of points: which strides and sizes make the points independent, and what a batch computes. *)
From Coq Require Import List ZArith Bool Lia PeanoNat.
From Verif Require Import Num Arr Util SlipGeom Eos Hard Elast Evptn MatModel P_Batch P_Batch2.
Import ListNotations.

Section B.
  Context {T : Type} {N : Num T}.

  Lemma nth_error_get (l : list T) k : nth_error l k = None -> get l k = nundef.
  Proof. intros H. unfold get. apply nth_overflow. now apply nth_error_None. Qed.
  Lemma nth_error_get_eq (l l' : list T) k : nth_error l k = nth_error l' k -> get l k = get l' k.
  Proof.
    intros H. destruct (nth_error l k) eqn:E.
    - unfold get. rewrite (nth_error_nth l k nundef E). symmetry in H. now rewrite (nth_error_nth l' k nundef H).
    - rewrite (nth_error_get l k E). symmetry in H. now rewrite (nth_error_get l' k H).
  Qed.
  Lemma sub_ext (l l' : list T) : forall n j, (forall k, (j <= k < j + n)%nat -> nth_error l k = nth_error l' k) ->
    sub l j n = sub l' j n.
  Proof.
    intros n j H. apply list_nth_error_ext. intros k. unfold sub.
    assert (G : forall (x : list T), nth_error (firstn n (skipn j x)) k = if Nat.ltb k n then nth_error x (j + k) else None).
    { intros x. destruct (Nat.ltb_spec k n) as [Hk|Hk].
      - clear H. revert x n k Hk. induction j as [|j IH]; intros x n k Hk.
        + cbn [skipn plus]. revert n k Hk. induction x as [|y x IHx]; intros [|n] [|k] Hk; cbn; try lia; auto.
          apply IHx. lia.
        + destruct x as [|y x]; cbn [skipn plus].
          * destruct n; destruct k; reflexivity.
          * cbn [nth_error]. now apply IH.
      - apply nth_error_None. rewrite firstn_length. lia. }
    rewrite !G. destruct (Nat.ltb_spec k n); [|reflexivity]. apply H. lia.
  Qed.

  Section P.
  Variables (solver : Solver T) (lu : LUSolver T) (mat : Mat T) (dt tol : T).
  Variables (st : list nat) (nH ns : nat) (mtan : bool) (n : nat).

  (** stride of each buffer *)
  Definition stride_of (a : arr) : nat :=
    match a with
    | AD => gstride st st_def_rate | AW => gstride st st_spin | AV => gstride st st_vol_ratio
    | AE => gstride st st_int_eng | AS => gstride st st_stress | AH => gstride st st_history
    | AT => gstride st st_tkelv | AB => gstride st st_sdd | AM => 36%nat
    end.
  (** values per point of each buffer *)
  Definition per_point (a : arr) : nat :=
    match a with AD => 7 | AW => 3 | AV => 4 | AE => 1 | AS => 7 | AH => numHist nH ns | AT => 1 | AB => 2
               | AM => if mtan then 36 else 0 end.
  Definition strides_ok : Prop := forall a, (per_point a <= stride_of a)%nat.
  (** no unsigned wrap in the eight strided offsets, no int overflow in the tangent offset *)
  Definition no_wrap : Prop :=
    (forall a, a <> AM -> (Z.of_nat (stride_of a) * (Z.of_nat n - 1) < 2 ^ 32)%Z) /\
    (mtan = true -> (36 * (Z.of_nat n - 1) <= 2147483647)%Z).
  Definition buffers_ok (m : Mem T) : Prop :=
    forall a i, (i < n)%nat -> (0 < per_point a)%nat -> (stride_of a * i + per_point a <= length (m a))%nat.

  Hypothesis HST : strides_ok.
  Hypothesis HNW : no_wrap.

  Lemma addr_nowrap s i : (Z.of_nat s * Z.of_nat i < 2 ^ 32)%Z -> addr s i = (s * i)%nat.
  Proof. intros H. unfold addr. rewrite Z.mod_small by lia. lia. Qed.

  Lemma offs_eq a i : (i < n)%nat -> offs st a i = (stride_of a * i)%nat.
  Proof.
    intros Hi. destruct HNW as [H _].
    assert (G : forall b, b <> AM -> addr (stride_of b) i = (stride_of b * i)%nat).
    { intros b Hb. specialize (H b Hb). apply addr_nowrap. nia. }
    destruct a; cbn [offs stride_of]; try reflexivity; try (match goal with |- addr (gstride st ?k) i = _ =>
      first [apply (G AD) | apply (G AW) | apply (G AV) | apply (G AE) | apply (G AS) | apply (G AH) | apply (G AT) | apply (G AB)]; discriminate end).
  Qed.
  Lemma width_eq a : width nH ns mtan a = per_point a.
  Proof. destruct a; reflexivity. Qed.

  Lemma inb_ok m i : buffers_ok m -> (i < n)%nat -> inb st nH ns mtan m i.
  Proof.
    intros B Hi. split.
    - intros a. rewrite offs_eq, width_eq by assumption. now apply B.
    - intros E. destruct HNW as [_ H]. specialize (H E). lia.
  Qed.

  (** regions, restricted to the points of the batch *)
  Definition ownN (i : nat) : region := fun a j => (i < n)%nat /\ own st nH ns mtan i a j.
  Lemma ownN_w i : own_writable (ownN i).
  Proof. intros a j [_ [H _]]. exact H. Qed.
  Lemma ownN_dec i a j : ownN i a j \/ ~ ownN i a j.
  Proof.
    unfold ownN. destruct (le_lt_dec n i); [right; lia|].
    destruct (own_dec st nH ns mtan i a j); [left; auto | right; tauto].
  Qed.
  Lemma ownN_disj k l a j : k <> l -> ownN k a j -> ownN l a j -> False.
  Proof.
    intros Hkl [Hk [_ H1]] [Hl [_ H2]].
    rewrite offs_eq, width_eq in H1, H2 by assumption. specialize (HST a). nia.
  Qed.

  Let body := pointProg solver lu mat dt tol st nH ns mtan.
  Let rsp := resp solver lu mat dt tol st nH ns mtan.
  Let pta := pt_at st nH ns mtan.

  Lemma conf_weaken (o1 o2 : region) (p : prog T) : (forall a j, o1 a j -> o2 a j) -> conf o1 p -> conf o2 p.
  Proof.
    intros H. induction p as [o | a j k IH | a j v p IH]; cbn [conf]; [auto| |].
    - intros [[Hr|Ho] Hk]; split; auto.
    - intros [Ho Hp]. auto.
  Qed.
  Lemma bodyN_conf i : (i < n)%nat -> conf (ownN i) (body i).
  Proof. intros Hi. apply (conf_weaken (own st nH ns mtan i)); [intros a j H; split; assumption | apply body_conf]. Qed.

  Lemma cell_agree (m m' : Mem T) i : (i < n)%nat -> agree (ownN i) m m' -> forall a, cell st nH ns mtan m a i = cell st nH ns mtan m' a i.
  Proof.
    intros Hi A a. apply sub_ext. intros k Hk. apply A.
    assert (D : ro a \/ ~ ro a).
    { unfold ro. destruct a; try (left; tauto); right; intros [|[|]]; discriminate. }
    destruct D; [now left|]. right. split; [assumption|]. split; assumption.
  Qed.
  Lemma pt_agree (m m' : Mem T) i : (i < n)%nat -> agree (ownN i) m m' -> pta m i = pta m' i.
  Proof. intros Hi A. unfold pta, pt_at. now rewrite !(cell_agree m m' i Hi A). Qed.
  Lemma rsp_agree (m m' : Mem T) i : (i < n)%nat -> agree (ownN i) m m' -> rsp m i = rsp m' i.
  Proof.
    intros Hi A. unfold rsp, resp. rewrite !(cell_agree m m' i Hi A).
    fold pta. now rewrite (pt_agree m m' i Hi A).
  Qed.

  Lemma step_frame m i j : (i < n)%nat -> (j < n)%nat -> i <> j -> agree (ownN j) (snd (exec (body i) m)) m.
  Proof.
    intros Hi Hj Hij a k Hk. apply (exec_outside (ownN i)); [now apply bodyN_conf|].
    intros Ho. destruct Hk as [Hr|Hk]; [exact (ownN_w _ _ _ Ho Hr) | exact (ownN_disj _ _ _ _ Hij Ho Hk)].
  Qed.

  Lemma buffers_exec m i : buffers_ok m -> buffers_ok (snd (exec (body i) m)).
  Proof. intros B a k Hk Hp. rewrite exec_lengths. now apply B. Qed.

  (** what a point in the batch ends with *)
  Definition point_done (m m1 : Mem T) (i : nat) : Prop := fst (rsp m i) = Done /\ pta m1 i = snd (rsp m i).

  (** cells that belong to no point of the batch keep their value *)
  Definition untouched (m m1 : Mem T) : Prop :=
    (forall a, length (m1 a) = length (m a)) /\
    forall a j, (forall i, (i < n)%nat -> ~ ownN i a j) -> nth_error (m1 a) j = nth_error (m a) j.

  Lemma seq_batch is : forall m, NoDup is -> (forall i, In i is -> (i < n)%nat) -> buffers_ok m ->
    exists o m1, runSeq body is m = (BRet o, m1) /\ untouched m m1 /\
      (forall i, (i < n)%nat -> ~ In i is -> agree (ownN i) m1 m) /\
      match o with
      | Done => forall i, In i is -> point_done m m1 i
      | _ => exists pre k post, is = pre ++ k :: post /\ fst (rsp m k) = o /\ pta m1 k = snd (rsp m k) /\
             (forall i, In i pre -> point_done m m1 i) /\ (forall i, In i post -> agree (ownN i) m1 m)
      end.
  Proof.
    induction is as [|i is IH]; intros m ND HI B.
    - exists Done, m. cbn. split; [reflexivity|]. split; [split; auto|]. split; [intros; intros a j _; reflexivity|]. contradiction.
    - assert (Hi : (i < n)%nat) by (apply HI; now left).
      inversion ND as [|x l Hni ND']; subst.
      destruct (body_exec solver lu mat dt tol st nH ns mtan i m (inb_ok m i B Hi)) as (m' & E & EP).
      fold body in E. fold rsp in E. fold rsp in EP. fold pta in EP. cbn [runSeq]. rewrite E.
      assert (Em : m' = snd (exec (body i) m)) by now rewrite E.
      assert (FR : forall j, (j < n)%nat -> j <> i -> agree (ownN j) m' m).
      { intros j Hj Hji. rewrite Em. apply step_frame; auto. }
      assert (UT : untouched m m').
      { split; [intros a; rewrite Em; apply exec_lengths|]. intros a j H. rewrite Em.
        apply (exec_outside (ownN i)); [now apply bodyN_conf | now apply H]. }
      destruct (fst (rsp m i)) eqn:Eo.
      + destruct (IH m' ND') as (o & m1 & E1 & U1 & A1 & R1).
        { intros j Hj. apply HI. now right. }
        { rewrite Em. now apply buffers_exec. }
        assert (PD : forall j, In j is -> point_done m' m1 j -> point_done m m1 j).
        { intros j Hj [P1 P2]. assert (Hj' : (j < n)%nat) by (apply HI; now right).
          assert (j <> i) by (intros ->; contradiction).
          rewrite (rsp_agree m' m j Hj' (FR j Hj' H)) in P1, P2. split; assumption. }
        assert (PI : point_done m m1 i).
        { split; [assumption|]. rewrite <- EP. apply pt_agree; [assumption|]. now apply A1. }
        exists o, m1. split; [assumption|]. split; [|split].
        * destruct UT as [U2 U3]. destruct U1 as [U4 U5]. split; [intros a; rewrite U4; apply U2|].
          intros a j H. rewrite U5 by assumption. now apply U3.
        * intros j Hj Hn a k Hk. rewrite (A1 j Hj) by (try assumption; intros Hc; apply Hn; now right).
          apply (FR j Hj); [|assumption]. intros ->. apply Hn. now left.
        * destruct o; [| destruct R1 as (pre & k & post & -> & R2 & R3 & R4 & R5) ..].
          -- intros j [<-|Hj]; [assumption|]. apply PD; auto.
          -- assert (Hk : (k < n)%nat) by (apply HI; right; apply in_or_app; right; now left).
             assert (Hki : k <> i) by (intros ->; apply Hni; apply in_or_app; right; now left).
             exists (i :: pre), k, post. split; [reflexivity|].
             rewrite <- (rsp_agree m' m k Hk (FR k Hk Hki)). split; [assumption|]. split; [assumption|]. split.
             ++ intros j [<-|Hj]; [assumption|]. apply PD; [apply in_or_app; now left|]. now apply R4.
             ++ intros j Hj a q Hq.
                assert (Hjn : (j < n)%nat) by (apply HI; right; apply in_or_app; right; now right).
                assert (Hji : j <> i) by (intros ->; apply Hni; apply in_or_app; right; now right).
                rewrite (R5 j Hj a q Hq). now apply (FR j Hjn Hji).
          -- assert (Hk : (k < n)%nat) by (apply HI; right; apply in_or_app; right; now left).
             assert (Hki : k <> i) by (intros ->; apply Hni; apply in_or_app; right; now left).
             exists (i :: pre), k, post. split; [reflexivity|].
             rewrite <- (rsp_agree m' m k Hk (FR k Hk Hki)). split; [assumption|]. split; [assumption|]. split.
             ++ intros j [<-|Hj]; [assumption|]. apply PD; [apply in_or_app; now left|]. now apply R4.
             ++ intros j Hj a q Hq.
                assert (Hjn : (j < n)%nat) by (apply HI; right; apply in_or_app; right; now right).
                assert (Hji : j <> i) by (intros ->; apply Hni; apply in_or_app; right; now right).
                rewrite (R5 j Hj a q Hq). now apply (FR j Hjn Hji).
      + exists Failed, m'. split; [reflexivity|]. split; [assumption|]. split.
        * intros j Hj Hn. apply FR; [assumption|]. intros ->. apply Hn. now left.
        * exists [], i, is. split; [reflexivity|]. split; [assumption|]. split; [assumption|]. split; [contradiction|].
          intros j Hj. apply FR; [apply HI; now right|]. intros ->. contradiction.
      + exists AssertFailed, m'. split; [reflexivity|]. split; [assumption|]. split.
        * intros j Hj Hn. apply FR; [assumption|]. intros ->. apply Hn. now left.
        * exists [], i, is. split; [reflexivity|]. split; [assumption|]. split; [assumption|]. split; [contradiction|].
          intros j Hj. apply FR; [apply HI; now right|]. intros ->. contradiction.
  Qed.

  Lemma runSeq_threads m m1 ps m2 :
    runSeq body (seq 0 n) m = (BRet Done, m1) ->
    psteps (map body (seq 0 n), m) (ps, m2) -> (forall p, In p ps -> exists o, p = Ret o) ->
    (forall p, In p ps -> p = Ret (BRet Done)) /\ forall a, m2 a = m1 a.
  Proof.
    apply (interleaving_unique ownN ownN_w ownN_disj ownN_dec).
    intros k p Hk. rewrite nth_error_map in Hk.
    destruct (nth_error (seq 0 n) k) as [i|] eqn:E; [|discriminate]. cbn in Hk. injection Hk as <-.
    assert (Hl : (k < length (seq 0 n))%nat) by (apply nth_error_Some; congruence).
    rewrite seq_length in Hl.
    rewrite (nth_error_nth' _ 0%nat) in E by (rewrite seq_length; assumption).
    rewrite seq_nth in E by assumption. injection E as <-. now apply bodyN_conf.
  Qed.
  End P.
End B.
