(** Proofs about the batched driver: footprints, independence of points, interleavings. *)
From Coq Require Import List ZArith Bool Lia PeanoNat.
From Verif Require Import Num Arr Util SlipGeom Eos Hard Elast Evptn MatModel.
Import ListNotations.

Section B.
  Context {T : Type} {N : Num T}.

  (** ** Executing loads and stores *)
  Lemma arr_eqb_eq a b : arr_eqb a b = true <-> a = b.
  Proof. destruct a, b; cbn; split; congruence. Qed.
  Lemma arr_eqb_refl a : arr_eqb a a = true.
  Proof. now apply arr_eqb_eq. Qed.
  Lemma arr_dec (a b : arr) : {a = b} + {a <> b}.
  Proof. decide equality. Qed.

  Lemma mset_same (m : Mem T) a l : mset m a l a = l.
  Proof. unfold mset. now rewrite arr_eqb_refl. Qed.
  Lemma mset_other (m : Mem T) a b l : a <> b -> mset m a l b = m b.
  Proof. intros H. unfold mset. destruct arr_eqb eqn:E; [apply arr_eqb_eq in E; congruence | reflexivity]. Qed.

  Lemma sub_S (l : list T) j n v : nth_error l j = Some v -> sub l j (S n) = v :: sub l (S j) n.
  Proof.
    unfold sub. revert j. induction l as [|x l IH]; intros [|j] H; cbn in *; try discriminate.
    - now injection H as ->.
    - rewrite (IH j H). reflexivity.
  Qed.

  Lemma exec_readL a n : forall j (k : list T -> prog T) m, (j + n <= length (m a))%nat ->
    exec (readL a j n k) m = exec (k (sub (m a) j n)) m.
  Proof.
    induction n as [|n IH]; intros j k m H; [reflexivity|].
    cbn [readL exec]. destruct (nth_error (m a) j) as [v|] eqn:E.
    - rewrite IH by lia. now rewrite (sub_S _ _ _ _ E).
    - apply nth_error_None in E. lia.
  Qed.
  Lemma exec_readL_oob a n : forall j (k : list T -> prog T) m, (length (m a) < j + n)%nat -> (0 < n)%nat ->
    exec (readL a j n k) m = (BUndef, m).
  Proof.
    induction n as [|n IH]; intros j k m H Hn; [lia|].
    cbn [readL exec]. destruct (nth_error (m a) j) as [v|] eqn:E; [|reflexivity].
    assert (j < length (m a))%nat by (apply nth_error_Some; congruence).
    apply IH; lia.
  Qed.

  Lemma exec_writeL a l : forall j (p : prog T) m, (j + length l <= length (m a))%nat ->
    exists m', exec (writeL a j l p) m = exec p m' /\ m' a = updl (m a) j l /\ forall b, b <> a -> m' b = m b.
  Proof.
    induction l as [|x l IH]; intros j p m H; cbn [writeL exec length updl] in *.
    - exists m. auto.
    - replace (Nat.ltb j (length (m a))) with true by (symmetry; apply Nat.ltb_lt; lia).
      destruct (IH (S j) p (mset m a (upd (m a) j x))) as (m' & E & E1 & E2).
      { rewrite mset_same, upd_length. lia. }
      exists m'. split; [exact E|]. split; [now rewrite E1, mset_same|].
      intros b Hb. rewrite E2 by assumption. apply mset_other. congruence.
  Qed.

  Lemma list_nth_error_ext {A} (l : list A) : forall l', (forall j, nth_error l j = nth_error l' j) -> l = l'.
  Proof.
    induction l as [|x l IH]; intros [|y l'] E; auto.
    - specialize (E 0%nat). discriminate.
    - specialize (E 0%nat). discriminate.
    - pose proof (E 0%nat) as E0. cbn in E0. injection E0 as <-. f_equal. apply IH. intros j. apply (E (S j)).
  Qed.

  (** ** Confined programs *)
  Definition region := arr -> nat -> Prop.
  Definition ro (a : arr) : Prop := a = AD \/ a = AW \/ a = AV.
  Fixpoint conf (own : region) (p : prog T) : Prop :=
    match p with
    | Ret _ => True
    | Read a j k => (ro a \/ own a j) /\ forall v, conf own (k v)
    | Write a j v p' => own a j /\ conf own p'
    end.
  Definition own_writable (own : region) : Prop := forall a j, own a j -> ~ ro a.

  Lemma conf_readL (own : region) a n : forall j k, (forall i, (j <= i < j + n)%nat -> ro a \/ own a i) ->
    (forall l, length l = n -> conf own (k l)) -> conf own (readL a j n k).
  Proof.
    induction n as [|n IH]; intros j k H Hk; cbn [readL conf]; [now apply Hk|].
    split; [apply H; lia|]. intros v. apply IH.
    - intros i Hi. apply H. lia.
    - intros l Hl. apply Hk. cbn. lia.
  Qed.
  Lemma conf_writeL (own : region) a (l : list T) : forall j p, (forall i, (j <= i < j + length l)%nat -> own a i) ->
    conf own p -> conf own (writeL a j l p).
  Proof.
    induction l as [|x l IH]; intros j p H Hp; cbn [writeL conf length] in *; [assumption|].
    split; [apply H; lia|]. apply IH; [|assumption]. intros i Hi. apply H. lia.
  Qed.

  Lemma nth_error_upd_other (l : list T) : forall i j v, i <> j -> nth_error (upd l i v) j = nth_error l j.
  Proof. induction l as [|x l IH]; intros [|i] [|j] v H; cbn; try congruence; auto. Qed.
  Lemma nth_error_upd_same (l : list T) : forall i v, (i < length l)%nat -> nth_error (upd l i v) i = Some v.
  Proof. induction l as [|x l IH]; intros [|i] v H; cbn in *; try lia; auto. apply IH. lia. Qed.

  Lemma exec_lengths (p : prog T) : forall m a, length (snd (exec p m) a) = length (m a).
  Proof.
    induction p as [o | a j k IH | a j v p IH]; intros m b; cbn [exec]; [reflexivity| |].
    - destruct (nth_error (m a) j); [apply IH | reflexivity].
    - destruct Nat.ltb; [|reflexivity]. rewrite IH. unfold mset.
      destruct arr_eqb eqn:E; [|reflexivity]. apply arr_eqb_eq in E. subst. apply upd_length.
  Qed.

  (** cells outside the region keep their value *)
  Lemma exec_outside own (p : prog T) : conf own p -> forall m a j, ~ own a j ->
    nth_error (snd (exec p m) a) j = nth_error (m a) j.
  Proof.
    induction p as [o | a j k IH | a j v p IH]; intros C m b i Hb; cbn [exec conf] in *; [reflexivity| |].
    - destruct (nth_error (m a) j); [|reflexivity]. apply IH; [apply C | assumption].
    - destruct Nat.ltb; [|reflexivity]. rewrite IH by (try apply C; assumption).
      destruct (arr_dec a b) as [->|Hne].
      + rewrite mset_same. apply nth_error_upd_other. intros ->. apply Hb, C.
      + now rewrite mset_other.
  Qed.

  (** two memories that agree where a program may look *)
  Definition agree (own : region) (m m' : Mem T) : Prop :=
    forall a j, ro a \/ own a j -> nth_error (m a) j = nth_error (m' a) j.

  Lemma agree_ltb own m m' a j : agree own m m' -> own a j ->
    Nat.ltb j (length (m a)) = Nat.ltb j (length (m' a)).
  Proof.
    intros A H. specialize (A a j (or_intror H)).
    destruct (Nat.ltb j (length (m a))) eqn:E1; destruct (Nat.ltb j (length (m' a))) eqn:E2; auto.
    - apply Nat.ltb_lt in E1. apply Nat.ltb_ge in E2. apply nth_error_Some in E1. apply nth_error_None in E2. congruence.
    - apply Nat.ltb_ge in E1. apply Nat.ltb_lt in E2. apply nth_error_Some in E2. apply nth_error_None in E1. congruence.
  Qed.

  Lemma agree_upd own m m' a j v : own_writable own -> agree own m m' -> own a j -> (j < length (m a))%nat ->
    agree own (mset m a (upd (m a) j v)) (mset m' a (upd (m' a) j v)).
  Proof.
    intros W A H L b i Hb.
    assert (L' : (j < length (m' a))%nat).
    { apply Nat.ltb_lt. rewrite <- (agree_ltb own m m' a j A H). now apply Nat.ltb_lt. }
    destruct (arr_dec a b) as [->|Hne].
    - rewrite !mset_same. destruct (Nat.eq_dec j i) as [->|Hij].
      + rewrite !nth_error_upd_same by assumption. reflexivity.
      + rewrite !nth_error_upd_other by assumption. now apply A.
    - rewrite !mset_other by assumption. now apply A.
  Qed.

  Lemma exec_agree own (p : prog T) : own_writable own -> conf own p -> forall m m', agree own m m' ->
    fst (exec p m) = fst (exec p m') /\ agree own (snd (exec p m)) (snd (exec p m')).
  Proof.
    intros W. induction p as [o | a j k IH | a j v p IH]; intros C m m' A; cbn [exec conf] in *; [auto| |].
    - rewrite (A a j (proj1 C)). destruct (nth_error (m' a) j); [|auto]. apply IH; [apply C | assumption].
    - rewrite <- (agree_ltb own m m' a j A (proj1 C)). destruct (Nat.ltb j (length (m a))) eqn:E; [|auto].
      apply Nat.ltb_lt in E. apply IH; [apply C|]. apply agree_upd; [assumption|assumption|apply C|assumption].
  Qed.

  (** ** Interleaved execution of several threads *)
  Inductive pstep : list (prog T) * Mem T -> list (prog T) * Mem T -> Prop :=
  | ps_read l a j k r m v : nth_error (m a) j = Some v ->
      pstep (l ++ Read a j k :: r, m) (l ++ k v :: r, m)
  | ps_read_oob l a j k r m : nth_error (m a) j = None ->
      pstep (l ++ Read a j k :: r, m) (l ++ Ret BUndef :: r, m)
  | ps_write l a j v p r m : (j < length (m a))%nat ->
      pstep (l ++ Write a j v p :: r, m) (l ++ p :: r, mset m a (upd (m a) j v))
  | ps_write_oob l a j v p r m : (length (m a) <= j)%nat ->
      pstep (l ++ Write a j v p :: r, m) (l ++ Ret BUndef :: r, m).
  Inductive psteps : list (prog T) * Mem T -> list (prog T) * Mem T -> Prop :=
  | psteps_refl s : psteps s s
  | psteps_step s1 s2 s3 : pstep s1 s2 -> psteps s2 s3 -> psteps s1 s3.

  (** Threads with regions [own k], pairwise disjoint. *)
  Variable own : nat -> region.
  Hypothesis own_w : forall k, own_writable (own k).
  Hypothesis own_disj : forall k l a j, k <> l -> own k a j -> own l a j -> False.

  Hypothesis own_dec : forall k a j, own k a j \/ ~ own k a j.
  Lemma own_some_dec n a j : (exists k, (k < n)%nat /\ own k a j) \/ ~ (exists k, (k < n)%nat /\ own k a j).
  Proof.
    induction n as [|n IH].
    - right. intros (k & Hk & _). lia.
    - destruct IH as [(k & Hk & Ho)|IH]; [left; exists k; split; [lia|assumption]|].
      destruct (own_dec n a j) as [Ho|Ho]; [left; exists n; split; [lia|assumption]|].
      right. intros (k & Hk & Hk'). destruct (Nat.eq_dec k n) as [->|Hne]; [auto|].
      apply IH. exists k. split; [lia|assumption].
  Qed.

  Definition pool_conf (ps : list (prog T)) : Prop := forall k p, nth_error ps k = Some p -> conf (own k) p.

  Lemma nth_mid {A} (l r : list A) x y k : nth_error (l ++ x :: r) k =
    if Nat.eqb k (length l) then Some x else nth_error (l ++ y :: r) k.
  Proof.
    destruct (Nat.eqb_spec k (length l)) as [->|H].
    - rewrite nth_error_app2, Nat.sub_diag by lia. reflexivity.
    - destruct (Nat.lt_ge_cases k (length l)).
      + now rewrite !nth_error_app1 by assumption.
      + rewrite !nth_error_app2 by assumption. destruct (k - length l)%nat eqn:E; [lia|]. reflexivity.
  Qed.
  Lemma nth_mid_same {A} (l r : list A) x : nth_error (l ++ x :: r) (length l) = Some x.
  Proof. rewrite nth_error_app2, Nat.sub_diag by lia. reflexivity. Qed.

  (** What a step preserves: for each thread, the result it would have if it ran alone from here. *)
  Lemma pstep_inv s s' : pstep s s' -> pool_conf (fst s) ->
    pool_conf (fst s') /\ length (fst s') = length (fst s) /\
    (forall a, length (snd s' a) = length (snd s a)) /\
    (forall a j, (forall k, (k < length (fst s))%nat -> ~ own k a j) -> nth_error (snd s' a) j = nth_error (snd s a) j) /\
    forall k p p', nth_error (fst s) k = Some p -> nth_error (fst s') k = Some p' ->
      fst (exec p' (snd s')) = fst (exec p (snd s)) /\
      agree (own k) (snd (exec p' (snd s'))) (snd (exec p (snd s))).
  Proof.
    intros St PC.
    assert (G : forall l (x y : prog T) r m m', fst s = l ++ x :: r -> snd s = m -> fst s' = l ++ y :: r -> snd s' = m' ->
      conf (own (length l)) y -> fst (exec y m') = fst (exec x m) -> snd (exec y m') = snd (exec x m) ->
      (forall a, length (m' a) = length (m a)) ->
      (forall a j, ~ own (length l) a j -> nth_error (m' a) j = nth_error (m a) j) ->
      pool_conf (fst s') /\ length (fst s') = length (fst s) /\
      (forall a, length (snd s' a) = length (snd s a)) /\
      (forall a j, (forall k, (k < length (fst s))%nat -> ~ own k a j) -> nth_error (snd s' a) j = nth_error (snd s a) j) /\
      forall k p p', nth_error (fst s) k = Some p -> nth_error (fst s') k = Some p' ->
        fst (exec p' (snd s')) = fst (exec p (snd s)) /\
        agree (own k) (snd (exec p' (snd s'))) (snd (exec p (snd s)))).
    { intros l x y r m m' E1 E2 E3 E4 Cy F1 F2 HL HO. rewrite E1, E2, E3, E4 in *.
      split; [|split; [|split; [|split]]].
      - intros k p H. rewrite (nth_mid l r y x) in H. destruct (Nat.eqb_spec k (length l)) as [->|Hk].
        + now injection H as <-.
        + now apply PC.
      - rewrite !app_length. reflexivity.
      - exact HL.
      - intros a j H. apply HO. apply H. rewrite app_length. cbn. lia.
      - intros k p p' H H'. rewrite (nth_mid l r y x) in H'. destruct (Nat.eqb_spec k (length l)) as [->|Hk].
        + injection H' as <-. rewrite nth_mid_same in H. injection H as <-. split; [assumption|].
          rewrite F2. intros a j _. reflexivity.
        + rewrite H in H'. injection H' as <-.
          apply exec_agree; [apply own_w | now apply PC |].
          intros a j Hj. apply HO. intros Ho. destruct Hj as [Hr|Hk'].
          * exact (own_w _ _ _ Ho Hr).
          * exact (own_disj _ _ _ _ Hk Hk' Ho). }
    inversion St as [l a j k r m v E | l a j k r m E | l a j v p r m E | l a j v p r m E]; subst; cbn [fst snd] in *.
    - eapply (G l (Read a j k) (k v) r m m); try reflexivity; auto.
      + specialize (PC (length l) _ (nth_mid_same _ _ _)). apply PC.
      + cbn [exec]. now rewrite E.
      + cbn [exec]. now rewrite E.
    - eapply (G l (Read a j k) (Ret BUndef) r m m); try reflexivity; auto; cbn [exec conf]; try rewrite E; auto.
    - specialize (PC (length l) _ (nth_mid_same _ _ _)) as PC'. cbn [conf] in PC'.
      eapply (G l (Write a j v p) p r m (mset m a (upd (m a) j v))); try reflexivity; auto.
      + apply PC'.
      + cbn [exec]. replace (Nat.ltb j (length (m a))) with true by (symmetry; now apply Nat.ltb_lt). reflexivity.
      + cbn [exec]. replace (Nat.ltb j (length (m a))) with true by (symmetry; now apply Nat.ltb_lt). reflexivity.
      + intros b. unfold mset. destruct arr_eqb eqn:Eb; [|reflexivity]. apply arr_eqb_eq in Eb. subst. apply upd_length.
      + intros b i Hi. destruct (arr_dec a b) as [->|Hne]; [|now rewrite mset_other].
        rewrite mset_same. apply nth_error_upd_other. intros ->. apply Hi, PC'.
    - eapply (G l (Write a j v p) (Ret BUndef) r m m); try reflexivity; auto; cbn [exec conf];
        replace (Nat.ltb j (length (m a))) with false by (symmetry; now apply Nat.ltb_ge); auto.
  Qed.

  Lemma psteps_inv s s' : psteps s s' -> pool_conf (fst s) ->
    pool_conf (fst s') /\ length (fst s') = length (fst s) /\
    (forall a, length (snd s' a) = length (snd s a)) /\
    (forall a j, (forall k, (k < length (fst s))%nat -> ~ own k a j) -> nth_error (snd s' a) j = nth_error (snd s a) j) /\
    forall k p p', nth_error (fst s) k = Some p -> nth_error (fst s') k = Some p' ->
      fst (exec p' (snd s')) = fst (exec p (snd s)) /\
      agree (own k) (snd (exec p' (snd s'))) (snd (exec p (snd s))).
  Proof.
    induction 1 as [s | s1 s2 s3 St Sts IH]; intros PC.
    - repeat split; auto; intros; replace p' with p by congruence; [reflexivity|]. intros a j _; reflexivity.
    - destruct (pstep_inv _ _ St PC) as (PC2 & L2 & ML2 & O2 & A2).
      destruct (IH PC2) as (PC3 & L3 & ML3 & O3 & A3).
      split; [assumption|]. split; [congruence|]. split; [intros a; rewrite ML3; apply ML2|]. split.
      { intros a j H. rewrite O3; [now apply O2|]. intros k Hk. apply H. lia. }
      intros k p p' H H0. destruct (nth_error (fst s2) k) as [q|] eqn:Eq.
      + destruct (A2 k p q H Eq) as [B1 B2]. destruct (A3 k q p' Eq H0) as [C1 C2].
        split; [congruence|]. intros a j Hj. rewrite C2 by assumption. now apply B2.
      + apply nth_error_None in Eq. assert (nth_error (fst s1) k <> None) as Hn by congruence.
        apply nth_error_Some in Hn. lia.
  Qed.

  (** ** Sequential execution is one particular interleaving *)
  Lemma psteps_trans s1 s2 s3 : psteps s1 s2 -> psteps s2 s3 -> psteps s1 s3.
  Proof. induction 1; [auto|]. intros. econstructor; eauto. Qed.

  Lemma exec_psteps p : forall l r m,
    psteps (l ++ p :: r, m) (l ++ Ret (fst (exec p m)) :: r, snd (exec p m)).
  Proof.
    induction p as [o | a j k IH | a j v p IH]; intros l r m; cbn [exec].
    - constructor.
    - destruct (nth_error (m a) j) as [v|] eqn:E.
      + eapply psteps_step; [exact (ps_read l a j k r m v E)|]. apply IH.
      + eapply psteps_step; [exact (ps_read_oob l a j k r m E)|]. constructor.
    - destruct (Nat.ltb j (length (m a))) eqn:E.
      + apply Nat.ltb_lt in E. eapply psteps_step; [exact (ps_write l a j v p r m E)|]. apply IH.
      + apply Nat.ltb_ge in E. eapply psteps_step; [exact (ps_write_oob l a j v p r m E)|]. constructor.
  Qed.

  Lemma runSeq_psteps (body : nat -> prog T) is : forall l m m',
    runSeq body is m = (BRet Done, m') ->
    psteps (l ++ map body is, m) (l ++ map (fun _ => Ret (BRet Done)) is, m').
  Proof.
    induction is as [|i is IH]; intros l m m' H; cbn [runSeq map] in *.
    - injection H as ->. constructor.
    - destruct (exec (body i) m) as [o m1] eqn:E.
      destruct o as [[]|]; try discriminate.
      eapply psteps_trans.
      + apply (exec_psteps (body i) l (map body is) m).
      + rewrite E. cbn [fst snd]. specialize (IH (l ++ [Ret (BRet Done)]) m1 m' H).
        rewrite <- !app_assoc in IH. exact IH.
  Qed.

  (** Any interleaving that has run all threads to the end leaves the memory of the sequential loop. *)
  Lemma interleaving_unique (body : nat -> prog T) is m m1 ps m2 :
    pool_conf (map body is) ->
    runSeq body is m = (BRet Done, m1) ->
    psteps (map body is, m) (ps, m2) -> (forall p, In p ps -> exists o, p = Ret o) ->
    (forall p, In p ps -> p = Ret (BRet Done)) /\ forall a, m2 a = m1 a.
  Proof.
    intros PC HS HP HF.
    pose proof (runSeq_psteps body is [] m m1 HS) as HS'. cbn [app] in HS'.
    destruct (psteps_inv _ _ HP PC) as (_ & L2 & ML2 & O2 & A2). cbn [fst snd] in *.
    destruct (psteps_inv _ _ HS' PC) as (_ & L1 & ML1 & O1 & A1). cbn [fst snd] in *.
    assert (K : forall k, (k < length (map body is))%nat -> exists p, nth_error (map body is) k = Some p /\
              nth_error ps k = Some (Ret (BRet Done)) /\ agree (own k) m2 m1).
    { intros k Hk. destruct (nth_error (map body is) k) as [p|] eqn:Ep; [|apply nth_error_None in Ep; lia].
      exists p. split; [reflexivity|].
      destruct (nth_error ps k) as [q|] eqn:Eq; [|apply nth_error_None in Eq; lia].
      destruct (HF q (nth_error_In _ _ Eq)) as [o ->].
      destruct (A2 k p _ Ep Eq) as [B1 B2]. cbn [exec fst snd] in B1, B2.
      assert (E1 : nth_error (map (fun _ : nat => Ret (BRet Done)) is) k = Some (@Ret T (BRet Done))).
      { rewrite map_length in Hk. rewrite nth_error_map.
        destruct (nth_error is k) eqn:Ei; [reflexivity|]. apply nth_error_None in Ei. lia. }
      destruct (A1 k p _ Ep E1) as [C1 C2]. cbn [exec fst snd] in C1, C2.
      split; [congruence|]. intros a j Hj. rewrite B2, C2 by assumption. reflexivity. }
    split.
    - intros p Hp. apply In_nth_error in Hp. destruct Hp as [k Hk].
      assert (Hl : (k < length (map body is))%nat). { rewrite <- L2. apply nth_error_Some. congruence. }
      destruct (K k Hl) as (_ & _ & E & _). congruence.
    - intros a.
      assert (E : forall j, nth_error (m2 a) j = nth_error (m1 a) j).
      { intros j.
        destruct (own_some_dec (length (map body is)) a j) as [[k [Hk Ho]]|Hn].
        - destruct (K k Hk) as (_ & _ & _ & Ag). apply Ag. now right.
        - rewrite O2, O1; [reflexivity| |]; intros k Hk Ho; apply Hn; exists k; auto. }
      apply list_nth_error_ext, E.
  Qed.
End B.
