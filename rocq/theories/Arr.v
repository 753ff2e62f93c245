(** Facts about the array combinators of Num.v, for any scalar type. *)
From Coq Require Import List ZArith Bool Lia PeanoNat.
From Verif Require Import Num.
Import ListNotations.

Section ArrFacts.
  Context {T : Type} {N : Num T}.

  Lemma tab_length n (f : nat -> T) : length (tab n f) = n.
  Proof. unfold tab. now rewrite map_length, seq_length. Qed.

  Lemma get_tab n (f : nat -> T) i : (i < n)%nat -> get (tab n f) i = f i.
  Proof.
    intros H. unfold get, tab.
    rewrite nth_indep with (d' := f 0%nat) by now rewrite map_length, seq_length.
    rewrite map_nth, seq_nth by assumption. reflexivity.
  Qed.

  Lemma tab_ext n (f g : nat -> T) : (forall i, (i < n)%nat -> f i = g i) -> tab n f = tab n g.
  Proof.
    intros H. unfold tab. apply map_ext_in. intros a Ha. apply in_seq in Ha. apply H. lia.
  Qed.

  Lemma list_tab (l : list T) n : length l = n -> l = tab n (get l).
  Proof.
    intros H. apply nth_ext with (d := nundef) (d' := nundef).
    - now rewrite tab_length.
    - intros i Hi. change (nth i (tab n (get l)) nundef) with (get (tab n (get l)) i).
      rewrite get_tab by lia. reflexivity.
  Qed.

  Lemma list_get_ext (a b : list T) :
    length a = length b -> (forall i, (i < length a)%nat -> get a i = get b i) -> a = b.
  Proof. intros H1 H2. apply nth_ext with (d := nundef) (d' := nundef); auto. Qed.

  Lemma tab2_length n m (f : nat -> nat -> T) : length (tab2 n m f) = (n * m)%nat.
  Proof.
    unfold tab2.
    enough (G : forall s, length (flat_map (fun i => map (f i) (seq 0 m)) (seq s n)) = (n * m)%nat) by apply G.
    induction n as [|n IH]; intros s; [reflexivity|]. cbn [seq flat_map].
    rewrite app_length, map_length, seq_length, IH. reflexivity.
  Qed.

  Lemma nth_flat_rows (m : nat) (f : nat -> nat -> T) d : forall n s i j, (i < n)%nat -> (j < m)%nat ->
    nth (i * m + j) (flat_map (fun i => map (f i) (seq 0 m)) (seq s n)) d = f (s + i)%nat j.
  Proof.
    induction n as [|n IH]; intros s i j Hi Hj; [lia|].
    cbn [seq flat_map]. destruct i as [|i].
    - cbn [Nat.mul Nat.add].
      rewrite app_nth1 by (rewrite map_length, seq_length; lia).
      rewrite nth_indep with (d' := f s 0%nat) by (rewrite map_length, seq_length; lia).
      rewrite map_nth, seq_nth by lia. f_equal; lia.
    - rewrite app_nth2; rewrite map_length, seq_length; [|nia].
      replace (S i * m + j - m)%nat with (i * m + j)%nat by nia.
      rewrite IH by lia. f_equal; lia.
  Qed.

  Lemma get2_tab2 n m (f : nat -> nat -> T) i j :
    (i < n)%nat -> (j < m)%nat -> get2 m (tab2 n m f) i j = f i j.
  Proof. intros Hi Hj. unfold get2, get, tab2. rewrite nth_flat_rows by assumption. reflexivity. Qed.

  Lemma tab2_ext n m (f g : nat -> nat -> T) :
    (forall i j, (i < n)%nat -> (j < m)%nat -> f i j = g i j) -> tab2 n m f = tab2 n m g.
  Proof.
    intros H. unfold tab2. rewrite !flat_map_concat_map. f_equal.
    apply map_ext_in. intros a Ha. apply in_seq in Ha.
    apply map_ext_in. intros b Hb. apply in_seq in Hb. apply H; lia.
  Qed.

  Lemma sum_ext n (f g : nat -> T) : (forall i, (i < n)%nat -> f i = g i) -> sum n f = sum n g.
  Proof.
    intros H. unfold sum.
    assert (G : forall l a, (forall i, In i l -> f i = g i) ->
      fold_left (fun s i => nadd s (f i)) l a = fold_left (fun s i => nadd s (g i)) l a).
    { induction l as [|x l IH]; intros a Hl; cbn; [reflexivity|].
      rewrite (Hl x) by now left. apply IH. intros i Hi. apply Hl. now right. }
    apply G. intros i Hi. apply in_seq in Hi. apply H. lia.
  Qed.

  Lemma sum_S n (f : nat -> T) : sum (S n) f = nadd (sum n f) (f n).
  Proof. unfold sum. rewrite seq_S, fold_left_app. reflexivity. Qed.

  Lemma sum_0 (f : nat -> T) : sum 0 f = nZ 0.
  Proof. reflexivity. Qed.

  Lemma get_app1 (a b : list T) i : (i < length a)%nat -> get (a ++ b) i = get a i.
  Proof. intros. unfold get. now apply app_nth1. Qed.
  Lemma get_app2 (a b : list T) i : (length a <= i)%nat -> get (a ++ b) i = get b (i - length a).
  Proof. intros. unfold get. now apply app_nth2. Qed.

  Lemma upd_length (a : list T) : forall i v, length (upd a i v) = length a.
  Proof. induction a as [|x a IH]; intros [|i] v; cbn; auto. Qed.
  Lemma get_upd_same (a : list T) : forall i v, (i < length a)%nat -> get (upd a i v) i = v.
  Proof.
    unfold get. induction a as [|x a IH]; intros [|i] v H; cbn in *; try lia; auto.
    apply IH. lia.
  Qed.
  Lemma get_upd_other (a : list T) : forall i j v, i <> j -> get (upd a i v) j = get a j.
  Proof.
    unfold get. induction a as [|x a IH]; intros [|i] [|j] v H; cbn; try congruence; auto.
  Qed.

  Lemma updl_length (v : list T) : forall a i, length (updl a i v) = length a.
  Proof. induction v as [|x v IH]; intros a i; cbn; [reflexivity|]. now rewrite IH, upd_length. Qed.
  Lemma get_updl_out (v : list T) : forall a i j, (j < i \/ i + length v <= j)%nat ->
    get (updl a i v) j = get a j.
  Proof.
    induction v as [|x v IH]; intros a i j H; cbn [updl length] in *; [reflexivity|].
    rewrite IH by lia. apply get_upd_other. lia.
  Qed.
  Lemma get_updl_in (v : list T) : forall a i j, (i <= j)%nat -> (j < i + length v)%nat -> (j < length a)%nat ->
    get (updl a i v) j = get v (j - i).
  Proof.
    induction v as [|x v IH]; intros a i j H1 H2 H3; cbn [updl length] in *; [lia|].
    destruct (Nat.eq_dec i j) as [->|Hne].
    - rewrite get_updl_out by lia. rewrite get_upd_same by assumption.
      replace (j - j)%nat with 0%nat by lia. reflexivity.
    - rewrite IH by (try rewrite upd_length; lia).
      replace (j - i)%nat with (S (j - S i)) by lia. reflexivity.
  Qed.

  Lemma sub_length (a : list T) i n : (i + n <= length a)%nat -> length (sub a i n) = n.
  Proof. intros. unfold sub. rewrite firstn_length, skipn_length. lia. Qed.
  Lemma nth_skipn' (a : list T) d : forall i j, nth j (skipn i a) d = nth (i + j) a d.
  Proof.
    induction a as [|x a IH]; intros [|i] j; cbn; auto.
    - destruct j; reflexivity.
  Qed.
  Lemma nth_firstn' (a : list T) d : forall n j, (j < n)%nat -> nth j (firstn n a) d = nth j a d.
  Proof.
    induction a as [|x a IH]; intros [|n] [|j] H; cbn; try lia; auto. apply IH. lia.
  Qed.
  Lemma get_sub (a : list T) i n j : (j < n)%nat -> get (sub a i n) j = get a (i + j).
  Proof. intros. unfold get, sub. rewrite nth_firstn' by assumption. apply nth_skipn'. Qed.

  Lemma sub_tab (a : list T) i n : (i + n <= length a)%nat -> sub a i n = tab n (fun k => get a (i + k)).
  Proof.
    intros H. rewrite (list_tab (sub a i n) n) by now apply sub_length.
    apply tab_ext. intros k Hk. now apply get_sub.
  Qed.

  Lemma sub_updl_same (v a : list T) i : (i + length v <= length a)%nat ->
    sub (updl a i v) i (length v) = v.
  Proof.
    intros H. apply list_get_ext.
    - rewrite sub_length; [reflexivity | rewrite updl_length; lia].
    - intros j Hj. rewrite sub_length in Hj by (rewrite updl_length; lia).
      rewrite get_sub by assumption. rewrite get_updl_in by lia. f_equal. lia.
  Qed.
  Lemma sub_updl_other (v a : list T) i j n :
    (i + length v <= j \/ j + n <= i)%nat -> (j + n <= length a)%nat ->
    sub (updl a i v) j n = sub a j n.
  Proof.
    intros H Hn. apply list_get_ext.
    - rewrite !sub_length by (rewrite ?updl_length; lia). reflexivity.
    - intros k Hk. rewrite sub_length in Hk by (rewrite updl_length; lia).
      rewrite !get_sub by assumption. apply get_updl_out. lia.
  Qed.
  Lemma upd_updl1 (a : list T) i v : upd a i v = updl a i [v].
  Proof. reflexivity. Qed.
End ArrFacts.

(** Turn a list of known length into its explicit elements. *)
Ltac explode l :=
  let rec go l :=
    lazymatch goal with
    | H : length l = O |- _ => apply length_zero_iff_nil in H; subst l
    | H : length l = S _ |- _ =>
        let x := fresh "x" in let r := fresh "r" in
        destruct l as [|x r]; [discriminate H | cbn [length] in H; apply eq_add_S in H; go r]
    end in go l.
