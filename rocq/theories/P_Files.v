(** Reading the input files of the mini-app (C56). *)
From Coq Require Import List ZArith Bool Lia PeanoNat String Ascii.
From Verif Require Import Num Util Hard MatModel Cases Miniapp MiniFiles SpecFiles.
Import ListNotations.
Local Open Scope string_scope.

Lemma app_nil_r_s s : s ++ "" = s.
Proof. induction s; cbn; [reflexivity|now f_equal]. Qed.
Lemma app_assoc_s a b c : (a ++ b) ++ c = a ++ (b ++ c).
Proof. induction a; cbn; [reflexivity|now f_equal]. Qed.
Lemma has_app c a b : has c (a ++ b) <-> has c a \/ has c b.
Proof. induction a; cbn; [tauto|]. rewrite IHa. tauto. Qed.
Lemma nil_not_nl : ~ has "010"%char "".
Proof. intros []. Qed.

(** ** Lines *)
Lemma lines_from_text s : forall cur, ~ has "010"%char cur -> text (cur ++ s) (lines_from cur s).
Proof.
  induction s as [|c r IH]; intros cur HC; cbn.
  - rewrite app_nil_r_s. destruct (String.eqb_spec cur "") as [->|N]; [apply text_empty|now apply text_last].
  - destruct (Ascii.eqb_spec c "010"%char) as [->|N].
    + apply (text_line cur r); [exact HC|]. exact (IH "" nil_not_nl).
    + replace (cur ++ String c r) with ((cur ++ String c "") ++ r) by (rewrite app_assoc_s; reflexivity).
      apply IH. rewrite has_app. cbn. intros [X|[X|[]]]; [now apply HC|now apply N].
Qed.
Lemma lines_from_plain l : forall cur, ~ has "010"%char l -> forall s, lines_from cur (l ++ s) = lines_from (cur ++ l) s.
Proof.
  induction l as [|c r IH]; intros cur HL s; cbn.
  - now rewrite app_nil_r_s.
  - destruct (Ascii.eqb_spec c "010"%char) as [->|N]; [destruct HL; now left|].
    rewrite IH by (intros X; apply HL; now right). f_equal. now rewrite app_assoc_s.
Qed.
Lemma text_unique s ls : text s ls -> ls = lines s.
Proof.
  unfold lines. induction 1 as [|l NE HL|l s ls HL _ IH]; [reflexivity| |].
  - rewrite <- (app_nil_r_s l) at 2. rewrite (lines_from_plain l "" HL). cbn. destruct (String.eqb_spec l ""); [contradiction|reflexivity].
  - rewrite (lines_from_plain l "" HL). cbn. now f_equal.
Qed.
Lemma lines_text s : text s (lines s).
Proof. exact (lines_from_text s "" nil_not_nl). Qed.
Lemma file_text_iff fs p ls : file_text fs p ls <-> ls = file_lines fs p.
Proof.
  unfold file_text, file_lines. destruct (fs p); [|tauto]. split; [apply text_unique|intros ->; apply lines_text].
Qed.

(** ** Words *)
Lemma is_space_iff c : is_space c = true <-> space c.
Proof.
  unfold is_space, space. rewrite existsb_exists. split; [intros (d & H & E); apply Ascii.eqb_eq in E; now subst|].
  intros H. exists c. split; [exact H|apply Ascii.eqb_refl].
Qed.
Lemma is_space_false c : is_space c = false <-> ~ space c.
Proof. rewrite <- is_space_iff. destruct (is_space c); split; congruence. Qed.
Lemma skip_blank b : forall s, (forall c, has c b -> space c) -> skip_space (b ++ s) = skip_space s.
Proof.
  induction b as [|c r IH]; intros s HB; cbn [append skip_space]; [reflexivity|].
  rewrite (proj2 (is_space_iff c)) by (apply HB; now left). apply IH. intros d Hd. apply HB. now right.
Qed.
Lemma skip_split s : exists b, s = b ++ skip_space s /\ (forall c, has c b -> space c) /\
  match skip_space s with EmptyString => True | String c _ => ~ space c end.
Proof.
  induction s as [|c r (b & E & HB & HC)]; [exists ""; repeat split; intros c []|]. cbn [skip_space].
  destruct (is_space c) eqn:S.
  - exists (String c b). cbn. split; [now f_equal|]. split; [|exact HC]. intros d [->|Hd]; [now apply is_space_iff|now apply HB].
  - exists "". repeat split; [intros d []|]. now apply is_space_false.
Qed.
Lemma take_split s : s = fst (take_word s) ++ snd (take_word s) /\ (forall c, has c (fst (take_word s)) -> ~ space c) /\
  (snd (take_word s) = "" \/ exists c r, snd (take_word s) = String c r /\ space c).
Proof.
  induction s as [|c r (E & H1 & H2)]; [cbn; repeat split; auto; intros c []|]. cbn [take_word].
  destruct (is_space c) eqn:S; cbn [fst snd].
  - split; [reflexivity|]. split; [intros d []|]. right. exists c, r. split; [reflexivity|now apply is_space_iff].
  - split; [cbn [append]; f_equal; exact E|]. split; [|exact H2]. intros d [->|Hd]; [now apply is_space_false|now apply H1].
Qed.
Lemma take_plain w : forall rest, (forall c, has c w -> ~ space c) -> (rest = "" \/ exists c r, rest = String c r /\ space c) ->
  take_word (w ++ rest) = (w, rest).
Proof.
  induction w as [|c r IH]; intros rest HW HR; cbn [append take_word].
  - destruct HR as [->|(c & r & -> & S)]; [reflexivity|]. cbn [take_word]. now rewrite (proj2 (is_space_iff c) S).
  - rewrite (proj2 (is_space_false c)) by (apply HW; now left). rewrite IH; [reflexivity|intros d Hd; apply HW; now right|exact HR].
Qed.
Lemma rd_word_iff line word rest : rd_word line = Some (word, rest) <-> first_word line word rest.
Proof.
  unfold rd_word, first_word. split.
  - destruct (skip_split line) as (b & E & HB & HC). destruct (skip_space line) as [|c t] eqn:ES; [discriminate|].
    intros H. assert (H' : take_word (String c t) = (word, rest)) by now inversion H. clear H.
    destruct (take_split (String c t)) as (E1 & E2 & E3). rewrite H' in E1, E2, E3. cbn [fst snd] in *.
    exists b. rewrite <- E1. refine (conj E (conj HB (conj _ (conj E2 E3)))).
    intros ->. cbn [take_word] in H'. rewrite (proj2 (is_space_false c) HC) in H'. apply (f_equal fst) in H'. discriminate.
  - intros (b & -> & HB & NE & HW & HR). rewrite (skip_blank b _ HB).
    destruct word as [|c w]; [contradiction|]. cbn [append skip_space]. rewrite (proj2 (is_space_false c)) by (apply HW; now left).
    now rewrite (take_plain (String c w) rest HW HR : take_word (String c (w ++ rest)) = _).
Qed.

Section Files.
  Context {T : Type} {N : Num T}.
  Variables (rd_dbl : string -> option (T * string)) (rd_uint : string -> option (Z * string)) (draw : nat -> T).
  Variable fs : string -> option string.

  Lemma numbers_fun s xs ys : numbers rd_dbl s xs -> numbers rd_dbl s ys -> List.length xs = List.length ys -> xs = ys.
  Proof.
    intros H. revert ys. induction H as [s|s x r xs E _ IH]; intros ys H L; destruct ys as [|y ys]; try discriminate; [reflexivity|].
    inversion H as [|s' y' r' ys' E' HY]; subst. rewrite E in E'. inversion E'; subst. f_equal. apply IH; [assumption|now inversion L].
  Qed.
  Lemma rd_quat_iff l q : rd_quat rd_dbl l = Some q <-> List.length q = 4%nat /\ numbers rd_dbl l q.
  Proof.
    unfold rd_quat. split.
    - destruct (rd_dbl l) as [[q1 r1]|] eqn:E1; [|discriminate]. destruct (rd_dbl r1) as [[q2 r2]|] eqn:E2; [|discriminate].
      destruct (rd_dbl r2) as [[q3 r3]|] eqn:E3; [|discriminate]. destruct (rd_dbl r3) as [[q4 r4]|] eqn:E4; [|discriminate].
      intros H; inversion H; subst. split; [reflexivity|]. repeat (econstructor; [eassumption|]). constructor.
    - intros [L H]. do 4 (destruct q as [|? q]; [discriminate|]). destruct q; [|discriminate].
      repeat match goal with H : numbers _ _ (_ :: _) |- _ => inversion H; subst; clear H end.
      repeat match goal with H : rd_dbl _ = _ |- _ => rewrite H; clear H end. reflexivity.
  Qed.

  Lemma rows_nil k : rows rd_dbl k [] [].
  Proof. exists []. repeat split; cbn in *; lia. Qed.
  Lemma rows_nil_inv k xs : rows rd_dbl k [] xs -> xs = [].
  Proof. intros (rs & L & -> & _). destruct rs; [reflexivity|discriminate]. Qed.
  Lemma rows_cons k l ls xs : rows rd_dbl k (l :: ls) xs <->
    exists q ys, xs = (q ++ ys)%list /\ List.length q = k /\ numbers rd_dbl l q /\ rows rd_dbl k ls ys.
  Proof.
    split.
    - intros (rs & L & -> & H). destruct rs as [|q rs]; [discriminate|]. exists q, (List.concat rs).
      destruct (H O) as [A B]; [cbn; lia|]. refine (conj eq_refl (conj A (conj B _))).
      exists rs. split; [now inversion L|]. split; [reflexivity|]. intros i Hi. apply (H (S i)). cbn. lia.
    - intros (q & ys & -> & A & B & (rs & L & -> & H)). exists (q :: rs). split; [cbn; now f_equal|]. split; [reflexivity|].
      intros i Hi. destruct i; [now split|]. apply H. cbn in Hi. lia.
  Qed.
  Lemma rows_app k l1 x1 l2 x2 : rows rd_dbl k l1 x1 -> rows rd_dbl k l2 x2 -> rows rd_dbl k (l1 ++ l2)%list (x1 ++ x2)%list.
  Proof.
    revert x1. induction l1 as [|l l1 IH]; intros x1 H1 H2.
    - rewrite (rows_nil_inv k x1 H1). exact H2.
    - apply rows_cons in H1. destruct H1 as (q & ys & -> & A & B & H1). cbn. apply rows_cons. exists q, (ys ++ x2)%list.
      rewrite <- app_assoc. auto.
  Qed.
  Lemma rows_length k ls xs : rows rd_dbl k ls xs -> List.length xs = (k * List.length ls)%nat.
  Proof.
    revert xs. induction ls as [|l ls IH]; intros xs H; [rewrite (rows_nil_inv k xs H); cbn; lia|].
    apply rows_cons in H. destruct H as (q & ys & -> & A & _ & H). rewrite app_length, A, (IH ys H). cbn. lia.
  Qed.
  Lemma first_bad_here k l ls : (forall xs, List.length xs = k -> ~ numbers rd_dbl l xs) -> first_bad rd_dbl k (l :: ls) 1.
  Proof. intros H. repeat split; cbn; try lia. exact H. Qed.
  Lemma first_bad_there k l ls q i : List.length q = k -> numbers rd_dbl l q -> first_bad rd_dbl k ls i -> first_bad rd_dbl k (l :: ls) (S i).
  Proof.
    intros A B (H1 & H2 & H3). repeat split; cbn [List.length]; try lia.
    - replace (S i - 1)%nat with (S (i - 1)) by lia. exact H2.
    - intros j Hj. destruct (Nat.eq_dec j 1) as [->|NE]; [exists q; now split|].
      replace (j - 1)%nat with (S (j - 1 - 1)) by lia. apply H3. lia.
  Qed.

  Lemma rd_quats_spec ls : forall n0 q0,
    match rd_quats rd_dbl ls n0 q0 with
    | inl (n, q) => n = (n0 + List.length ls)%nat /\ exists ys, q = (q0 ++ ys)%list /\ rows rd_dbl 4 ls ys
    | inr k => exists i, k = (n0 + i)%nat /\ first_bad rd_dbl 4 ls i
    end.
  Proof.
    induction ls as [|l ls IH]; intros n0 q0; cbn.
    - split; [lia|]. exists []. split; [now rewrite app_nil_r|apply rows_nil].
    - destruct (rd_quat rd_dbl l) as [q|] eqn:E.
      + apply rd_quat_iff in E. destruct E as [A B]. specialize (IH (S n0) (q0 ++ q)%list).
        destruct (rd_quats rd_dbl ls (S n0) (q0 ++ q)%list) as [[n q']|k].
        * destruct IH as (-> & ys & -> & H). split; [lia|]. exists (q ++ ys)%list. rewrite app_assoc. split; [reflexivity|].
          apply rows_cons. exists q, ys. auto.
        * destruct IH as (i & -> & H). exists (S i). split; [lia|]. exact (first_bad_there 4 l ls q i A B H).
      + exists 1%nat. split; [lia|]. apply first_bad_here. intros xs A B.
        rewrite (proj2 (rd_quat_iff l xs) (conj A B)) in E. discriminate.
  Qed.
  Lemma rd_props_spec ls : forall n0 p0,
    match rd_props rd_dbl ls n0 p0 with
    | inl p => exists ys, p = (p0 ++ ys)%list /\ rows rd_dbl 1 ls ys
    | inr k => exists i, k = (n0 + i)%nat /\ first_bad rd_dbl 1 ls i
    end.
  Proof.
    induction ls as [|l ls IH]; intros n0 p0; cbn.
    - exists []. split; [now rewrite app_nil_r|apply rows_nil].
    - destruct (rd_dbl l) as [[x r]|] eqn:E.
      + assert (A : numbers rd_dbl l [x]) by (econstructor; [exact E|constructor]).
        specialize (IH (S n0) (p0 ++ [x])%list). destruct (rd_props rd_dbl ls (S n0) (p0 ++ [x])%list) as [p|k].
        * destruct IH as (ys & -> & H). exists (x :: ys). rewrite <- app_assoc. split; [reflexivity|].
          apply (proj2 (rows_cons 1 l ls (x :: ys))). exists [x], ys. auto.
        * destruct IH as (i & -> & H). exists (S i). split; [lia|]. exact (first_bad_there 1 l ls [x] i eq_refl A H).
      + exists 1%nat. split; [lia|]. apply first_bad_here. intros xs A B. destruct xs as [|x xs]; [discriminate|]. inversion B; congruence.
  Qed.
  (** a file cannot be both *)
  Lemma rows_first_bad k ls xs i : rows rd_dbl k ls xs -> first_bad rd_dbl k ls i -> False.
  Proof.
    intros (rs & L & _ & H) (H1 & H2 & _). destruct (H (i - 1)%nat) as [A B]; [lia|]. exact (H2 _ A B).
  Qed.
  Lemma rows_fun k ls xs ys : rows rd_dbl k ls xs -> rows rd_dbl k ls ys -> xs = ys.
  Proof.
    revert xs ys. induction ls as [|l ls IH]; intros xs ys H1 H2; [now rewrite (rows_nil_inv k xs H1), (rows_nil_inv k ys H2)|].
    apply rows_cons in H1. apply rows_cons in H2. destruct H1 as (q & x & -> & A & B & H1), H2 as (q' & y & -> & A' & B' & H2).
    rewrite (numbers_fun l q q' B B') by congruence. f_equal. now apply IH.
  Qed.
  Lemma first_bad_fun k ls i j : first_bad rd_dbl k ls i -> first_bad rd_dbl k ls j -> i = j.
  Proof.
    intros (A1 & A2 & A3) (B1 & B2 & B3). destruct (lt_eq_lt_dec i j) as [[L|E]|L]; [|exact E|].
    - destruct (B3 i) as (xs & L1 & L2); [lia|]. destruct (A2 xs L1 L2).
    - destruct (A3 j) as (xs & L1 & L2); [lia|]. destruct (B2 xs L1 L2).
  Qed.

  Lemma rd_quats_ok ls n q : rd_quats rd_dbl ls 0 [] = inl (n, q) <-> n = List.length ls /\ rows rd_dbl 4 ls q.
  Proof.
    pose proof (rd_quats_spec ls 0 []) as H. destruct (rd_quats rd_dbl ls 0 []) as [[n' q']|k].
    - destruct H as (-> & ys & -> & H). cbn. split; [intros E; inversion E; subst; auto|].
      intros [-> H']. now rewrite (rows_fun _ _ _ _ H' H).
    - destruct H as (i & -> & H). split; [discriminate|]. intros [_ H']. destruct (rows_first_bad _ _ _ _ H' H).
  Qed.
  Lemma rd_quats_bad ls k : rd_quats rd_dbl ls 0 [] = inr k <-> first_bad rd_dbl 4 ls k.
  Proof.
    pose proof (rd_quats_spec ls 0 []) as H. destruct (rd_quats rd_dbl ls 0 []) as [[n' q']|k'].
    - destruct H as (-> & ys & -> & H). split; [discriminate|]. intros H'. destruct (rows_first_bad _ _ _ _ H H').
    - destruct H as (i & -> & H). split; [intros E; inversion E; subst; exact H|]. intros H'. now rewrite (first_bad_fun _ _ _ _ H H').
  Qed.
  Lemma rd_props_ok ls p : rd_props rd_dbl ls 0 [] = inl p <-> rows rd_dbl 1 ls p.
  Proof.
    pose proof (rd_props_spec ls 0 []) as H. destruct (rd_props rd_dbl ls 0 []) as [q'|k].
    - destruct H as (ys & -> & H). cbn. split; [intros E; inversion E; subst; auto|].
      intros H'. now rewrite (rows_fun _ _ _ _ H' H).
    - destruct H as (i & -> & H). split; [discriminate|]. intros H'. destruct (rows_first_bad _ _ _ _ H' H).
  Qed.
  Lemma rd_props_bad ls k : rd_props rd_dbl ls 0 [] = inr k <-> first_bad rd_dbl 1 ls k.
  Proof.
    pose proof (rd_props_spec ls 0 []) as H. destruct (rd_props rd_dbl ls 0 []) as [q'|k'].
    - destruct H as (ys & -> & H). split; [discriminate|]. intros H'. destruct (rows_first_bad _ _ _ _ H H').
    - destruct H as (i & -> & H). split; [intros E; inversion E; subst; exact H|]. intros H'. now rewrite (first_bad_fun _ _ _ _ H H').
  Qed.
End Files.

Section Input.
  Context {T : Type} {N : Num T}.
  Variables (rd_dbl : string -> option (T * string)) (rd_uint : string -> option (Z * string)) (draw : nat -> T).
  Variable fs : string -> option string.

  Lemma header_iff line w k : header rd_uint line w k <-> exists r r', rd_word line = Some (w, r) /\ rd_uint r = Some (k, r').
  Proof.
    unfold header. split; intros (r & r' & A & B); exists r, r'; (split; [now apply rd_word_iff|exact B]).
  Qed.
  Lemma header_fun line w k w' k' : header rd_uint line w k -> header rd_uint line w' k' -> w = w' /\ k = k'.
  Proof.
    rewrite !header_iff. intros (r & r' & A & B) (s & s' & C & D). rewrite A in C. inversion C; subst. rewrite B in D. now inversion D.
  Qed.

  Lemma rd_ori_spec ls :
    match rd_ori rd_dbl rd_uint draw ls with
    | inl BadHeader => forall w k, ~ header rd_uint (hd "" ls) w k
    | inl (BadQuat j) => exists w k, header rd_uint (hd "" ls) w k /\ w <> "#random" /\ first_bad rd_dbl 4 (tl ls) j
    | inl _ => False
    | inr (n, q) => exists w k, header rd_uint (hd "" ls) w k /\
        ((w <> "#random" /\ n = Z.of_nat (List.length (tl ls)) /\ rows rd_dbl 4 (tl ls) q) \/
         (w = "#random" /\ n = to_int k /\ q = rand_quats draw (Z.to_nat k)))
    end.
  Proof.
    unfold rd_ori. destruct (rd_word (hd "" ls)) as [[w r]|] eqn:E1.
    2: { intros w k H. apply header_iff in H. destruct H as (r & r' & A & _). congruence. }
    destruct (rd_uint r) as [[k r']|] eqn:E2.
    2: { intros w' k' H. apply header_iff in H. destruct H as (s & s' & A & B). rewrite E1 in A. inversion A; subst. congruence. }
    assert (HH : header rd_uint (hd "" ls) w k) by (apply header_iff; exists r, r'; auto).
    destruct (String.eqb_spec w "#random") as [->|NE].
    - exists "#random", k. auto 10.
    - destruct (rd_quats rd_dbl (tl ls) 0 []) as [[n q]|j] eqn:E3.
      + apply rd_quats_ok in E3. destruct E3 as [-> E3]. exists w, k. auto 10.
      + apply rd_quats_bad in E3. exists w, k. auto.
  Qed.

  Notation opened := (opened fs).
  Lemma opened_iff args ori model prop device : opened args ori model prop device <->
    exists opt more, args = [opt] /\ file_lines fs opt = ori :: model :: prop :: device :: more.
  Proof.
    split.
    - intros (opt & ls & -> & H & more & ->). apply file_text_iff in H. exists opt, more. auto.
    - intros (opt & more & -> & H). exists opt, (file_lines fs opt). split; [reflexivity|]. split; [now apply file_text_iff|now exists more].
  Qed.
  Lemma opened_fun args o m p d o' m' p' d' : opened args o m p d -> opened args o' m' p' d' -> o = o' /\ m = m' /\ p = p' /\ d = d'.
  Proof.
    rewrite !opened_iff. intros (x & y & -> & H) (x' & y' & E & H'). inversion E; subst. rewrite H in H'. inversion H'; subst. auto.
  Qed.

  Lemma app_input_spec args :
    match app_input rd_dbl rd_uint draw fs args with
    | BadUsage => List.length args <> 1%nat
    | BadOptions => List.length args = 1%nat /\ forall o m p d, ~ opened args o m p d
    | BadHeader => exists o m p d, opened args o m p d /\ forall w k, ~ header rd_uint (hd "" (file_lines fs o)) w k
    | BadQuat j => exists o m p d w k, opened args o m p d /\ header rd_uint (hd "" (file_lines fs o)) w k /\ w <> "#random" /\
        first_bad rd_dbl 4 (tl (file_lines fs o)) j
    | BadProp j => exists o m p d n q, opened args o m p d /\ rd_ori rd_dbl rd_uint draw (file_lines fs o) = inr (n, q) /\
        first_bad rd_dbl 1 (file_lines fs p) j
    | Input n q m d props => exists o p, opened args o m p d /\ rd_ori rd_dbl rd_uint draw (file_lines fs o) = inr (n, q) /\
        rows rd_dbl 1 (file_lines fs p) props
    end.
  Proof.
    unfold app_input. destruct args as [|opt args]; [cbn; lia|]. destruct args; [|cbn; lia].
    assert (NO : (forall o m p d more, file_lines fs opt <> o :: m :: p :: d :: more) ->
      List.length [opt] = 1%nat /\ forall o m p d, ~ opened [opt] o m p d).
    { intros H. split; [reflexivity|]. intros o m p d (X & Y & E & Hl & more & ->). inversion E; subst. apply file_text_iff in Hl. now apply (H o m p d more). }
    destruct (file_lines fs opt) as [|o [|m [|p [|d more]]]] eqn:E; try (apply NO; intros; congruence). clear NO.
    assert (HO : opened [opt] o m p d) by (apply opened_iff; exists opt, more; auto).
    pose proof (rd_ori_spec (file_lines fs o)) as HS. destruct (rd_ori rd_dbl rd_uint draw (file_lines fs o)) as [e|[n q]] eqn:ER.
    - destruct e; try contradiction.
      + exists o, m, p, d. auto.
      + destruct HS as (w & k & A & B & C). exists o, m, p, d, w, k. auto.
    - destruct (rd_props rd_dbl (file_lines fs p) 0 []) as [props|j] eqn:EP.
      + apply rd_props_ok in EP. exists o, p. auto.
      + apply rd_props_bad in EP. exists o, m, p, d, n, q. auto.
  Qed.

  Lemma ori_data ls n q w k : header rd_uint (hd "" ls) w k -> w <> "#random" ->
    rd_ori rd_dbl rd_uint draw ls = inr (n, q) <-> n = Z.of_nat (List.length (tl ls)) /\ rows rd_dbl 4 (tl ls) q.
  Proof.
    intros HH NE. apply header_iff in HH. destruct HH as (r & r' & E1 & E2). unfold rd_ori. rewrite E1, E2.
    destruct (String.eqb_spec w "#random"); [contradiction|]. destruct (rd_quats rd_dbl (tl ls) 0 []) as [[n' q']|j] eqn:E3.
    - apply rd_quats_ok in E3. destruct E3 as [-> E3]. split; [intros E; inversion E; subst; auto|].
      intros [-> H]. now rewrite (rows_fun _ _ _ _ _ E3 H).
    - apply rd_quats_bad in E3. split; [discriminate|]. intros [_ H]. destruct (rows_first_bad _ _ _ _ _ H E3).
  Qed.
  Lemma ori_bad ls j w k : header rd_uint (hd "" ls) w k -> w <> "#random" ->
    rd_ori rd_dbl rd_uint draw ls = inl (BadQuat j) <-> first_bad rd_dbl 4 (tl ls) j.
  Proof.
    intros HH NE. apply header_iff in HH. destruct HH as (r & r' & E1 & E2). unfold rd_ori. rewrite E1, E2.
    destruct (String.eqb_spec w "#random"); [contradiction|]. rewrite <- rd_quats_bad.
    destruct (rd_quats rd_dbl (tl ls) 0 []) as [[n' q']|j']; split; intros E; inversion E; reflexivity.
  Qed.
  Lemma ori_random ls k : header rd_uint (hd "" ls) "#random" k ->
    rd_ori rd_dbl rd_uint draw ls = inr (to_int k, rand_quats draw (Z.to_nat k)).
  Proof. intros HH. apply header_iff in HH. destruct HH as (r & r' & E1 & E2). unfold rd_ori. rewrite E1, E2. reflexivity. Qed.

  Lemma input_opened args o m p d : opened args o m p d ->
    app_input rd_dbl rd_uint draw fs args =
    match rd_ori rd_dbl rd_uint draw (file_lines fs o) with
    | inl e => e
    | inr (n, q) => match rd_props rd_dbl (file_lines fs p) 0 [] with inr k => BadProp k | inl props => Input n q m d props end
    end.
  Proof. intros H. apply opened_iff in H. destruct H as (opt & more & -> & E). unfold app_input. rewrite E. reflexivity. Qed.

  (** Orientations from the file. *)
  Lemma input_data args o m p d w k ql pl n q m' d' props : opened args o m p d -> file_text fs o ql -> file_text fs p pl ->
    header rd_uint (hd "" ql) w k -> w <> "#random" ->
    app_input rd_dbl rd_uint draw fs args = Input n q m' d' props <->
    m' = m /\ d' = d /\ n = Z.of_nat (List.length (tl ql)) /\ rows rd_dbl 4 (tl ql) q /\ rows rd_dbl 1 pl props.
  Proof.
    intros HO HQ HP HH NE. apply file_text_iff in HQ. apply file_text_iff in HP. subst ql pl. rewrite (input_opened _ _ _ _ _ HO).
    pose proof (fun n q => ori_data (file_lines fs o) n q w k HH NE) as HD.
    destruct (rd_ori rd_dbl rd_uint draw (file_lines fs o)) as [e|[n' q']] eqn:ER.
    - pose proof (rd_ori_spec (file_lines fs o)) as HS. rewrite ER in HS. split.
      + intros ->. contradiction.
      + intros (_ & _ & A & B & _). pose proof (proj2 (HD n q) (conj A B)). discriminate.
    - destruct (proj1 (HD n' q') eq_refl) as [-> HR]. destruct (rd_props rd_dbl (file_lines fs p) 0 []) as [props'|j] eqn:EP.
      + apply rd_props_ok in EP. split; [intros E; inversion E; subst; auto|]. intros (-> & -> & -> & A & B).
        now rewrite (rows_fun _ _ _ _ _ A HR), (rows_fun _ _ _ _ _ B EP).
      + apply rd_props_bad in EP. split; [discriminate|]. intros (_ & _ & _ & _ & B). destruct (rows_first_bad _ _ _ _ _ B EP).
  Qed.
  Lemma input_random args o m p d k ql pl n q m' d' props : opened args o m p d -> file_text fs o ql -> file_text fs p pl ->
    header rd_uint (hd "" ql) "#random" k ->
    app_input rd_dbl rd_uint draw fs args = Input n q m' d' props <->
    m' = m /\ d' = d /\ n = to_int k /\ q = rand_quats draw (Z.to_nat k) /\ rows rd_dbl 1 pl props.
  Proof.
    intros HO HQ HP HH. apply file_text_iff in HQ. apply file_text_iff in HP. subst ql pl. rewrite (input_opened _ _ _ _ _ HO).
    rewrite (ori_random _ k HH). destruct (rd_props rd_dbl (file_lines fs p) 0 []) as [props'|j] eqn:EP.
    - apply rd_props_ok in EP. split; [intros E; inversion E; subst; auto|]. intros (-> & -> & -> & -> & B).
      now rewrite (rows_fun _ _ _ _ _ B EP).
    - apply rd_props_bad in EP. split; [discriminate|]. intros (_ & _ & _ & _ & B). destruct (rows_first_bad _ _ _ _ _ B EP).
  Qed.
  (** The message about a line of the orientation file. *)
  Lemma input_bad_ori args o m p d w k ql j : opened args o m p d -> file_text fs o ql ->
    header rd_uint (hd "" ql) w k -> w <> "#random" ->
    app_input rd_dbl rd_uint draw fs args = BadQuat j <-> first_bad rd_dbl 4 (tl ql) j.
  Proof.
    intros HO HQ HH NE. apply file_text_iff in HQ. subst ql. rewrite (input_opened _ _ _ _ _ HO), <- (ori_bad _ j w k HH NE).
    destruct (rd_ori rd_dbl rd_uint draw (file_lines fs o)) as [e|[n q]].
    - split; [now intros ->|now inversion 1].
    - destruct rd_props; split; discriminate.
  Qed.
  (** The message about a line of the property file, after an orientation file that was read. *)
  Lemma input_bad_prop args o m p d w k ql pl j : opened args o m p d -> file_text fs o ql -> file_text fs p pl ->
    header rd_uint (hd "" ql) w k -> (w = "#random" \/ exists q, rows rd_dbl 4 (tl ql) q) ->
    app_input rd_dbl rd_uint draw fs args = BadProp j <-> first_bad rd_dbl 1 pl j.
  Proof.
    intros HO HQ HP HH HW. apply file_text_iff in HQ. apply file_text_iff in HP. subst ql pl. rewrite (input_opened _ _ _ _ _ HO).
    assert (exists n q, rd_ori rd_dbl rd_uint draw (file_lines fs o) = inr (n, q)) as (n & q & ->).
    { destruct (string_dec w "#random") as [->|NE]; [eexists _, _; exact (ori_random _ k HH)|]. destruct HW as [->|[q HW]]; [contradiction|].
      eexists _, q. apply (ori_data _ _ _ w k HH NE). auto. }
    rewrite <- rd_props_bad. destruct rd_props; split; intros E; inversion E; reflexivity.
  Qed.
  Lemma input_others args :
    (app_input rd_dbl rd_uint draw fs args = BadUsage <-> List.length args <> 1%nat) /\
    (app_input rd_dbl rd_uint draw fs args = BadOptions <-> List.length args = 1%nat /\ forall o m p d, ~ opened args o m p d) /\
    (app_input rd_dbl rd_uint draw fs args = BadHeader <-> exists o m p d ql, opened args o m p d /\ file_text fs o ql /\ forall w k, ~ header rd_uint (hd "" ql) w k).
  Proof.
    pose proof (app_input_spec args) as HS.
    assert (HL : forall o m p d, opened args o m p d -> List.length args = 1%nat) by (intros o m p d (opt & ls & -> & _); reflexivity).
    assert (HF : forall o m p d o' m' p' d' ql w k, opened args o m p d -> opened args o' m' p' d' -> file_text fs o' ql ->
      (forall w k, ~ header rd_uint (hd "" ql) w k) -> ~ header rd_uint (hd "" (file_lines fs o)) w k).
    { intros o m p d o' m' p' d' ql w k H1 H2 H3 H4. destruct (opened_fun _ _ _ _ _ _ _ _ _ H1 H2) as (-> & _). apply file_text_iff in H3. subst ql. apply H4. }
    assert (HR : forall o m p d n q o' m' p' d' ql, opened args o m p d -> rd_ori rd_dbl rd_uint draw (file_lines fs o) = inr (n, q) ->
      opened args o' m' p' d' -> file_text fs o' ql -> (forall w k, ~ header rd_uint (hd "" ql) w k) -> False).
    { intros o m p d n q o' m' p' d' ql A B A' F H. pose proof (rd_ori_spec (file_lines fs o)) as HR. rewrite B in HR.
      destruct HR as (w & k & C & _). exact (HF _ _ _ _ _ _ _ _ _ w k A A' F H C). }
    destruct (app_input rd_dbl rd_uint draw fs args).
    - refine (conj (conj (fun _ => HS) (fun _ => eq_refl)) (conj (conj _ _) (conj _ _))); try discriminate.
      + intros [A _]. contradiction.
      + intros (o & m & p & d & ql & A & _). destruct (HS (HL _ _ _ _ A)).
    - refine (conj (conj _ _) (conj (conj (fun _ => HS) (fun _ => eq_refl)) (conj _ _))); try discriminate.
      + intros X. destruct (X (proj1 HS)).
      + intros (o & m & p & d & ql & C & _). destruct (proj2 HS _ _ _ _ C).
    - destruct HS as (o & m & p & d & A & B). refine (conj (conj _ _) (conj (conj _ _) (conj _ _))); try discriminate; try reflexivity.
      + intros X. destruct (X (HL _ _ _ _ A)).
      + intros [_ X]. destruct (X _ _ _ _ A).
      + intros _. exists o, m, p, d, (file_lines fs o). split; [exact A|]. split; [now apply file_text_iff|exact B].
    - destruct HS as (o & m & p & d & w & k & A & B & _). refine (conj (conj _ _) (conj (conj _ _) (conj _ _))); try discriminate.
      + intros X. destruct (X (HL _ _ _ _ A)).
      + intros [_ X]. destruct (X _ _ _ _ A).
      + intros (o' & m' & p' & d' & ql & A' & F & H). destruct (HF _ _ _ _ _ _ _ _ _ w k A A' F H B).
    - destruct HS as (o & m & p & d & n & q & A & B & _). refine (conj (conj _ _) (conj (conj _ _) (conj _ _))); try discriminate.
      + intros X. destruct (X (HL _ _ _ _ A)).
      + intros [_ X]. destruct (X _ _ _ _ A).
      + intros (o' & m' & p' & d' & ql & A' & F & H). destruct (HR _ _ _ _ _ _ _ _ _ _ _ A B A' F H).
    - destruct HS as (o & p & A & B & _). refine (conj (conj _ _) (conj (conj _ _) (conj _ _))); try discriminate.
      + intros X. destruct (X (HL _ _ _ _ A)).
      + intros [_ X]. destruct (X _ _ _ _ A).
      + intros (o' & m' & p' & d' & ql & A' & F & H). destruct (HR _ _ _ _ _ _ _ _ _ _ _ A B A' F H).
  Qed.
End Input.
