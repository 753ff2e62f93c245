(** Runs of the mini-app crystal by crystal (C69). *)
From Coq Require Import List ZArith Bool Lia PeanoNat Reals Lra Permutation.
From Verif Require Import Num NumR Arr Util Hard Evptn MatModel Cases Miniapp SpecTensor SpecApi SpecStep SpecMini SpecState SpecMini2
  P_Batch P_Batch2 P_Batch3 P_Batch4 P_Api P_Builtin P_Hist P_State2 P_Mini P_Mini2 P_Mini3 P_Mini4.
Import ListNotations.
Local Open Scope R_scope.

Lemma nth_crystal ori q k : (k < 4)%nat -> nth k (crystal ori q) 0 = nth (4 * q + k) ori 0.
Proof.
  intros Hk. unfold crystal.
  assert (F : forall (l : list R), nth k (firstn 4 l) 0 = nth k l 0).
  { intros l. destruct l as [|x0 [|x1 [|x2 [|x3 l]]]]; cbn [firstn]; try reflexivity.
    do 4 (destruct k as [|k]; [reflexivity|]). lia. }
  rewrite F. generalize (4 * q)%nat. clear F Hk. intros m. revert ori. induction m as [|m IH]; intros ori; [reflexivity|].
  destruct ori as [|x ori]; [cbn; now destruct k|]. cbn [skipn Nat.add nth]. apply IH.
Qed.
Lemma nth_same_crystal (ori : list R) q (ori' : list R) p : crystal ori q = crystal ori' p -> forall k, (k < 4)%nat -> nth (4 * q + k) ori 0 = nth (4 * p + k) ori' 0.
Proof. intros E k Hk. now rewrite <- !nth_crystal, E. Qed.

Lemma crystal_concat {T} (os : list (list T)) q : (forall o, In o os -> List.length o = 4%nat) -> (q < List.length os)%nat -> crystal (concat os) q = nth q os [].
Proof.
  revert q. induction os as [|o os IH]; intros q H4 Hq; [cbn in Hq; lia|]. pose proof (H4 o (or_introl eq_refl)) as HO.
  destruct o as [|x0 [|x1 [|x2 [|x3 [|x4 o]]]]]; try discriminate HO. destruct q as [|q]; [reflexivity|].
  cbn [nth concat app]. rewrite <- IH; [|intros o Ho; apply H4; now right|cbn in Hq; lia].
  unfold crystal. replace (4 * S q)%nat with (S (S (S (S (4 * q))))) by lia. reflexivity.
Qed.
Lemma sum_list n (g : nat -> R) : sum n g = fold_right Rplus 0 (map g (seq 0 n)).
Proof.
  induction n as [|n IH]; [reflexivity|]. rewrite sum_S_R, IH, seq_S, map_app, fold_right_app. cbn [map fold_right Nat.add].
  generalize (map g (seq 0 n)) (g n). clear. intros l x. induction l as [|y l IH]; cbn; [lra|]. rewrite <- IH. lra.
Qed.
Lemma fold_perm l l' : Permutation l l' -> fold_right Rplus 0 l = fold_right Rplus 0 l'.
Proof. induction 1; cbn; lra. Qed.
Lemma sum_perm n f : (forall x, (x < n)%nat -> (f x < n)%nat) -> (forall x y, (x < n)%nat -> (y < n)%nat -> f x = f y -> x = y) -> forall g : nat -> R, sum n (fun q => g (f q)) = sum n g.
Proof.
  intros BF IF g. rewrite !sum_list. apply fold_perm. rewrite <- (map_map f g). apply Permutation_map.
  apply NoDup_Permutation_bis.
  - assert (ND : NoDup (seq 0 n)) by apply seq_NoDup. assert (IN : forall x, In x (seq 0 n) -> (x < n)%nat) by (intros x Hx; apply in_seq in Hx; lia).
    revert ND IN. generalize (seq 0 n). clear g. induction l as [|x l IH]; intros ND IN; [constructor|]. apply NoDup_cons_iff in ND. destruct ND as [NI ND]. cbn [map]. constructor.
    + intros HI. apply in_map_iff in HI. destruct HI as (y & E & Hy). apply NI. assert (y = x) by (apply IF; [apply IN; now right|apply IN; now left|exact E]). now subst.
    + apply IH; [exact ND|]. intros y Hy. apply IN. now right.
  - rewrite map_length. lia.
  - intros y Hy. apply in_map_iff in Hy. destruct Hy as (x & <- & Hx). apply in_seq in Hx. apply in_seq. specialize (BF x ltac:(lia)). lia.
Qed.

Section Runs.
  Variables (hs : Solver R) (openmp gpu : bool) (model device : String.string) (params : list R) (c : MClass R) (s : MM R) (nst : nat) (d : Exec).
  Hypothesis HM : app_main hs openmp gpu model device params = Ready c s nst d.
  Variables (solver : Solver R) (lu : LUSolver R) (dt : R).

  Lemma started_alike n n' h0 ori ori' a b q p : started nst n h0 ori a -> started nst n' h0 ori' b -> (q < n)%nat -> (p < n')%nat ->
    crystal ori q = crystal ori' p -> alike_before nst a q b p.
  Proof.
    intros [_ SA] [_ SB] Hq Hp E. destruct (SA q Hq) as (V & C0 & Vo & En & Or & Hi). destruct (SB p Hp) as (V' & C0' & Vo' & En' & Or' & Hi').
    split; [congruence|]. split; [congruence|]. intros k Hk Hn.
    assert (K2 : k <> 2%nat) by (intros ->; apply Hn; cbn; tauto).
    destruct (app_ready _ _ _ _ _ _ _ _ _ _ HM) as (_ & _ & _ & _ & _ & _ & N28).
    destruct (Nat.eq_dec k (nst - 2)) as [->|]; [unfold volume in *; congruence|].
    destruct (Nat.eq_dec k (nst - 1)) as [->|]; [unfold energy in *; congruence|].
    destruct (le_lt_dec 9 k) as [L|L].
    - destruct (le_lt_dec k 12) as [L2|L2].
      + replace k with (9 + (k - 9))%nat by lia. rewrite Or, Or' by lia. apply nth_same_crystal; [exact E|lia].
      + rewrite Hi, Hi' by lia. reflexivity.
    - rewrite Hi, Hi' by lia. reflexivity.
  Qed.
  Lemma few_bounded n : few n -> bounded s n.
  Proof.
    intros F. destruct (app_ready _ _ _ _ _ _ _ _ _ _ HM) as (_ & _ & _ & _ & HV & _ & N28). apply (app_wrap nst s n HV); [lia|exact F].
  Qed.
  Lemma run_from n ori N a' : computes solver lu c s nst dt n ori N a' -> exists h orders a1, mm_getHistInfo c s = Some h /\ started nst n (map SpecObj.entry_init h) ori a1 /\
    orders_ok n orders /\ List.length orders = N /\ app_run solver lu c s nst dt n orders a1 = (BRet Done, a').
  Proof.
    intros (a & qs & orders & a1 & SZ & V & HO & HL & E1 & E2).
    destruct (main_start hs openmp gpu model device params c s nst d n ori qs a HM SZ V) as (h & a1' & EH & ES & ST & _).
    exists h, orders, a1. assert (a1' = a1) by congruence. subst a1'. exact (conj EH (conj ST (conj HO (conj HL E2)))).
  Qed.
  (** two crystals of the same orientation in two runs *)
  Lemma crystals n n' ori ori' N a' b' q p : few n -> few n' -> computes solver lu c s nst dt n ori N a' -> computes solver lu c s nst dt n' ori' N b' ->
    (q < n)%nat -> (p < n')%nat -> crystal ori q = crystal ori' p -> cauchy a' q = cauchy b' p /\ ((0 < N)%nat -> alike nst a' q b' p).
  Proof.
    intros F F' X Y Hq Hp E. destruct (run_from _ _ _ _ X) as (h & os & a1 & EH & ST & HO & HL & ER). destruct (run_from _ _ _ _ Y) as (h' & os' & b1 & EH' & ST' & HO' & HL' & ER').
    assert (h' = h) by congruence. subst h'.
    destruct (app_ready _ _ _ _ _ _ _ _ _ _ HM) as (HB & _ & HU & EC & HV & HN & _).
    destruct (run_same hs c s nst params HB HU HV HN solver lu dt n n' (few_bounded n F) (few_bounded n' F') q p Hq Hp os os' a1 a' b1 b' ltac:(congruence) (proj1 ST) (proj1 ST') HO HO'
      (started_alike _ _ _ _ _ _ _ _ _ ST ST' Hq Hp E) ER ER') as [R1 R2].
    split; [exact (proj1 (proj2 R1))|]. intros HP. apply R2. destruct os; [cbn in HL; lia|discriminate].
  Qed.
  (** a run whose crystals are those of runs that succeed, succeeds *)
  Lemma completes n ori N : few n ->
    (forall q, (q < n)%nat -> exists n' ori' p b', few n' /\ computes solver lu c s nst dt n' ori' N b' /\ (p < n')%nat /\ crystal ori q = crystal ori' p) ->
    forall a qs orders a1, sized nst n a -> visits n qs -> orders_ok n orders -> List.length orders = N -> app_start c s ori n qs nst a = Some a1 ->
      exists a', app_run solver lu c s nst dt n orders a1 = (BRet Done, a').
  Proof.
    intros F H a qs orders a1 SZ V HO HL ES.
    destruct (main_start hs openmp gpu model device params c s nst d n ori qs a HM SZ V) as (h & a1' & EH & ES' & ST & _).
    assert (a1' = a1) by congruence. subst a1'.
    destruct (app_ready _ _ _ _ _ _ _ _ _ _ HM) as (HB & _ & HU & EC & HV & HN & _).
    apply (run_ok hs c s nst params HB HU EC HV HN solver lu dt n (few_bounded n F) orders a1 (proj1 ST) HO).
    intros q Hq. destruct (H q Hq) as (n' & ori' & p & b' & F' & Y & Hp & E). destruct (run_from _ _ _ _ Y) as (h' & os' & b1 & EH' & ST' & HO' & HL' & ER').
    assert (h' = h) by congruence. subst h'. exists n', p, b1, os', b'.
    exact (conj (few_bounded n' F') (conj (proj1 ST') (conj HO' (conj (eq_trans HL' (eq_sym HL)) (conj Hp (conj (started_alike _ _ _ _ _ _ _ _ _ ST ST' Hq Hp E) ER')))))).
  Qed.
  Lemma cauchy_nth a q b p : cauchy a q = cauchy b p -> forall j, (j < 6)%nat -> nth (6 * q + j) (ap_stress a) 0 = nth (6 * p + j) (ap_stress b) 0.
  Proof.
    intros E j Hj. unfold cauchy, sym6 in E. injection E as C0 C5 C4 _ C1 C3 _ _ C2. do 6 (destruct j as [|j]; [assumption|]). lia.
  Qed.
  (** the average stress is the mean of the stresses of the crystals alone *)
  Lemma mean_alone n ori N a' (b' : nat -> App R) : few n -> (0 < n)%nat -> computes solver lu c s nst dt n ori N a' ->
    (forall q, (q < n)%nat -> computes solver lu c s nst dt 1 (crystal ori q) N (b' q)) ->
    forall j, (j < 6)%nat -> stress_avg n a' j = / INR n * sum n (fun q => stress_avg 1 (b' q) j).
  Proof.
    intros F Hn X Y j Hj. assert (NZ : INR n <> 0) by (apply not_0_INR; lia).
    apply (Rmult_eq_reg_l (INR n)); [|exact NZ]. rewrite (avg_mean n a' j Hn). rewrite <- Rmult_assoc, Rinv_r, Rmult_1_l by exact NZ.
    apply sum_ext. intros q Hq. pose proof (avg_mean 1 (b' q) j ltac:(lia)) as M. cbn [INR] in M. rewrite Rmult_1_l in M. rewrite M.
    destruct (crystals n 1 ori (crystal ori q) N a' (b' q) q 0 F ltac:(unfold few; lia) X (Y q Hq) Hq ltac:(lia)) as [E _].
    - unfold crystal at 2. change (4 * 0)%nat with 0%nat. cbn [skipn]. unfold crystal. now rewrite firstn_firstn.
    - rewrite (cauchy_nth _ _ _ _ E j Hj). cbn. ring.
  Qed.
  (** the order of the crystals in the input does not matter for the average *)
  Lemma shuffled os os' N a' b' : Permutation os os' -> (forall o, In o os -> List.length o = 4%nat) -> few (List.length os) -> os <> [] ->
    computes solver lu c s nst dt (List.length os) (concat os) N a' -> computes solver lu c s nst dt (List.length os) (concat os') N b' ->
    forall j, (j < 6)%nat -> stress_avg (List.length os) a' j = stress_avg (List.length os) b' j.
  Proof.
    intros HP H4 F Hne X Y j Hj. set (n := List.length os) in *. assert (Hn : (0 < n)%nat) by (destruct os; [congruence|cbn in n; subst n; lia]).
    assert (NZ : INR n <> 0) by (apply not_0_INR; lia). apply (Rmult_eq_reg_l (INR n)); [|exact NZ]. rewrite !avg_mean by exact Hn.
    assert (H4' : forall o, In o os' -> List.length o = 4%nat) by (intros o Ho; apply H4; apply (Permutation_in o (Permutation_sym HP) Ho)).
    destruct (proj1 (Permutation_nth os os' []) HP) as (HL & f & BF & IF & EF). cbv zeta in BF, IF, EF. fold n in BF, IF, EF, HL.
    rewrite <- (sum_perm n f BF IF (fun q => nth (6 * q + j) (ap_stress a') 0)). apply sum_ext. intros q Hq.
    symmetry. apply cauchy_nth; [|exact Hj].
    destruct (crystals n n (concat os') (concat os) N b' a' q (f q) F F Y X Hq (BF q Hq)) as [E _]; [|exact E].
    rewrite !crystal_concat by (try assumption; rewrite ?HL; auto). exact (EF q Hq).
  Qed.
End Runs.
