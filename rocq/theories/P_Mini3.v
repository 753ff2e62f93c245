(** The state before the first step, the average stress, and the device. *)
From Coq Require Import List ZArith Bool Lia PeanoNat Reals Lra Permutation String.
From Verif Require Import Num Arr NumR Util Eos Hard Elast Evptn MatModel Cases Miniapp SpecTensor SpecApi SpecStep SpecMini SpecObj P_Tensor
  P_Batch P_Batch3 P_Api P_Api2 P_Builtin P_Hist P_Batch4 P_Demo P_Mini P_Mini2.
Import ListNotations.
Local Open Scope R_scope.

(** ** Initial state *)
Ltac idx := change iHistA_shrateEff with 0%nat; change iHistA_shrEff with 1%nat; change iHistA_nFEval with 3%nat;
    change iHistLbQ with 9%nat; change iHistLbE with 4%nat; change iHistLbH with 13%nat; change qdim with 4%nat; change ntvec with 5%nat; change ne with 1%nat;
    cbn [Nat.add].
Section Init.
  Context {T : Type} {N : Num T}.
  Variables (ori hist : list T).

  Lemma init_length st i : List.length (init_point ori hist 1 14 12 28 st i) = List.length st.
  Proof. unfold init_point. cbv zeta. cbn [seq fold_left]. now rewrite !updl_length, !upd_length, !updl_length, !upd_length. Qed.

  Lemma init_out st i j : (j < i * 28 \/ i * 28 + 28 <= j)%nat -> get (init_point ori hist 1 14 12 28 st i) j = get st j.
  Proof.
    intros H. unfold init_point. cbv zeta. cbn [seq fold_left]. idx.
    rewrite get_updl_out by (rewrite tab_length; lia).
    rewrite get_upd_other by lia.
    rewrite get_updl_out by (rewrite tab_length; lia).
    rewrite get_updl_out by (rewrite tab_length; lia).
    rewrite get_updl_out by (rewrite tab_length; lia).
    rewrite !get_upd_other by lia. reflexivity.
  Qed.

  Definition init_val (i r : nat) : T :=
    if Nat.eqb r 26 then nZ 1 else if Nat.eqb r 27 then nZ 0 else
    if andb (Nat.leb 9 r) (Nat.ltb r 13) then get ori (i * 4 + (r - 9)) else get hist r.

  Lemma init_in st i r : (i * 28 + 28 <= List.length st)%nat -> (r < 28)%nat -> r <> 2%nat ->
    get (init_point ori hist 1 14 12 28 st i) (i * 28 + r) = init_val i r.
  Proof.
    intros HL Hr H2. unfold init_point. cbv zeta. cbn [seq fold_left].
    set (g := get ori). set (h := get hist).
    idx.
    destruct (Nat.eq_dec r 27) as [->|N27].
    { rewrite get_updl_in by (rewrite ?tab_length, ?upd_length, ?updl_length; repeat (rewrite ?upd_length, ?updl_length); lia).
      rewrite tab_length || idtac. replace (i * 28 + 27 - (i * 28 + 27))%nat with 0%nat by lia. reflexivity. }
    rewrite get_updl_out by (rewrite tab_length; lia).
    destruct (Nat.eq_dec r 13) as [->|N13].
    { rewrite get_upd_same by (repeat (rewrite ?upd_length, ?updl_length); lia). reflexivity. }
    rewrite get_upd_other by lia.
    destruct (le_lt_dec 14 r) as [G14|L14].
    - destruct (Nat.eq_dec r 26) as [->|N26].
      + rewrite get_updl_out by (rewrite tab_length; lia). rewrite get_updl_out by (rewrite tab_length; lia).
        rewrite get_updl_out by (rewrite tab_length; lia).
        rewrite get_upd_same by (repeat (rewrite ?upd_length, ?updl_length); lia). reflexivity.
      + rewrite get_updl_in by (rewrite ?tab_length; repeat (rewrite ?upd_length, ?updl_length); lia).
        rewrite get_tab by lia. unfold init_val.
        destruct (Nat.eqb_spec r 26); [lia|]. destruct (Nat.eqb_spec r 27); [lia|].
        destruct (Nat.ltb_spec r 13); [lia|]. rewrite andb_false_r. unfold h. f_equal. lia.
    - rewrite get_updl_out by (rewrite tab_length; lia). unfold init_val.
      destruct (Nat.eqb_spec r 26); [lia|]. destruct (Nat.eqb_spec r 27); [lia|].
      destruct (Nat.ltb_spec r 13); [|lia]. rewrite andb_true_r.
      destruct (Nat.leb_spec 9 r).
      + rewrite get_updl_out by (rewrite tab_length; lia).
        rewrite get_updl_in by (rewrite ?tab_length; repeat (rewrite ?upd_length, ?updl_length); lia).
        rewrite get_tab by lia. unfold g. f_equal. lia.
      + destruct (le_lt_dec 4 r).
        * rewrite get_updl_in by (rewrite ?tab_length; repeat (rewrite ?upd_length, ?updl_length); lia).
          rewrite get_tab by lia. unfold h. f_equal. lia.
        * rewrite get_updl_out by (rewrite tab_length; lia). rewrite get_updl_out by (rewrite tab_length; lia).
          rewrite get_upd_other by lia.
          destruct (Nat.eq_dec r 3) as [->|N3]; [rewrite get_upd_same by (repeat rewrite upd_length; lia); reflexivity|].
          rewrite get_upd_other by lia.
          destruct (Nat.eq_dec r 1) as [->|N1]; [rewrite get_upd_same by (repeat rewrite upd_length; lia); reflexivity|].
          rewrite get_upd_other by lia. assert (r = 0)%nat by lia. subst r.
          rewrite get_upd_same by (repeat rewrite upd_length; lia). reflexivity.
  Qed.
  Lemma init_two st i : get (init_point ori hist 1 14 12 28 st i) (i * 28 + 2) = get st (i * 28 + 2).
  Proof.
    unfold init_point. cbv zeta. cbn [seq fold_left]. idx.
    rewrite get_updl_out by (rewrite tab_length; lia).
    rewrite get_upd_other by lia.
    rewrite get_updl_out by (rewrite tab_length; lia).
    rewrite get_updl_out by (rewrite tab_length; lia).
    rewrite get_updl_out by (rewrite tab_length; lia).
    rewrite !get_upd_other by lia. reflexivity.
  Qed.

  Lemma init_all qs : forall st, NoDup qs ->
    List.length (init_data ori hist 1 14 12 28 qs st) = List.length st /\
    forall i r, (r < 28)%nat -> (i * 28 + 28 <= List.length st)%nat ->
      (r <> 2%nat -> In i qs -> get (init_data ori hist 1 14 12 28 qs st) (i * 28 + r) = init_val i r) /\
      (~ In i qs \/ r = 2%nat -> get (init_data ori hist 1 14 12 28 qs st) (i * 28 + r) = get st (i * 28 + r)).
  Proof.
    induction qs as [|x qs IH]; intros st HD; [split; [reflexivity|]; intros; split; [intros _ []|reflexivity]|].
    inversion HD as [|? ? Hx HD']; subst. cbn [init_data fold_left].
    destruct (IH (init_point ori hist 1 14 12 28 st x) HD') as [L H]. rewrite init_length in L. split; [exact L|].
    intros i r Hr HL. rewrite <- (init_length st x) in HL. destruct (H i r Hr HL) as [H1 H2]. rewrite init_length in HL.
    fold (init_data ori hist 1 14 12 28 qs (init_point ori hist 1 14 12 28 st x)). split.
    - intros N2 [E|Hin]; [|now apply H1]. subst i. rewrite H2 by (left; exact Hx). now apply init_in.
    - intros HO. destruct (Nat.eq_dec r 2) as [E2|N2].
      + subst r. rewrite H2 by (right; reflexivity). destruct (Nat.eq_dec x i) as [<-|NX]; [apply init_two|]. apply init_out. nia.
      + destruct HO as [HO|HO]; [|contradiction]. rewrite H2 by (left; intros X; apply HO; now right).
        apply init_out. assert (x <> i) by (intros ->; apply HO; now left). nia.
  Qed.
End Init.

(** velocity gradient *)
Lemma vgrad_len {T} {N : Num T} (v : list T) q : List.length (vgrad_point v q) = List.length v.
Proof. unfold vgrad_point. cbv zeta. now rewrite !upd_length. Qed.
Definition vg_val {T} {N : Num T} (r : nat) : T := match r with 0%nat => nlit (-5) (-1) | 4%nat => nlit (-5) (-1) | 8%nat => nZ 1 | _ => nZ 0 end.
Lemma vgrad_in {T} {N : Num T} (v : list T) q r : (9 * q + 9 <= List.length v)%nat -> (r < 9)%nat -> get (vgrad_point v q) (r + 9 * q) = vg_val r.
Proof.
  intros HL Hr. unfold vgrad_point. cbv zeta. cbn [Nat.mul Nat.add].
  do 9 (destruct r as [|r]; [cbn [Nat.add]; repeat (rewrite get_upd_other by lia); rewrite get_upd_same by (rewrite ?upd_length; lia); reflexivity|]). lia.
Qed.
Lemma vgrad_out {T} {N : Num T} (v : list T) q j : (j < 9 * q \/ 9 * q + 9 <= j)%nat -> get (vgrad_point v q) j = get v j.
Proof. intros H. unfold vgrad_point. cbv zeta. cbn [Nat.mul Nat.add]. rewrite !get_upd_other by lia. reflexivity. Qed.
Lemma vgrad_all {T} {N : Num T} qs : forall v : list T, NoDup qs -> List.length (setup_vgrad qs v) = List.length v /\
  forall q r, (9 * q + 9 <= List.length v)%nat -> (r < 9)%nat ->
    (In q qs -> get (setup_vgrad qs v) (r + 9 * q) = vg_val r) /\ (~ In q qs -> get (setup_vgrad qs v) (r + 9 * q) = get v (r + 9 * q)).
Proof.
  induction qs as [|x qs IH]; intros v HD; [split; [reflexivity|]; intros; split; [intros []|reflexivity]|].
  inversion HD as [|? ? Hx HD']; subst. cbn [setup_vgrad fold_left].
  destruct (IH (vgrad_point v x) HD') as [L H]. rewrite vgrad_len in L. split; [exact L|].
  intros q r HL Hr. rewrite <- (vgrad_len v x) in HL. destruct (H q r HL Hr) as [H1 H2]. rewrite vgrad_len in HL.
  fold (setup_vgrad qs (vgrad_point v x)). split.
  - intros [E|Hin]; [|now apply H1]. subst q. rewrite H2 by exact Hx. now apply vgrad_in.
  - intros HO. rewrite H2 by (intros X; apply HO; now right). apply vgrad_out.
    assert (x <> q) by (intros ->; apply HO; now left). lia.
Qed.

Lemma lit_mhalf : (@nlit R RNum (-5) (-1)) = - / 2.
Proof. unfold nlit. cbn. lra. Qed.

Lemma nodup_visits n qs : visits n qs -> NoDup qs.
Proof. exact (visits_nodup n qs). Qed.

Lemma started_by c s nst n ori qs a h : c_nH c = 1%nat -> c_nslip c = 12%nat -> nst = 28%nat -> mm_getHistInfo c s = Some h ->
  sized nst n a -> visits n qs ->
  exists a1, app_start c s ori n qs nst a = Some a1 /\ started nst n (map entry_init h) ori a1 /\
    forall q, (q < n)%nat -> stored nst a1 q 2 = stored nst a q 2.
Proof.
  intros HH HS HN HI SZ HV. unfold app_start. rewrite HI, HH, HS, HN. change (iHistLbGdot 1) with 14%nat.
  eexists. split; [reflexivity|]. set (hist := map (fun e : HistEntry R => snd (fst (fst e))) h).
  change (map entry_init h) with hist. destruct SZ as (S1 & S2 & S3). rewrite HN in *.
  destruct (init_all ori hist qs (ap_m a AH) (nodup_visits n qs HV)) as [LI HIn]. rewrite (S3 AH) in LI, HIn.
  destruct (vgrad_all (seq 0 n) (ap_vgrad a) (seq_NoDup n 0)) as [LV HVg]. rewrite S1 in LV, HVg.
  split; [split|].
  - unfold sized. cbn [ap_vgrad ap_stress ap_m]. split; [exact LV|]. split; [rewrite tab_length; change nsvec with 6%nat; lia|].
    intros x. destruct x; try apply S3. exact LI.
  - intros q Hq.
    assert (IQ : In q qs) by (apply (visits_in n qs q HV); exact Hq).
    assert (IS : In q (seq 0 n)) by (apply in_seq; lia).
    assert (A : forall r, (r < 28)%nat -> r <> 2%nat -> stored 28 {| ap_vgrad := setup_vgrad (seq 0 n) (ap_vgrad a); ap_stress := tab (n * nsvec) (fun _ => nZ 0);
        ap_m := mset (ap_m a) AH (init_data ori hist 1 14 12 28 qs (ap_m a AH)) |} q r = init_val ori hist q r).
    { intros r Hr N2. destruct (HIn q r Hr ltac:(nia)) as [X _]. specialize (X N2 IQ). unfold stored. cbn [ap_m].
      rewrite (Nat.mul_comm 28 q). exact X. }
    refine (conj _ (conj _ (conj _ (conj _ (conj _ _))))).
    + unfold velGrad. cbn [ap_vgrad].
      assert (V : forall r, (r < 9)%nat -> nth (r + 9 * q) (setup_vgrad (seq 0 n) (ap_vgrad a)) 0 = vg_val r).
      { intros r Hr. destruct (HVg q r ltac:(lia) Hr) as [X _]. exact (X IS). }
      cbn [Nat.mul]. cbn [Nat.add] in V |- *.
      pose proof (V 0%nat ltac:(lia)) as V0. pose proof (V 1%nat ltac:(lia)) as V1. pose proof (V 2%nat ltac:(lia)) as V2.
      pose proof (V 3%nat ltac:(lia)) as V3'. pose proof (V 4%nat ltac:(lia)) as V4. pose proof (V 5%nat ltac:(lia)) as V5.
      pose proof (V 6%nat ltac:(lia)) as V6. pose proof (V 7%nat ltac:(lia)) as V7. pose proof (V 8%nat ltac:(lia)) as V8.
      cbn [vg_val Nat.add Nat.mul] in V0, V1, V2, V3', V4, V5, V6, V7, V8. rewrite lit_mhalf in V0, V4.
      rewrite V0, V1, V2, V3', V4, V5, V6, V7, V8. reflexivity.
    + unfold cauchy, sym6. cbn [ap_stress].
      assert (Z : forall k, (k < 6)%nat -> nth (6 * q + k) (tab (n * nsvec) (fun _ => nZ 0)) 0 = 0).
      { intros k Hk. change (@nth R) with (@nth R). rewrite <- (getR (tab (n * nsvec) (fun _ => nZ 0))). rewrite get_tab by (change nsvec with 6%nat; nia). reflexivity. }
      now rewrite !Z by lia.
    + unfold volume. rewrite A by lia. reflexivity.
    + unfold energy. rewrite A by lia. reflexivity.
    + intros k Hk. rewrite A by lia. unfold init_val.
      destruct (Nat.eqb_spec (9 + k) 26); [lia|]. destruct (Nat.eqb_spec (9 + k) 27); [lia|].
      destruct (Nat.ltb_spec (9 + k) 13); [|lia]. destruct (Nat.leb_spec 9 (9 + k)); [|lia]. cbn [andb].
      rewrite getR. f_equal. lia.
    + intros k Hk N2 HK. rewrite A by lia. unfold init_val.
      destruct (Nat.eqb_spec k 26); [lia|]. destruct (Nat.eqb_spec k 27); [lia|].
      replace (andb (Nat.leb 9 k) (Nat.ltb k 13)) with false; [apply getR|].
      destruct (Nat.leb_spec 9 k), (Nat.ltb_spec k 13); try reflexivity. lia.
  - intros q Hq. destruct (HIn q 2%nat ltac:(lia) ltac:(nia)) as [_ X]. specialize (X (or_intror eq_refl)).
    unfold stored. cbn [ap_m]. rewrite (Nat.mul_comm 28 q). exact X.
Qed.

Theorem main_start hs openmp gpu model device params c s nst d n ori qs a :
  app_main hs openmp gpu model device params = Ready c s nst d -> sized nst n a -> visits n qs ->
  exists h a1, mm_getHistInfo c s = Some h /\ app_start c s ori n qs nst a = Some a1 /\ started nst n (map entry_init h) ori a1 /\
    forall q, (q < n)%nat -> stored nst a1 q 2 = stored nst a q 2.
Proof.
  intros HM SZ HV. pose proof (app_ready _ _ _ _ _ _ _ _ _ _ HM) as (HB & _ & HU & _ & _ & HN & HN').
  destruct (hist_in_use hs c s params HB HU) as (nm & HI & _).
  assert (NH : c_nH c = 1%nat) by (destruct HB as [ -> | [ -> | [ -> | [ -> | [ -> | [ -> | -> ]]]]]]; reflexivity).
  assert (NS : c_nslip c = 12%nat).
  { rewrite HN' in HN. unfold mm_numHist, numHist, iHistLbH in HN. rewrite NH in HN. lia. }
  destruct (started_by c s nst n ori qs a _ NH NS HN' HI SZ HV) as (a1 & H). eauto.
Qed.

(** the volume never changes in the built-in loading *)
Theorem main_volume hs openmp gpu model device params c s nst d solver lu dt n h ori orders a a' :
  app_main hs openmp gpu model device params = Ready c s nst d ->
  (36 * (Z.of_nat n - 1) <= 2147483647)%Z -> started nst n h ori a -> orders_ok n orders ->
  app_run solver lu c s nst dt n orders a = (BRet Done, a') ->
  forall q, (q < n)%nat -> volume nst a' q = 1.
Proof.
  intros HM HW [SZ HS] HO E q Hq.
  destruct (main_run _ _ _ _ _ _ _ _ _ _ solver lu dt n orders a a' HM HW SZ HO E) as (l & _ & _ & _ & _ & HQ).
  destruct (HQ q Hq) as [HV _]. destruct (HS q Hq) as (E1 & _ & E3 & _). rewrite HV, E1, E3. unfold trace. cbn [a00 a11 a22].
  replace (- / 2 + - / 2 + 1) with 0 by lra. rewrite Rmult_0_r, exp_0. ring.
Qed.

(** ** Average stress *)
Lemma avg_mean n a j : (0 < n)%nat -> INR n * stress_avg n a j = sum n (fun q => nth (6 * q + j) (ap_stress a) 0).
Proof.
  intros Hn. unfold stress_avg. cbv zeta. rewrite <- sum_scal_l. apply sum_ext. intros q Hq.
  change nsvec with 6%nat. rewrite getR. rops. rewrite (Nat.mul_comm q 6).
  rewrite <- INR_IZR_INZ. assert (0 < INR n) by (apply lt_0_INR; lia). field. lra.
Qed.

(** ** Device *)
Lemma device_named openmp gpu device d : app_device openmp gpu device = Some d -> names_device device d.
Proof.
  unfold app_device. destruct (String.eqb_spec device "CPU") as [->|_]; [intros E; apply some_inj in E; subst; constructor|].
  destruct openmp; cbn [andb].
  - destruct (String.eqb_spec device "OpenMP") as [->|_]; [intros E; apply some_inj in E; subst; constructor|].
    destruct gpu; cbn [andb]; [|discriminate].
    destruct (String.eqb_spec device "GPU") as [->|_]; [intros E; apply some_inj in E; subst; constructor|discriminate].
  - destruct gpu; cbn [andb]; [|discriminate].
    destruct (String.eqb_spec device "GPU") as [->|_]; [intros E; apply some_inj in E; subst; constructor|discriminate].
Qed.

Lemma main_device hs openmp gpu model device params c s nst d :
  app_main hs openmp gpu model device params = Ready c s nst d ->
  names_device device d /\ (model = "voce"%string \/ model = "mts"%string) /\ (model = "voce"%string -> mm_accel s = d) /\ (model = "mts"%string -> mm_accel s = CPU).
Proof.
  unfold app_main.
  destruct (mm_newStrides (cls_FCC_A hs) (app_strides (cls_FCC_A hs)) 8) as [a|] eqn:Ea; [|discriminate].
  destruct (mm_newStrides (cls_FCC_B hs) (app_strides (cls_FCC_B hs)) 8) as [b|] eqn:Eb; [|discriminate].
  destruct (app_device openmp gpu device) as [dev|] eqn:ED; [|discriminate]. apply device_named in ED.
  destruct (String.eqb_spec model "voce") as [->|NV].
  - destruct negb; [discriminate|]. destruct (app_init (cls_FCC_A hs) a params) as [a'|] eqn:E; [|discriminate].
    intros H. injection H as <- <- <- <-. split; [exact ED|]. split; [now left|]. split; [reflexivity|discriminate].
  - destruct (String.eqb_spec model "mts") as [->|NM]; [|discriminate].
    destruct negb; [discriminate|]. destruct (app_init (cls_FCC_B hs) b params) as [b'|] eqn:E; [|discriminate].
    intros H. injection H as <- <- <- <-. split; [exact ED|]. split; [now right|]. split; [discriminate|].
    intros _. destruct (app_init_facts _ _ _ _ Eb E) as (_ & _ & _ & R4 & _). exact R4.
Qed.
