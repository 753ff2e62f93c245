(** Every crystal of the mini-app behaves as if it were alone, in any arithmetic (C69). *)
From Coq Require Import List ZArith Bool Lia PeanoNat Permutation.
From Verif Require Import Num Arr Util Hard Evptn MatModel Cases Miniapp MiniPrint SpecApi SpecMini SpecState SpecMini2 SpecObj SpecPrint
  P_Batch P_Batch2 P_Batch3 P_Batch4 P_Api P_Api2 P_Builtin P_Hist P_State2 P_Mini P_Mini2 P_Mini3.
Import ListNotations.
Local Open Scope nat_scope.

Section Two.
  Context {T : Type} {N : Num T}.
  Variables (hs : Solver T) (c : MClass T) (s : MM T) (nst : nat) (pars : list T).
  Hypothesis HB : builtin hs c.
  Hypothesis HU : in_use c s pars.
  Hypothesis EC : mm_complete s = true.
  Hypothesis HV : app_view nst s.
  Hypothesis HN : nst = mm_numHist c + 2.
  Variables (solver : Solver T) (lu : LUSolver T) (dt : T).

  Definition gst (a : App T) q k := get (ap_m a AH) (nst * q + k).
  Definition gbefore (a : App T) q (b : App T) p : Prop :=
    (forall k, k < 9 -> get (ap_vgrad a) (9 * q + k) = get (ap_vgrad b) (9 * p + k)) /\
    (forall k, k < 6 -> get (ap_stress a) (6 * q + k) = get (ap_stress b) (6 * p + k)) /\
    forall k, k < nst -> ~ In k [0; 2; 3] -> gst a q k = gst b p k.
  Definition gafter (a : App T) q (b : App T) p : Prop :=
    (forall k, k < 9 -> get (ap_vgrad a) (9 * q + k) = get (ap_vgrad b) (9 * p + k)) /\
    (forall k, k < 6 -> get (ap_stress a) (6 * q + k) = get (ap_stress b) (6 * p + k)) /\
    forall k, k < nst -> gst a q k = gst b p k.
  Lemma gweak a q b p : gafter a q b p -> gbefore a q b p.
  Proof. intros (A & B & D). refine (conj A (conj B _)). intros k Hk _. now apply D. Qed.

  Lemma g_vgrad a q b p : gbefore a q b p -> forall i j, i < 3 -> j < 3 -> vgrad_view (ap_vgrad a) i j q = vgrad_view (ap_vgrad b) i j p.
  Proof.
    intros (V & _) i j Hi Hj. unfold vgrad_view. replace (i + 3 * j + 9 * q) with (9 * q + (i + 3 * j)) by lia. replace (i + 3 * j + 9 * p) with (9 * p + (i + 3 * j)) by lia. apply V. lia.
  Qed.
  Lemma g_block a q b p x : gbefore a q b p -> 16 <= nst -> x <> AH -> x <> AB -> s_block nst dt a x q = s_block nst dt b x p.
  Proof.
    intros HA H16 X1 X2. pose proof (g_vgrad a q b p HA) as V. destruct HA as (_ & E2 & E3).
    assert (ED : setup_d (ap_vgrad a) q = setup_d (ap_vgrad b) p) by (unfold setup_d; rewrite !V by lia; reflexivity).
    assert (ES : forall k, k < nst -> ~ In k [0; 2; 3] -> get (ap_m a AH) (q * nst + k) = get (ap_m b AH) (p * nst + k)).
    { intros k Hk Hn. rewrite (Nat.mul_comm q), (Nat.mul_comm p). exact (E3 k Hk Hn). }
    destruct x; try congruence; cbn [s_block].
    - exact ED.
    - unfold setup_w. rewrite !V by lia. reflexivity.
    - rewrite ED, ES; [reflexivity|lia|cbn; lia].
    - rewrite ES; [reflexivity|lia|cbn; lia].
    - assert (G' : forall k, k < 6 -> get (sub (ap_stress a) (q * 6) 6) k = get (sub (ap_stress b) (p * 6) 6) k).
      { intros k Hk. rewrite !get_sub by assumption. rewrite (Nat.mul_comm q), (Nat.mul_comm p). now apply E2. }
      unfold setup_stress. rewrite !G' by lia. reflexivity.
    - reflexivity.
    - reflexivity.
  Qed.
  Lemma g16 : 16 <= nst.
  Proof. rewrite HN. destruct HB as [ -> | [ -> | [ -> | [ -> | [ -> | [ -> | -> ]]]]]]; vm_compute; lia. Qed.
  Lemma gwidth x : per_point (c_nH c) (c_nslip c) true x <= width_of nst x.
  Proof. destruct x; cbn [per_point width_of]; try lia. rewrite HN. unfold mm_numHist. lia. Qed.
  Lemma get_entry (m : Mem T) x q k : stride_of (mm_strides s) x * q + k < List.length (m x) -> entry s m x q k = Some (get (m x) (width_of nst x * q + k)).
  Proof. intros H. unfold entry, get. rewrite (view_stride nst s x HV) in *. now apply nth_error_nth'. Qed.
  Lemma g_sized n a x q k : sized nst n a -> q < n -> k < width_of nst x -> entry s (ap_m a) x q k = Some (get (ap_m a x) (width_of nst x * q + k)).
  Proof. intros SZ Hq Hk. apply get_entry. rewrite (view_stride nst s x HV), (sized_width nst n a SZ x). nia. Qed.
  Lemma g_setup qs n a x q k : sized nst n a -> visits n qs -> q < n -> x <> AH -> x <> AB -> k < width_of nst x ->
    get (ap_m (setup_data nst dt qs a) x) (width_of nst x * q + k) = get (s_block nst dt a x q) k.
  Proof.
    intros SZ V Hq X1 X2 Hk. rewrite (setup_arr nst dt a x qs X1 X2 a eq_refl eq_refl eq_refl).
    replace (width_of nst x * q + k) with (q * width_of nst x + 0 + k) by lia.
    rewrite (blocks_in (width_of nst x) 0 (width_of nst x) (s_block nst dt a x)); try reflexivity; try assumption.
    - intros p. now apply s_block_len.
    - exact (visits_nodup _ _ V).
    - now apply (visits_in n qs q V).
    - rewrite (sized_width nst n a SZ x). nia.
  Qed.
  Lemma g_drive n n' a q b p qs ps : sized nst n a -> sized nst n' b -> visits n qs -> visits n' ps -> q < n -> p < n' -> gbefore a q b p ->
    forall x k, x <> AB -> k < per_point (c_nH c) (c_nslip c) true x -> (x = AH -> ~ In k [0; 2; 3]) ->
      entry s (ap_m (setup_data nst dt qs a)) x q k = entry s (ap_m (setup_data nst dt ps b)) x p k.
  Proof.
    intros SZ SZ' V V' Hq Hp HA x k XB Hk Hn. pose proof g16 as H16. pose proof (gwidth x) as HW.
    rewrite (g_sized n (setup_data nst dt qs a)), (g_sized n' (setup_data nst dt ps b)) by (try apply setup_sized; try assumption; lia). f_equal.
    destruct (arr_dec x AH) as [->|XH].
    - destruct HA as (_ & _ & E3). destruct (setup_same nst dt qs a) as (_ & _ & -> & _). destruct (setup_same nst dt ps b) as (_ & _ & -> & _).
      apply E3; [cbn [width_of] in HW; lia|exact (Hn eq_refl)].
    - rewrite (g_setup qs n a), (g_setup ps n' b) by (try assumption; lia). now rewrite (g_block a q b p x HA H16 XH XB).
  Qed.

  Definition gbounded (n : nat) : Prop := no_wrap (mm_strides s) true n.
  Definition gcall (n : nat) (qs : list nat) (b : App T) (m1 : Mem T) : Prop :=
    mm_getResponse solver lu c s dt true (Z.of_nat n) (ap_m (setup_data nst dt qs b)) = (BRet Done, m1).
  Definition between (qs : list nat) (b : App T) (m1 : Mem T) : App T := {| ap_vgrad := ap_vgrad (setup_data nst dt qs b); ap_stress := ap_stress (setup_data nst dt qs b); ap_m := m1 |}.
  Lemma g_step n qs qs' b b' : app_step solver lu c s nst dt n qs qs' b = (BRet Done, b') <-> exists m1, gcall n qs b m1 /\ b' = retrieve_data nst qs' (between qs b m1).
  Proof.
    unfold app_step, gcall, between. destruct (mm_getResponse solver lu c s dt true (Z.of_nat n) (ap_m (setup_data nst dt qs b))) as [o m]. split.
    - intros E. exists m. destruct o as [o|]; [|discriminate]. destruct o; try discriminate. split; [reflexivity|]. congruence.
    - intros (m1 & E & ->). assert (m = m1) by congruence. assert (o = BRet Done) by congruence. subst. reflexivity.
  Qed.
  Lemma g_batch_ok n a : gbounded n -> sized nst n a -> batch_ok c s true n (ap_m a).
  Proof.
    intros HW (_ & _ & S3). split; [exact HW|]. intros x i Hi Hp. rewrite (view_stride nst s x HV), S3. pose proof (gwidth x) as W.
    destruct x; cbn [width_of] in *; nia.
  Qed.
  Lemma g_frame n m m1 : batch_ok c s true n m -> mm_getResponse solver lu c s dt true (Z.of_nat n) m = (BRet Done, m1) -> forall x, List.length (m1 x) = List.length (m x).
  Proof.
    intros HO HC. destruct (in_use_ok c s pars HU) as (HR & mat & tol & Er). destruct n as [|n].
    - unfold mm_getResponse in HC. rewrite EC in HC. cbn in HC. apply (f_equal snd) in HC. cbn in HC. rewrite HC. auto.
    - destruct (api_batch c s solver lu dt true (S n) m mat tol HR EC Er HO) as (o & m2 & E & U & _).
      rewrite HC in E. apply (f_equal snd) in E. cbn [snd] in E. rewrite E. exact (proj1 U).
  Qed.
  Lemma g_setup_ok n qs b : gbounded n -> sized nst n b -> batch_ok c s true n (ap_m (setup_data nst dt qs b)).
  Proof. intros HW SZ. apply g_batch_ok; [exact HW|]. now apply setup_sized. Qed.
  Lemma g_between n qs b m1 : gbounded n -> sized nst n b -> gcall n qs b m1 -> sized nst n (between qs b m1).
  Proof.
    intros HW SZ E. destruct (setup_sized nst n dt qs b SZ) as (S1 & S2 & S3). refine (conj S1 (conj S2 _)). intros x. cbn [between ap_m].
    rewrite (g_frame n _ m1 (g_setup_ok n qs b HW SZ) E x). apply S3.
  Qed.
  Lemma g_step_ok n qs qs' a : gbounded n -> sized nst n a -> visits n qs ->
    (forall q, q < n -> exists n' p b ps ps' b', gbounded n' /\ sized nst n' b /\ visits n' ps /\ p < n' /\ gbefore a q b p /\
      app_step solver lu c s nst dt n' ps ps' b = (BRet Done, b')) ->
    exists a', app_step solver lu c s nst dt n qs qs' a = (BRet Done, a').
  Proof.
    intros HW SZ V H.
    destruct (batch_succeeds c pars solver lu s n (ap_m (setup_data nst dt qs a)) dt true HU EC (g_setup_ok n qs a HW SZ)) as [m1 E].
    - intros q Hq. destruct (H q Hq) as (n' & p & b & ps & ps' & b' & HW' & SZ' & V' & Hp & HA & E). apply g_step in E. destruct E as (m1 & E & _).
      exists {| v_s := s; v_dt := dt; v_mtan := true; v_n := n'; v_i := p; v_m := ap_m (setup_data nst dt ps b); v_m1 := m1 |}. cbn [v_s v_dt v_mtan v_n v_i v_m v_m1].
      refine (conj (conj HU (conj (g_setup_ok n' ps b HW' SZ') (conj Hp E))) (conj eq_refl (conj eq_refl (conj _ _)))).
      + intros x k Hx Hk. symmetry. apply (g_drive n n' a q b p qs ps SZ SZ' V V' Hq Hp HA); [intros ->; cbn in Hx; intuition discriminate|exact Hk|intros ->; cbn in Hx; intuition discriminate].
      + intros x k Hx Hk Hn. symmetry. apply (g_drive n n' a q b p qs ps SZ SZ' V V' Hq Hp HA); [intros ->; cbn in Hx; intuition discriminate| |exact Hn].
        rewrite (pp_false c true x) by (intros ->; cbn in Hx; intuition discriminate). exact Hk.
    - exists (retrieve_data nst qs' (between qs a m1)). apply g_step. exists m1. split; [exact E|reflexivity].
  Qed.
  (** what retrieval leaves *)
  Lemma g_retrieve n qs a q : sized nst n a -> visits n qs -> q < n ->
    (forall k, k < 6 -> get (ap_stress (retrieve_data nst qs a)) (6 * q + k) = get (retrieve_stress (sub (ap_m a AS) (q * 7) 7)) k) /\
    (forall k, k < nst - 2 -> gst (retrieve_data nst qs a) q k = gst a q k) /\
    gst (retrieve_data nst qs a) q (nst - 2) = get (ap_m a AV) (4 * q + 1) /\ gst (retrieve_data nst qs a) q (nst - 1) = get (ap_m a AE) (1 * q + 0).
  Proof.
    intros SZ V Hq. pose proof (visits_nodup _ _ V) as ND. pose proof (proj1 (visits_in n qs q V) Hq) as HI. pose proof g16 as H16.
    destruct SZ as (S1 & S2 & S3). assert (H2 : 2 <= nst) by lia.
    assert (HW : forall k, k < 2 -> gst (retrieve_data nst qs a) q (nst - 2 + k) = get (r_state a q) k).
    { intros k Hk. unfold gst. rewrite (retrieve_state nst a H2 qs a eq_refl eq_refl).
      replace (nst * q + (nst - 2 + k)) with (q * nst + (nst - 2) + k) by lia.
      apply (blocks_in nst (nst - 2) 2 (r_state a)); try assumption; try reflexivity; try lia. rewrite (S3 AH). nia. }
    split; [|split; [|split]].
    - intros k Hk. rewrite (retrieve_stresses nst a qs a eq_refl). replace (6 * q + k) with (q * 6 + 0 + k) by lia.
      apply (blocks_in 6 0 6 (r_stress a)); try assumption; try reflexivity. rewrite S2. lia.
    - intros k Hk. unfold gst. rewrite (retrieve_state nst a H2 qs a eq_refl eq_refl).
      apply (blocks_out nst (nst - 2) 2 (r_state a)); [lia | reflexivity |].
      intros p _. assert (p < q \/ p = q \/ q < p) as [?|[?|?]] by lia; nia.
    - replace (nst - 2) with (nst - 2 + 0) by lia. rewrite HW by lia. unfold r_state, get. cbn [nth]. f_equal. lia.
    - replace (nst - 1) with (nst - 2 + 1) by lia. rewrite HW by lia. unfold r_state, get. cbn [nth]. f_equal. lia.
  Qed.
  Lemma g_step_same n n' qs qs' ps ps' a a' b b' q p : gbounded n -> gbounded n' -> sized nst n a -> sized nst n' b -> visits n qs -> visits n qs' -> visits n' ps -> visits n' ps' ->
    q < n -> p < n' -> gbefore a q b p ->
    app_step solver lu c s nst dt n qs qs' a = (BRet Done, a') -> app_step solver lu c s nst dt n' ps ps' b = (BRet Done, b') -> gafter a' q b' p.
  Proof.
    intros HW HW' SZ SZ' V1 V2 V1' V2' Hq Hp HA E E'. pose proof g16 as H16.
    apply g_step in E. destruct E as (m1 & E & ->). apply g_step in E'. destruct E' as (m1' & E' & ->).
    pose proof (g_between n qs a m1 HW SZ E) as B. pose proof (g_between n' ps b m1' HW' SZ' E') as B'.
    assert (RS : forall x k, k < per_point (c_nH c) (c_nslip c) true x -> get (m1 x) (width_of nst x * q + k) = get (m1' x) (width_of nst x * p + k)).
    { intros x k Hk. pose proof (gwidth x) as HWx.
      destruct (result_same c solver lu dt true s s pars n n' (ap_m (setup_data nst dt qs a)) (ap_m (setup_data nst dt ps b)) q p HU HU (g_setup_ok n qs a HW SZ) (g_setup_ok n' ps b HW' SZ') Hq Hp) with (m1 := m1) (m1' := m1') (a := x) (k := k) as [R1 R2]; try assumption.
      - intros y j Hy Hj. apply (g_drive n n' a q b p qs ps SZ SZ' V1 V1' Hq Hp HA); [intros ->; cbn in Hy; intuition discriminate|exact Hj|intros ->; cbn in Hy; intuition discriminate].
      - intros y j Hy Hj Hn. apply (g_drive n n' a q b p qs ps SZ SZ' V1 V1' Hq Hp HA); [intros ->; cbn in Hy; intuition discriminate| |exact Hn].
        rewrite (pp_false c true y) by (intros ->; cbn in Hy; intuition discriminate). exact Hj.
      - pose proof (g_sized n (between qs a m1) x q k B Hq ltac:(lia)) as X1. pose proof (g_sized n' (between ps b m1') x p k B' Hp ltac:(lia)) as X2. cbn [between ap_m] in X1, X2. congruence. }
    destruct (g_retrieve n qs' _ q B V2 Hq) as (T1 & T2 & T3 & T4). destruct (g_retrieve n' ps' _ p B' V2' Hp) as (U1 & U2 & U3 & U4).
    destruct HA as (A1 & _). split; [|split].
    - intros k Hk. rewrite !retrieve_vgrad. cbn [between ap_vgrad]. destruct (setup_same nst dt qs a) as (-> & _). destruct (setup_same nst dt ps b) as (-> & _). now apply A1.
    - intros k Hk. rewrite T1, U1 by exact Hk. f_equal. unfold retrieve_stress. change iSvecP with 6.
      assert (G : forall k, k < 7 -> get (sub (m1 AS) (q * 7) 7) k = get (sub (m1' AS) (p * 7) 7) k).
      { intros j Hj. rewrite !get_sub by exact Hj. rewrite (Nat.mul_comm q), (Nat.mul_comm p). exact (RS AS j Hj). }
      cbn [between ap_m]. rewrite !G by lia. reflexivity.
    - intros k Hk. assert (C3 : k < nst - 2 \/ k = nst - 2 \/ k = nst - 1) by lia. destruct C3 as [K|[->| ->]].
      + rewrite T2, U2 by exact K. apply (RS AH). cbn [per_point]. rewrite HN in K. unfold mm_numHist in K. lia.
      + rewrite T3, U3. apply (RS AV). cbn [per_point]. lia.
      + rewrite T4, U4. apply (RS AE). cbn [per_point]. lia.
  Qed.
  Lemma g_step_sized n qs qs' a a' : gbounded n -> sized nst n a -> app_step solver lu c s nst dt n qs qs' a = (BRet Done, a') -> sized nst n a'.
  Proof. intros HW SZ E. pose proof g16. apply g_step in E. destruct E as (m1 & E & ->). apply retrieve_sized; [lia|]. now apply g_between. Qed.
  Lemma g_cons n qs qs' r a a' : app_run solver lu c s nst dt n ((qs, qs') :: r) a = (BRet Done, a') <->
    exists a1, app_step solver lu c s nst dt n qs qs' a = (BRet Done, a1) /\ app_run solver lu c s nst dt n r a1 = (BRet Done, a').
  Proof.
    cbn [app_run]. destruct (app_step solver lu c s nst dt n qs qs' a) as [o a1]. split.
    - intros E. destruct o as [o|]; [|discriminate]. destruct o; try discriminate. exists a1. split; [reflexivity|exact E].
    - intros (x & E & E2). assert (o = BRet Done) by congruence. assert (a1 = x) by congruence. subst. exact E2.
  Qed.
  Lemma g_run_sized n : gbounded n -> forall os a a', sized nst n a -> app_run solver lu c s nst dt n os a = (BRet Done, a') -> sized nst n a'.
  Proof.
    intros HW. induction os as [|[qs qs'] r IH]; intros a a' SZ E; [cbn in E; assert (a' = a) by congruence; now subst|].
    apply g_cons in E. destruct E as (a1 & E1 & E2). exact (IH a1 a' (g_step_sized n qs qs' a a1 HW SZ E1) E2).
  Qed.
  Lemma g_run_same n n' : gbounded n -> gbounded n' -> forall q p, q < n -> p < n' -> forall os os' a a' b b', List.length os = List.length os' -> sized nst n a -> sized nst n' b -> orders_ok n os -> orders_ok n' os' ->
    gbefore a q b p -> app_run solver lu c s nst dt n os a = (BRet Done, a') -> app_run solver lu c s nst dt n' os' b = (BRet Done, b') ->
    gbefore a' q b' p /\ (os <> [] -> gafter a' q b' p).
  Proof.
    intros HW HW' q p Hq Hp. induction os as [|[qs qs'] r IH]; intros os' a a' b b' HL SZ SZ' HO HO' HA E E'.
    - destruct os'; [|discriminate]. cbn [app_run] in E, E'. assert (a' = a) by congruence. assert (b' = b) by congruence. subst. split; [exact HA|congruence].
    - destruct os' as [|[ps ps'] r']; [discriminate|]. apply g_cons in E. apply g_cons in E'. destruct E as (a1 & E1 & E2). destruct E' as (b1 & E1' & E2').
      destruct (HO (qs, qs') (or_introl eq_refl)) as [V1 V2]. destruct (HO' (ps, ps') (or_introl eq_refl)) as [V1' V2']. cbn [fst snd] in *.
      pose proof (g_step_same n n' qs qs' ps ps' a a1 b b1 q p HW HW' SZ SZ' V1 V2 V1' V2' Hq Hp HA E1 E1') as HA1.
      assert (HL' : List.length r = List.length r') by (cbn in HL; lia).
      destruct (IH r' a1 a' b1 b' HL' (g_step_sized n qs qs' a a1 HW SZ E1) (g_step_sized n' ps ps' b b1 HW' SZ' E1')
        (fun o H => HO o (or_intror H)) (fun o H => HO' o (or_intror H)) (gweak _ _ _ _ HA1) E2 E2') as [I1 I2].
      split; [exact I1|]. intros _. destruct r as [|o r]; [|apply I2; discriminate]. destruct r'; [|discriminate HL'].
      cbn [app_run] in E2, E2'. assert (a' = a1) by congruence. assert (b' = b1) by congruence. subst. exact HA1.
  Qed.
  Lemma g_run_ok n : gbounded n -> forall os a, sized nst n a -> orders_ok n os ->
    (forall q, q < n -> exists n' p b os' b', gbounded n' /\ sized nst n' b /\ orders_ok n' os' /\ List.length os' = List.length os /\ p < n' /\ gbefore a q b p /\
      app_run solver lu c s nst dt n' os' b = (BRet Done, b')) ->
    exists a', app_run solver lu c s nst dt n os a = (BRet Done, a').
  Proof.
    intros HW. induction os as [|[qs qs'] r IH]; intros a SZ HO H; [exists a; reflexivity|].
    destruct (HO (qs, qs') (or_introl eq_refl)) as [V1 V2]. cbn [fst snd] in *.
    destruct (g_step_ok n qs qs' a HW SZ V1) as [a1 E1].
    - intros q Hq. destruct (H q Hq) as (n' & p & b & os' & b' & HW' & SZ' & HO' & HL & Hp & HA & E). destruct os' as [|[ps ps'] r']; [discriminate|].
      apply g_cons in E. destruct E as (b1 & E1 & _). exists n', p, b, ps, ps', b1. destruct (HO' (ps, ps') (or_introl eq_refl)) as [X _].
      exact (conj HW' (conj SZ' (conj X (conj Hp (conj HA E1))))).
    - destruct (IH a1 (g_step_sized n qs qs' a a1 HW SZ E1) (fun o X => HO o (or_intror X))) as [a' E2].
      + intros q Hq. destruct (H q Hq) as (n' & p & b & os' & b' & HW' & SZ' & HO' & HL & Hp & HA & E). destruct os' as [|[ps ps'] r']; [discriminate|].
        destruct (HO' (ps, ps') (or_introl eq_refl)) as [V1' V2']. cbn [fst snd] in *. apply g_cons in E. destruct E as (b1 & E1' & E2').
        exists n', p, b1, r', b'. refine (conj HW' (conj (g_step_sized n' ps ps' b b1 HW' SZ' E1') (conj (fun o X => HO' o (or_intror X)) (conj _ (conj Hp (conj _ E2')))))).
        * cbn in HL. lia.
        * apply gweak. exact (g_step_same n n' qs qs' ps ps' a a1 b b1 q p HW HW' SZ SZ' V1 V2 V1' V2' Hq Hp HA E1 E1').
      + exists a'. apply g_cons. exists a1. split; assumption.
  Qed.
End Two.

Section Runs.
  Context {T : Type} {N : Num T}.
  Variables (hs : Solver T) (openmp gpu : bool) (model device : String.string) (params : list T) (c : MClass T) (s : MM T) (nst : nat) (d : Exec).
  Hypothesis HM : app_main hs openmp gpu model device params = Ready c s nst d.
  Variables (solver : Solver T) (lu : LUSolver T) (dt : T).

  Lemma get_crystal (ori : list T) q k : k < 4 -> get (crystal ori q) k = get ori (4 * q + k).
  Proof.
    intros Hk. unfold crystal, get.
    assert (F : forall (l : list T), nth k (firstn 4 l) nundef = nth k l nundef).
    { intros l. destruct l as [|x0 [|x1 [|x2 [|x3 l]]]]; cbn [firstn]; try reflexivity.
      do 4 (destruct k as [|k]; [reflexivity|]). lia. }
    rewrite F. generalize (4 * q). clear F Hk. intros m. revert ori. induction m as [|m IH]; intros ori; [reflexivity|].
    destruct ori as [|x ori]; [cbn; now destruct k|]. cbn [skipn Nat.add nth]. apply IH.
  Qed.
  (** the state before the first step *)
  Lemma g_start n ori qs a a1 h : sized nst n a -> visits n qs -> mm_getHistInfo c s = Some h -> app_start c s ori n qs nst a = Some a1 ->
    sized nst n a1 /\ forall q, q < n -> (forall k, k < 9 -> get (ap_vgrad a1) (9 * q + k) = vg_val k) /\ (forall k, k < 6 -> get (ap_stress a1) (6 * q + k) = nZ 0) /\
      forall k, k < nst -> k <> 2 -> gst nst a1 q k = init_val ori (map entry_init h) q k.
  Proof.
    intros SZ V EH ES. pose proof (app_ready _ _ _ _ _ _ _ _ _ _ HM) as (HB & _ & _ & _ & _ & HN & HN').
    assert (NH : c_nH c = 1) by (destruct HB as [ -> | [ -> | [ -> | [ -> | [ -> | [ -> | -> ]]]]]]; reflexivity).
    assert (NS : c_nslip c = 12).
    { rewrite HN' in HN. unfold mm_numHist, numHist, iHistLbH in HN. rewrite NH in HN. lia. }
    unfold app_start in ES. rewrite EH, NH, NS, HN' in ES. change (iHistLbGdot 1) with 14 in ES. rewrite HN' in *.
    set (hist := map (fun e : HistEntry T => snd (fst (fst e))) h) in *. change (map entry_init h) with hist.
    assert (E : a1 = {| ap_vgrad := setup_vgrad (seq 0 n) (ap_vgrad a); ap_stress := tab (n * nsvec) (fun _ => nZ 0);
              ap_m := mset (ap_m a) AH (init_data ori hist 1 14 12 28 qs (ap_m a AH)) |}) by (symmetry; exact (f_equal (fun o => match o with Some x => x | None => a1 end) ES)). clear ES. subst a1.
    destruct SZ as (S1 & S2 & S3).
    destruct (init_all ori hist qs (ap_m a AH) (visits_nodup n qs V)) as [LI HIn]. rewrite (S3 AH) in LI, HIn.
    destruct (vgrad_all (seq 0 n) (ap_vgrad a) (seq_NoDup n 0)) as [LV HVg]. rewrite S1 in LV, HVg.
    split.
    - unfold sized. cbn [ap_vgrad ap_stress ap_m]. split; [exact LV|]. split; [rewrite tab_length; change nsvec with 6; lia|].
      intros x. destruct x; try apply S3. exact LI.
    - intros q Hq. assert (IQ : In q qs) by (apply (visits_in n qs q V); exact Hq). assert (IS : In q (seq 0 n)) by (apply in_seq; lia).
      cbn [ap_vgrad ap_stress ap_m]. split; [|split].
      + intros k Hk. destruct (HVg q k ltac:(lia) Hk) as [X _]. rewrite (Nat.add_comm (9 * q)). exact (X IS).
      + intros k Hk. rewrite get_tab by (change nsvec with 6; nia). reflexivity.
      + intros r Hr N2. destruct (HIn q r Hr ltac:(nia)) as [X _]. specialize (X N2 IQ). unfold gst. cbn [ap_m]. rewrite (Nat.mul_comm 28 q). exact X.
  Qed.
  Lemma g_started n n' ori ori' qs ps a b a1 b1 q p : sized nst n a -> visits n qs -> sized nst n' b -> visits n' ps ->
    app_start c s ori n qs nst a = Some a1 -> app_start c s ori' n' ps nst b = Some b1 -> q < n -> p < n' -> crystal ori q = crystal ori' p -> gbefore nst a1 q b1 p.
  Proof.
    intros SZ V SZ' V' E E' Hq Hp EQ. assert (EH : exists h, mm_getHistInfo c s = Some h) by (unfold app_start in E; destruct (mm_getHistInfo c s) as [h|]; [eauto|discriminate]).
    destruct EH as [h EH]. destruct (g_start n ori qs a a1 h SZ V EH E) as [_ A]. destruct (g_start n' ori' ps b b1 h SZ' V' EH E') as [_ B].
    destruct (A q Hq) as (A1 & A2 & A3). destruct (B p Hp) as (B1 & B2 & B3). split; [|split].
    - intros k Hk. rewrite A1, B1 by exact Hk. reflexivity.
    - intros k Hk. rewrite A2, B2 by exact Hk. reflexivity.
    - intros k Hk Hn. assert (K2 : k <> 2) by (intros ->; apply Hn; cbn; tauto). rewrite A3, B3 by assumption.
      unfold init_val. destruct (Nat.eqb k 26); [reflexivity|]. destruct (Nat.eqb k 27); [reflexivity|].
      destruct (Nat.leb_spec 9 k), (Nat.ltb_spec k 13); cbn [andb]; try reflexivity.
      rewrite (Nat.mul_comm q), (Nat.mul_comm p), <- !get_crystal by lia. now rewrite EQ.
  Qed.
  Lemma g_few n : few n -> gbounded s n.
  Proof.
    intros F. destruct (app_ready _ _ _ _ _ _ _ _ _ _ HM) as (_ & _ & _ & _ & HV & _ & N28). apply (app_wrap nst s n HV); [lia|exact F].
  Qed.
  Lemma ne_get (l l' : list T) i j : i < List.length l -> j < List.length l' -> get l i = get l' j -> nth_error l i = nth_error l' j /\ nth_error l i <> None.
  Proof. intros H H' E. unfold get in E. rewrite (nth_error_nth' l nundef H), (nth_error_nth' l' nundef H'). split; [now f_equal|discriminate]. Qed.
  Lemma g_crystals n n' ori ori' S a' b' q p : few n -> few n' -> computes solver lu c s nst dt n ori S a' -> computes solver lu c s nst dt n' ori' S b' ->
    q < n -> p < n' -> crystal ori q = crystal ori' p -> same_stress a' q b' p /\ (0 < S -> same_crystal nst a' q b' p).
  Proof.
    intros F F' (a & qs & os & a1 & SZ & V & HO & HL & E1 & E2) (b & ps & os' & b1 & SZ' & V' & HO' & HL' & E1' & E2') Hq Hp EQ.
    destruct (app_ready _ _ _ _ _ _ _ _ _ _ HM) as (HB & _ & HU & EC & HV & HN & _).
    assert (EH : exists h, mm_getHistInfo c s = Some h) by (unfold app_start in E1; destruct (mm_getHistInfo c s) as [h|]; [eauto|discriminate]). destruct EH as [h EH].
    destruct (g_start n ori qs a a1 h SZ V EH E1) as [SA _]. destruct (g_start n' ori' ps b b1 h SZ' V' EH E1') as [SB _].
    destruct (g_run_same hs c s nst params HB HU EC HV HN solver lu dt n n' (g_few n F) (g_few n' F') q p Hq Hp os os' a1 a' b1 b' ltac:(congruence) SA SB HO HO'
      (g_started n n' ori ori' qs ps a b a1 b1 q p SZ V SZ' V' E1 E1' Hq Hp EQ) E2 E2') as [R1 R2].
    destruct (g_run_sized hs c s nst params HB HU EC HV HN solver lu dt n (g_few n F) os a1 a' SA E2) as (L1 & L2 & L3).
    destruct (g_run_sized hs c s nst params HB HU EC HV HN solver lu dt n' (g_few n' F') os' b1 b' SB E2') as (M1 & M2 & M3).
    assert (SS : same_stress a' q b' p). { intros k Hk. destruct R1 as (_ & X & _). apply ne_get; [rewrite L2; lia|rewrite M2; lia|exact (X k Hk)]. }
    split; [exact SS|]. intros HP. destruct R2 as (X1 & _ & X3); [destruct os; [cbn in HL; lia|discriminate]|]. refine (conj _ (conj SS _)).
    - intros k Hk. apply ne_get; [rewrite L1; lia|rewrite M1; lia|exact (X1 k Hk)].
    - intros k Hk. apply ne_get; [rewrite (L3 AH); nia|rewrite (M3 AH); nia|exact (X3 k Hk)].
  Qed.
  Lemma g_completes n ori S : few n ->
    (forall q, q < n -> exists n' ori' p b', few n' /\ computes solver lu c s nst dt n' ori' S b' /\ p < n' /\ crystal ori q = crystal ori' p) ->
    forall a qs orders a1, sized nst n a -> visits n qs -> orders_ok n orders -> List.length orders = S -> app_start c s ori n qs nst a = Some a1 ->
      exists a', app_run solver lu c s nst dt n orders a1 = (BRet Done, a').
  Proof.
    intros F H a qs orders a1 SZ V HO HL ES.
    destruct (app_ready _ _ _ _ _ _ _ _ _ _ HM) as (HB & _ & HU & EC & HV & HN & _).
    assert (EH : exists h, mm_getHistInfo c s = Some h) by (unfold app_start in ES; destruct (mm_getHistInfo c s) as [h|]; [eauto|discriminate]). destruct EH as [h EH].
    destruct (g_start n ori qs a a1 h SZ V EH ES) as [SA _].
    apply (g_run_ok hs c s nst params HB HU EC HV HN solver lu dt n (g_few n F) orders a1 SA HO).
    intros q Hq. destruct (H q Hq) as (n' & ori' & p & b' & F' & (b & ps & os' & b1 & SZ' & V' & HO' & HL' & E1' & E2') & Hp & E).
    destruct (g_start n' ori' ps b b1 h SZ' V' EH E1') as [SB _]. exists n', p, b1, os', b'.
    exact (conj (g_few n' F') (conj SB (conj HO' (conj (eq_trans HL' (eq_sym HL)) (conj Hp (conj (g_started n n' ori ori' qs ps a b a1 b1 q p SZ V SZ' V' ES E1' Hq Hp E) E2')))))).
  Qed.
  (** two runs of the same crystals print the same numbers *)
  Lemma g_printed n ori S a' b' t j : few n -> computes solver lu c s nst dt n ori S a' -> computes solver lu c s nst dt n ori S b' -> reduction n t -> j < 6 ->
    printed_stress n t a' j = printed_stress n t b' j.
  Proof.
    intros F X Y HT Hj. unfold printed_stress. cbv zeta.
    assert (IN : forall i, In i (points t) -> i < n) by (intros i Hi; apply (Permutation_in i HT) in Hi; apply in_seq in Hi; lia).
    assert (G : forall i, i < n -> get (ap_stress a') (i * nsvec + j) = get (ap_stress b') (i * nsvec + j)).
    { intros i Hi. destruct (g_crystals n n ori ori S a' b' i i F F X Y Hi Hi eq_refl) as [E _]. destruct (E j Hj) as [E' _].
      change nsvec with 6. rewrite (Nat.mul_comm i). unfold get. destruct (nth_error (ap_stress a') (6 * i + j)) as [u|] eqn:EU; [|destruct (E j Hj); contradiction].
      symmetry in E'. now rewrite (nth_error_nth _ _ nundef EU), (nth_error_nth _ _ nundef E'). }
    clear HT X Y. induction t as [i| |l IHl r IHr]; cbn [reduce_sum].
    - rewrite G; [reflexivity|]. apply IN. now left.
    - reflexivity.
    - rewrite IHl, IHr; [reflexivity| |]; intros i Hi; apply IN; cbn [points]; apply in_or_app; auto.
  Qed.
End Runs.
