(** Every crystal of the mini-app behaves as if it were alone (C69). *)
From Coq Require Import List ZArith Bool Lia PeanoNat Reals Lra Permutation.
From Verif Require Import Num NumR Arr Util Hard Evptn MatModel Cases Miniapp SpecTensor SpecApi SpecStep SpecMini SpecState SpecMini2
  P_Batch P_Batch2 P_Batch3 P_Batch4 P_Api P_Builtin P_Hist P_State2 P_Mini P_Mini2 P_Mini3.
Import ListNotations.
Local Open Scope R_scope.

Lemma entry_val s m x q k : (stride_of (mm_strides s) x * q + k < List.length (m x))%nat -> entry s m x q k = Some (val s m x q k).
Proof. intros H. unfold entry, val. now apply nth_error_nth'. Qed.

Section Two.
  Variables (hs : Solver R) (c : MClass R) (s : MM R) (nst : nat) (pars : list R).
  Hypothesis HB : builtin hs c.
  Hypothesis HU : in_use c s pars.
  Hypothesis EC : mm_complete s = true.
  Hypothesis HV : app_view nst s.
  Hypothesis HN : nst = (mm_numHist c + 2)%nat.
  Variables (solver : Solver R) (lu : LUSolver R) (dt : R).

  Lemma vgrad_alike a q b p : velGrad a q = velGrad b p -> forall i j, (i < 3)%nat -> (j < 3)%nat -> vgrad_view (ap_vgrad a) i j q = vgrad_view (ap_vgrad b) i j p.
  Proof.
    intros H i j Hi Hj. unfold velGrad in H. injection H as H0 H1 H2 H3 H4 H5 H6 H7 H8. unfold vgrad_view. rewrite !getR.
    destruct i as [|[|[|i]]]; [| | |lia]; (destruct j as [|[|[|j]]]; [| | |lia]); assumption.
  Qed.
  Lemma block_alike a q b p x : alike_before nst a q b p -> (16 <= nst)%nat -> x <> AH -> x <> AB -> s_block nst dt a x q = s_block nst dt b x p.
  Proof.
    intros (E1 & E2 & E3) H16 X1 X2. pose proof (vgrad_alike a q b p E1) as V.
    assert (ED : setup_d (ap_vgrad a) q = setup_d (ap_vgrad b) p) by (unfold setup_d; rewrite !V by lia; reflexivity).
    assert (ES : forall k, (k < nst)%nat -> ~ In k [0; 2; 3]%nat -> get (ap_m a AH) (q * nst + k) = get (ap_m b AH) (p * nst + k)).
    { intros k Hk Hn. specialize (E3 k Hk Hn). unfold stored in E3. rewrite !getR, (Nat.mul_comm q), (Nat.mul_comm p). exact E3. }
    destruct x; try congruence; cbn [s_block].
    - exact ED.
    - unfold setup_w. rewrite !V by lia. reflexivity.
    - rewrite ED, ES; [reflexivity|lia|cbn; lia].
    - rewrite ES; [reflexivity|lia|cbn; lia].
    - unfold cauchy, sym6 in E2. injection E2 as C0 C5 C4 _ C1 C3 _ _ C2.
      assert (G : forall k, (k < 6)%nat -> nth (6 * q + k) (ap_stress a) 0 = nth (6 * p + k) (ap_stress b) 0).
      { intros k Hk. do 6 (destruct k as [|k]; [assumption|]). lia. }
      assert (G' : forall k, (k < 6)%nat -> get (sub (ap_stress a) (q * 6) 6) k = get (sub (ap_stress b) (p * 6) 6) k).
      { intros k Hk. rewrite !get_sub by assumption. rewrite !getR, (Nat.mul_comm q), (Nat.mul_comm p). now apply G. }
      unfold setup_stress. rewrite !G' by lia. reflexivity.
    - reflexivity.
    - reflexivity.
  Qed.

  Lemma nst16 : (16 <= nst)%nat.
  Proof. rewrite HN. destruct HB as [ -> | [ -> | [ -> | [ -> | [ -> | [ -> | -> ]]]]]]; vm_compute; lia. Qed.
  Lemma width_pp x : (per_point (c_nH c) (c_nslip c) true x <= width_of nst x)%nat.
  Proof. destruct x; cbn [per_point width_of]; try lia. rewrite HN. unfold mm_numHist. lia. Qed.
  Lemma sized_entry n a x q k : sized nst n a -> (q < n)%nat -> (k < width_of nst x)%nat -> entry s (ap_m a) x q k = Some (val s (ap_m a) x q k).
  Proof. intros SZ Hq Hk. apply entry_val. rewrite (view_stride nst s x HV), (sized_width nst n a SZ x). nia. Qed.

  (** the inputs of the library call *)
  Lemma drive_alike n n' a q b p qs ps : sized nst n a -> sized nst n' b -> visits n qs -> visits n' ps -> (q < n)%nat -> (p < n')%nat -> alike_before nst a q b p ->
    forall x k, x <> AB -> (k < per_point (c_nH c) (c_nslip c) true x)%nat -> (x = AH -> ~ In k [0; 2; 3]%nat) ->
      entry s (ap_m (setup_data nst dt qs a)) x q k = entry s (ap_m (setup_data nst dt ps b)) x p k.
  Proof.
    intros SZ SZ' V V' Hq Hp HA x k XB Hk Hn. pose proof nst16 as H16. pose proof (width_pp x) as HW.
    rewrite (sized_entry n (setup_data nst dt qs a)), (sized_entry n' (setup_data nst dt ps b)) by (try apply setup_sized; try assumption; lia). f_equal.
    destruct (arr_dec x AH) as [->|XH].
    - destruct HA as (_ & _ & E3). unfold val. rewrite (view_stride nst s AH HV). destruct (setup_same nst dt qs a) as (_ & _ & -> & _). destruct (setup_same nst dt ps b) as (_ & _ & -> & _).
      apply E3; [cbn [width_of] in HW; lia|exact (Hn eq_refl)].
    - rewrite (val_setup nst n s ltac:(lia) HV dt qs a), (val_setup nst n' s ltac:(lia) HV dt ps b) by (try assumption; lia).
      now rewrite (block_alike a q b p x HA H16 XH XB).
  Qed.

  Definition bounded (n : nat) : Prop := no_wrap (mm_strides s) true n.
  (** a step that succeeds is a successful library call *)
  Definition call_at (n : nat) (qs : list nat) (b : App R) (m1 : Mem R) : Prop :=
    mm_getResponse solver lu c s dt true (Z.of_nat n) (ap_m (setup_data nst dt qs b)) = (BRet Done, m1).
  Definition after (qs qs' : list nat) (b : App R) (m1 : Mem R) : App R :=
    retrieve_data nst qs' {| ap_vgrad := ap_vgrad (setup_data nst dt qs b); ap_stress := ap_stress (setup_data nst dt qs b); ap_m := m1 |}.
  Lemma step_call n qs qs' b b' : app_step solver lu c s nst dt n qs qs' b = (BRet Done, b') <-> exists m1, call_at n qs b m1 /\ b' = after qs qs' b m1.
  Proof.
    unfold app_step, call_at, after. destruct (mm_getResponse solver lu c s dt true (Z.of_nat n) (ap_m (setup_data nst dt qs b))) as [o m]. split.
    - intros E. exists m. destruct o as [o|]; [|discriminate]. destruct o; try discriminate. split; [reflexivity|]. congruence.
    - intros (m1 & E & ->). assert (m = m1) by congruence. assert (o = BRet Done) by congruence. subst. reflexivity.
  Qed.
  Lemma setup_batch n qs b : bounded n -> sized nst n b -> batch_ok c s true n (ap_m (setup_data nst dt qs b)).
  Proof. intros HW SZ. apply (app_batch_ok c s nst n HV HN HW). now apply setup_sized. Qed.

  Lemma step_ok n qs qs' a : bounded n -> sized nst n a -> visits n qs ->
    (forall q, (q < n)%nat -> exists n' p b ps ps' b', bounded n' /\ sized nst n' b /\ visits n' ps /\ (p < n')%nat /\ alike_before nst a q b p /\
      app_step solver lu c s nst dt n' ps ps' b = (BRet Done, b')) ->
    exists a', app_step solver lu c s nst dt n qs qs' a = (BRet Done, a').
  Proof.
    intros HW SZ V H.
    destruct (batch_succeeds c pars solver lu s n (ap_m (setup_data nst dt qs a)) dt true HU EC (setup_batch n qs a HW SZ)) as [m1 E].
    - intros q Hq. destruct (H q Hq) as (n' & p & b & ps & ps' & b' & HW' & SZ' & V' & Hp & HA & E). apply step_call in E. destruct E as (m1 & E & _).
      exists {| v_s := s; v_dt := dt; v_mtan := true; v_n := n'; v_i := p; v_m := ap_m (setup_data nst dt ps b); v_m1 := m1 |}. cbn [v_s v_dt v_mtan v_n v_i v_m v_m1].
      refine (conj (conj HU (conj (setup_batch n' ps b HW' SZ') (conj Hp E))) (conj eq_refl (conj eq_refl (conj _ _)))).
      + intros x k Hx Hk. symmetry. apply (drive_alike n n' a q b p qs ps SZ SZ' V V' Hq Hp HA); [intros ->; cbn in Hx; intuition discriminate|exact Hk|intros ->; cbn in Hx; intuition discriminate].
      + intros x k Hx Hk Hn. symmetry. apply (drive_alike n n' a q b p qs ps SZ SZ' V V' Hq Hp HA); [intros ->; cbn in Hx; intuition discriminate| |exact Hn].
        rewrite (pp_false c true x) by (intros ->; cbn in Hx; intuition discriminate). exact Hk.
    - exists (after qs qs' a m1). apply step_call. exists m1. split; [exact E|reflexivity].
  Qed.
  Lemma step_same n n' qs qs' ps ps' a a' b b' q p : bounded n -> bounded n' -> sized nst n a -> sized nst n' b -> visits n qs -> visits n qs' -> visits n' ps -> visits n' ps' ->
    (q < n)%nat -> (p < n')%nat -> alike_before nst a q b p ->
    app_step solver lu c s nst dt n qs qs' a = (BRet Done, a') -> app_step solver lu c s nst dt n' ps ps' b = (BRet Done, b') -> alike nst a' q b' p.
  Proof.
    intros HW HW' SZ SZ' V1 V2 V1' V2' Hq Hp HA E E'. pose proof nst16 as H16.
    destruct (in_use_ok c s pars HU) as (HR & _).
    destruct (step_is hs c s nst n HB HR HV HN HW solver lu dt qs qs' a a' SZ V1 V2 E) as (bc & _ & _ & _ & _ & _ & _ & _ & _ & _ & VG & _).
    destruct (step_is hs c s nst n' HB HR HV HN HW' solver lu dt ps ps' b b' SZ' V1' V2' E') as (bc' & _ & _ & _ & _ & _ & _ & _ & _ & _ & VG' & _).
    apply step_call in E. destruct E as (m1 & E & EA). apply step_call in E'. destruct E' as (m1' & E' & EA').
    assert (RS : forall x k, (k < per_point (c_nH c) (c_nslip c) true x)%nat -> val s m1 x q k = val s m1' x p k).
    { intros x k Hk.
      destruct (result_same c solver lu dt true s s pars n n' (ap_m (setup_data nst dt qs a)) (ap_m (setup_data nst dt ps b)) q p HU HU (setup_batch n qs a HW SZ) (setup_batch n' ps b HW' SZ') Hq Hp) with (m1 := m1) (m1' := m1') (a := x) (k := k) as [R1 R2]; try assumption.
      - intros y j Hy Hj. apply (drive_alike n n' a q b p qs ps SZ SZ' V1 V1' Hq Hp HA); [intros ->; cbn in Hy; intuition discriminate|exact Hj|intros ->; cbn in Hy; intuition discriminate].
      - intros y j Hy Hj Hn. apply (drive_alike n n' a q b p qs ps SZ SZ' V1 V1' Hq Hp HA); [intros ->; cbn in Hy; intuition discriminate| |exact Hn].
        rewrite (pp_false c true y) by (intros ->; cbn in Hy; intuition discriminate). exact Hj.
      - unfold entry in R1, R2. unfold val.
        destruct (nth_error (m1 x) (stride_of (mm_strides s) x * q + k)) as [u|] eqn:EU; [|contradiction]. symmetry in R1.
        rewrite (nth_error_nth _ _ 0 EU), (nth_error_nth _ _ 0 R1). reflexivity. }
    assert (L : forall n qs (HW : bounded n) b m1, sized nst n b -> call_at n qs b m1 -> sized nst n {| ap_vgrad := ap_vgrad (setup_data nst dt qs b); ap_stress := ap_stress (setup_data nst dt qs b); ap_m := m1 |}).
    { clear - HB HR HV HN. intros n qs HW b m1 SZ E.
      assert (G : good hs c {| b_s := s; b_solver := solver; b_lu := lu; b_dt := dt; b_mtan := true; b_n := n; b_m := ap_m (setup_data nst dt qs b); b_m1 := m1 |})
        by exact (conj HB (conj HR (conj (setup_batch n qs b HW SZ) E))).
      destruct (good_frame hs c _ G) as [FL _]. cbn [b_m b_m1] in FL. destruct (setup_sized nst n dt qs b SZ) as (S1 & S2 & S3).
      refine (conj S1 (conj S2 _)). intros x. cbn [ap_m]. rewrite FL. apply S3. }
    pose proof (retrieve_taken nst n s ltac:(lia) HV qs' _ q (L n qs HW a m1 SZ E) V2 Hq) as (T1 & T2 & T3 & T4).
    pose proof (retrieve_taken nst n' s ltac:(lia) HV ps' _ p (L n' ps HW' b m1' SZ' E') V2' Hp) as (U1 & U2 & U3 & U4).
    fold (after qs qs' a m1) in T1, T2, T3, T4. fold (after ps ps' b m1') in U1, U2, U3, U4. rewrite <- EA in T1, T2, T3, T4. rewrite <- EA' in U1, U2, U3, U4.
    cbn [ap_m] in T1, T2, T3, T4, U1, U2, U3, U4.
    destruct HA as (A1 & _). split; [|split].
    - unfold velGrad in A1 |- *. rewrite VG, VG'. exact A1.
    - rewrite T1, U1. unfold devStress, sym6, pres. rewrite !RS by (cbn [per_point]; lia). reflexivity.
    - intros k Hk. assert (C3 : (k < nst - 2 \/ k = nst - 2 \/ k = nst - 1)%nat) by lia. destruct C3 as [K|[->| ->]].
      + rewrite T4, U4 by exact K. apply RS. cbn [per_point]. rewrite HN in K. unfold mm_numHist in K. lia.
      + unfold volume, vNew in T2, U2. rewrite T2, U2. apply RS. cbn [per_point]. lia.
      + unfold energy, eInt in T3, U3. rewrite T3, U3. apply RS. cbn [per_point]. lia.
  Qed.
  Lemma step_sized n qs qs' a a' : bounded n -> sized nst n a -> visits n qs -> visits n qs' -> app_step solver lu c s nst dt n qs qs' a = (BRet Done, a') -> sized nst n a'.
  Proof.
    intros HW SZ V V' E. destruct (in_use_ok c s pars HU) as (HR & _).
    destruct (step_is hs c s nst n HB HR HV HN HW solver lu dt qs qs' a a' SZ V V' E) as (bc & _ & _ & _ & _ & _ & _ & _ & _ & X & _). exact X.
  Qed.
  Lemma alike_weak a q b p : alike nst a q b p -> alike_before nst a q b p.
  Proof. intros (A & B & D). refine (conj A (conj B _)). intros k Hk _. now apply D. Qed.
  Lemma run_cons n qs qs' r a a' : app_run solver lu c s nst dt n ((qs, qs') :: r) a = (BRet Done, a') <->
    exists a1, app_step solver lu c s nst dt n qs qs' a = (BRet Done, a1) /\ app_run solver lu c s nst dt n r a1 = (BRet Done, a').
  Proof.
    cbn [app_run]. destruct (app_step solver lu c s nst dt n qs qs' a) as [o a1]. split.
    - intros E. destruct o as [o|]; [|discriminate]. destruct o; try discriminate. exists a1. split; [reflexivity|exact E].
    - intros (x & E & E2). assert (o = BRet Done) by congruence. assert (a1 = x) by congruence. subst. exact E2.
  Qed.
  Lemma run_same n n' : bounded n -> bounded n' -> forall q p, (q < n)%nat -> (p < n')%nat -> forall os os' a a' b b', List.length os = List.length os' -> sized nst n a -> sized nst n' b -> orders_ok n os -> orders_ok n' os' ->
    alike_before nst a q b p -> app_run solver lu c s nst dt n os a = (BRet Done, a') -> app_run solver lu c s nst dt n' os' b = (BRet Done, b') ->
    alike_before nst a' q b' p /\ (os <> [] -> alike nst a' q b' p).
  Proof.
    intros HW HW' q p Hq Hp. induction os as [|[qs qs'] r IH]; intros os' a a' b b' HL SZ SZ' HO HO' HA E E'.
    - destruct os'; [|discriminate]. cbn [app_run] in E, E'. assert (a' = a) by congruence. assert (b' = b) by congruence. subst. split; [exact HA|congruence].
    - destruct os' as [|[ps ps'] r']; [discriminate|]. apply run_cons in E. apply run_cons in E'. destruct E as (a1 & E1 & E2). destruct E' as (b1 & E1' & E2').
      destruct (HO (qs, qs') (or_introl eq_refl)) as [V1 V2]. destruct (HO' (ps, ps') (or_introl eq_refl)) as [V1' V2']. cbn [fst snd] in *.
      pose proof (step_same n n' qs qs' ps ps' a a1 b b1 q p HW HW' SZ SZ' V1 V2 V1' V2' Hq Hp HA E1 E1') as HA1.
      assert (HL' : List.length r = List.length r') by (cbn in HL; lia).
      destruct (IH r' a1 a' b1 b' HL' (step_sized n qs qs' a a1 HW SZ V1 V2 E1) (step_sized n' ps ps' b b1 HW' SZ' V1' V2' E1')
        (fun o H => HO o (or_intror H)) (fun o H => HO' o (or_intror H)) (alike_weak _ _ _ _ HA1) E2 E2') as [I1 I2].
      split; [exact I1|]. intros _. destruct r as [|o r]; [|apply I2; discriminate]. destruct r'; [|discriminate HL'].
      cbn [app_run] in E2, E2'. assert (a' = a1) by congruence. assert (b' = b1) by congruence. subst. exact HA1.
  Qed.
  Lemma run_ok n : bounded n -> forall os a, sized nst n a -> orders_ok n os ->
    (forall q, (q < n)%nat -> exists n' p b os' b', bounded n' /\ sized nst n' b /\ orders_ok n' os' /\ List.length os' = List.length os /\ (p < n')%nat /\ alike_before nst a q b p /\
      app_run solver lu c s nst dt n' os' b = (BRet Done, b')) ->
    exists a', app_run solver lu c s nst dt n os a = (BRet Done, a').
  Proof.
    intros HW. induction os as [|[qs qs'] r IH]; intros a SZ HO H; [exists a; reflexivity|].
    destruct (HO (qs, qs') (or_introl eq_refl)) as [V1 V2]. cbn [fst snd] in *.
    destruct (step_ok n qs qs' a HW SZ V1) as [a1 E1].
    - intros q Hq. destruct (H q Hq) as (n' & p & b & os' & b' & HW' & SZ' & HO' & HL & Hp & HA & E). destruct os' as [|[ps ps'] r']; [discriminate|].
      apply run_cons in E. destruct E as (b1 & E1 & _). exists n', p, b, ps, ps', b1. destruct (HO' (ps, ps') (or_introl eq_refl)) as [X _].
      exact (conj HW' (conj SZ' (conj X (conj Hp (conj HA E1))))).
    - destruct (IH a1 (step_sized n qs qs' a a1 HW SZ V1 V2 E1) (fun o X => HO o (or_intror X))) as [a' E2].
      + intros q Hq. destruct (H q Hq) as (n' & p & b & os' & b' & HW' & SZ' & HO' & HL & Hp & HA & E). destruct os' as [|[ps ps'] r']; [discriminate|].
        destruct (HO' (ps, ps') (or_introl eq_refl)) as [V1' V2']. cbn [fst snd] in *. apply run_cons in E. destruct E as (b1 & E1' & E2').
        exists n', p, b1, r', b'. refine (conj HW' (conj (step_sized n' ps ps' b b1 HW' SZ' V1' V2' E1') (conj (fun o X => HO' o (or_intror X)) (conj _ (conj Hp (conj _ E2')))))).
        * cbn in HL. lia.
        * apply alike_weak. exact (step_same n n' qs qs' ps ps' a a1 b b1 q p HW HW' SZ SZ' V1 V2 V1' V2' Hq Hp HA E1 E1').
      + exists a'. apply run_cons. exists a1. split; assumption.
  Qed.
End Two.
