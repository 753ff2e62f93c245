(** Steps and runs of the mini-app. *)
From Coq Require Import List ZArith Bool Lia PeanoNat Reals Lra Permutation String.
From Verif Require Import Num Arr NumR Util Eos Hard Elast Evptn MatModel Cases Miniapp SpecTensor SpecApi SpecStep SpecMini
  P_Batch P_Batch3 P_Api P_Builtin P_Hist P_Batch4 P_Demo P_Mini.
Import ListNotations.
Local Open Scope R_scope.

(** ** A successful call does not change sizes or inputs *)
Lemma good_frame hs c b : good hs c b ->
  (forall a, List.length (b_m1 b a) = List.length (b_m b a)) /\ b_m1 b AV = b_m b AV.
Proof.
  intros (HB & HR & HO & HC). destruct (b_n b) as [|n] eqn:En.
  - unfold mm_getResponse in HC. destruct (mm_complete (b_s b)); cbn in HC; [|discriminate].
    apply (f_equal snd) in HC. cbn in HC. rewrite HC. auto.
  - destruct (mm_complete (b_s b)) eqn:Ec; [|unfold mm_getResponse in HC; rewrite Ec in HC; discriminate].
    destruct (mm_ready (b_s b)) as [[mat tol]|] eqn:Er.
    + destruct (api_batch c (b_s b) (b_solver b) (b_lu b) (b_dt b) (b_mtan b) (S n) (b_m b) mat tol HR Ec Er HO)
        as (o & m1 & E & U & _).
      rewrite HC in E. apply (f_equal snd) in E. cbn [snd] in E. rewrite E. split.
      * exact (proj1 U).
      * apply (ro_not_own c (b_mtan b) (mm_strides (b_s b)) (S n) (b_m b) m1 AV); [now right; right|exact U].
    + unfold mm_getResponse in HC. rewrite Ec, Er in HC. cbn [negb] in HC.
      replace (seq 0 (Z.to_nat (Z.of_nat (S n)))) with (0%nat :: seq 1 n) in HC by (now rewrite Nat2Z.id). discriminate.
Qed.

(** ** The object the mini-app runs *)
Lemma new_strides {T} {N : Num T} (c : MClass T) s : mm_newStrides c (app_strides c) 8 = Some s -> mm_strides s = app_strides c.
Proof.
  unfold mm_newStrides. cbn [Nat.eqb negb].
  repeat match goal with |- (if ?x then _ else _) = _ -> _ => destruct x; [discriminate|] end.
  intros E. apply some_inj in E. rewrite <- E. reflexivity.
Qed.

Lemma app_init_facts {T} {N : Num T} (c : MClass T) s0 params s1 : mm_newStrides c (app_strides c) 8 = Some s0 ->
  app_init c s0 params = Some s1 ->
  reachable c s1 /\ mm_complete s1 = true /\ mm_strides s1 = app_strides c /\ mm_accel s1 = CPU /\ in_use c s1 params /\
  forall d, reachable c (mm_setExec s1 d) /\ in_use c (mm_setExec s1 d) params.
Proof.
  intros E1 E2. unfold app_init in E2. destruct (mm_init c s0 [] params []) as [o si] eqn:EI.
  destruct o; try discriminate.
  assert (ES : s1 = mm_doComplete si) by congruence. subst s1.
  assert (F : fst (mm_run c s0 [OInit [] params []; OComplete]) = mm_doComplete si).
  { unfold mm_run, mm_step. rewrite EI. reflexivity. }
  assert (A : mm_accel si = CPU).
  { assert (A0 : mm_accel s0 = CPU).
    { unfold mm_newStrides in E1. cbn [Nat.eqb negb] in E1.
      repeat match goal with H : (if ?x then _ else _) = _ |- _ => destruct x; [discriminate|] end.
      apply some_inj in E1. rewrite <- E1. reflexivity. }
    apply (f_equal (fun x => mm_accel (snd x))) in EI. cbn [snd] in EI. rewrite <- EI, <- A0. clear.
    unfold mm_init.
    repeat match goal with |- context [if ?x then _ else _] => destruct x; try reflexivity end.
    destruct c_sgSet; [|reflexivity]. destruct c_kinSet as [[? ?]|]; [|reflexivity].
    destruct el_getBulkMod; [|reflexivity].
    unfold eos_getInfo. cbv beta iota zeta.
    destruct negb; reflexivity. }
  assert (R0 : reachable c s0) by exact (reach_strides c _ _ _ [] E1).
  refine (conj _ (conj eq_refl (conj _ (conj A (conj _ _))))).
  - rewrite <- F. exact (reach_strides c _ _ _ _ E1).
  - rewrite <- F, run_strides. exact (new_strides c s0 E1).
  - apply (in_use_intro c s0 [] params [] si [OComplete] R0 EI). constructor; [|constructor]. exact I.
  - intros d. split.
    + change (mm_setExec (mm_doComplete si) d) with (fst (mm_run c si [OComplete; OSetExec d])).
      assert (F' : fst (mm_run c s0 [OInit [] params []; OComplete; OSetExec d]) = fst (mm_run c si [OComplete; OSetExec d])).
      { unfold mm_run, mm_step. rewrite EI. reflexivity. }
      rewrite <- F'. exact (reach_strides c _ _ _ _ E1).
    + apply (in_use_intro c s0 [] params [] si [OComplete; OSetExec d] R0 EI).
      repeat constructor; exact I.
Qed.

Lemma app_ready {T} {N : Num T} (hs : Solver T) openmp gpu model device params c s nst d :
  app_main hs openmp gpu model device params = Ready c s nst d ->
  builtin hs c /\ reachable c s /\ in_use c s params /\ mm_complete s = true /\ app_view nst s /\
  nst = (mm_numHist c + 2)%nat /\ nst = 28%nat.
Proof.
  unfold app_main.
  destruct (mm_newStrides (cls_FCC_A hs) (app_strides (cls_FCC_A hs)) 8) as [a|] eqn:Ea; [|discriminate].
  destruct (mm_newStrides (cls_FCC_B hs) (app_strides (cls_FCC_B hs)) 8) as [b|] eqn:Eb; [|discriminate].
  destruct (app_device openmp gpu device) as [dev|]; [|discriminate].
  destruct (String.eqb model "voce").
  - destruct negb; [discriminate|]. destruct (app_init (cls_FCC_A hs) a params) as [a'|] eqn:E; [|discriminate].
    intros H. injection H as <- <- <- <-.
    destruct (app_init_facts _ _ _ _ Ea E) as (R1 & R2 & R3 & _ & _ & R5). destruct (R5 dev) as [R6 R7].
    refine (conj _ (conj R6 (conj R7 (conj R2 (conj _ (conj _ eq_refl)))))); [now left | | reflexivity].
    unfold app_view. cbn [mm_strides mm_setExec]. rewrite R3. reflexivity.
  - destruct (String.eqb model "mts"); [|discriminate].
    destruct negb; [discriminate|]. destruct (app_init (cls_FCC_B hs) b params) as [b'|] eqn:E; [|discriminate].
    intros H. injection H as <- <- <- <-.
    destruct (app_init_facts _ _ _ _ Eb E) as (R1 & R2 & R3 & _ & R4 & R5).
    refine (conj _ (conj R1 (conj R4 (conj R2 (conj _ (conj _ eq_refl)))))); [now right; right; left | | reflexivity].
    unfold app_view. rewrite R3. reflexivity.
Qed.

(** ** One step *)
Section Step.
  Variables (hs : Solver R) (c : MClass R) (s : MM R) (nst n : nat).
  Hypothesis HB : builtin hs c.
  Hypothesis HR : reachable c s.
  Hypothesis HV : app_view nst s.
  Hypothesis HN : nst = (mm_numHist c + 2)%nat.
  Hypothesis HW : no_wrap (mm_strides s) true n.

  Lemma nst2 : (2 <= nst)%nat. Proof. lia. Qed.

  Lemma app_batch_ok a : sized nst n a -> batch_ok c s true n (ap_m a).
  Proof.
    intros (_ & _ & S3). split; [exact HW|]. intros x i Hi Hp. rewrite (view_stride nst s x HV), S3.
    destruct x; cbn [per_point width_of]; try nia.
    assert (numHist (c_nH c) (c_nslip c) <= nst)%nat by (rewrite HN; unfold mm_numHist; lia). nia.
  Qed.

  (** what a step is *)
  Definition is_step (solver : Solver R) (lu : LUSolver R) (dt : R) (a a' : App R) (b : BCall) : Prop :=
    good hs c b /\ b_s b = s /\ b_solver b = solver /\ b_lu b = lu /\ b_dt b = dt /\ b_mtan b = true /\ b_n b = n /\
    (forall q, (q < n)%nat -> given nst dt a s (b_m b) q /\ taken nst a' s (b_m1 b) q) /\
    sized nst n a' /\ ap_vgrad a' = ap_vgrad a /\ b_m1 b AV = b_m b AV /\
    (forall x, List.length (b_m b x) = (n * width_of nst x)%nat) /\ (forall x, List.length (b_m1 b x) = (n * width_of nst x)%nat).

  Lemma step_is solver lu dt qs qs' a a' : sized nst n a -> visits n qs -> visits n qs' ->
    app_step solver lu c s nst dt n qs qs' a = (BRet Done, a') -> exists b, is_step solver lu dt a a' b.
  Proof.
    intros SZ V1 V2 E. unfold app_step in E. set (a1 := setup_data nst dt qs a) in *.
    pose proof (setup_sized nst n dt qs a SZ) as SZ1. fold a1 in SZ1.
    destruct (mm_getResponse solver lu c s dt true (Z.of_nat n) (ap_m a1)) as [o m] eqn:EC.
    destruct o as [o|]; [|discriminate]. destruct o; try discriminate.
    set (a2 := {| ap_vgrad := ap_vgrad a1; ap_stress := ap_stress a1; ap_m := m |}) in *.
    assert (EA : a' = retrieve_data nst qs' a2) by (clear - E; congruence).
    set (b := {| b_s := s; b_solver := solver; b_lu := lu; b_dt := dt; b_mtan := true; b_n := n; b_m := ap_m a1; b_m1 := m |}).
    assert (G : good hs c b) by exact (conj HB (conj HR (conj (app_batch_ok a1 SZ1) EC))).
    destruct (good_frame hs c b G) as [FL FV]. cbn [b_m1 b_m b] in FL, FV.
    assert (SZ2 : sized nst n a2).
    { destruct SZ1 as (X1 & X2 & X3). split; [exact X1|]. split; [exact X2|]. intros x. cbn [ap_m a2]. rewrite FL. apply X3. }
    destruct (setup_same nst dt qs a) as (VG & _).
    exists b. unfold is_step. cbn [b_s b_solver b_lu b_dt b_mtan b_n b_m b_m1 b].
    refine (conj G (conj eq_refl (conj eq_refl (conj eq_refl (conj eq_refl (conj eq_refl (conj eq_refl (conj _ (conj _ (conj _ (conj FV (conj _ _)))))))))))).
    - intros q Hq. split.
      + exact (setup_given nst n s nst2 HV dt qs a q SZ V1 Hq).
      + rewrite EA. exact (retrieve_taken nst n s nst2 HV qs' a2 q SZ2 V2 Hq).
    - rewrite EA. exact (retrieve_sized nst n nst2 qs' a2 SZ2).
    - rewrite EA, retrieve_vgrad. exact VG.
    - apply SZ1.
    - intros x. rewrite FL. apply SZ1.
  Qed.

  (** the split of a symmetric tensor into deviator and pressure is unique *)
  Lemma split_unique A B p r : add3 A (scal3 (- p) I3) = add3 B (scal3 (- r) I3) -> trace A = 0 -> trace B = 0 -> A = B /\ p = r.
  Proof.
    destruct A as [A0 A1 A2 A3 A4 A5 A6 A7 A8], B as [B0 B1 B2 B3 B4 B5 B6 B7 B8]. unfold add3, scal3, I3, trace.
    cbn [a00 a01 a02 a10 a11 a12 a20 a21 a22]. intros E T1 T2. injection E as E0 E1 E2 E3 E4 E5 E6 E7 E8.
    assert (p = r) by lra. split; [f_equal; lra | assumption].
  Qed.

  Lemma cells_eq (m m' : Mem R) x : List.length (m x) = (n * width_of nst x)%nat -> List.length (m' x) = (n * width_of nst x)%nat ->
    (forall q k, (q < n)%nat -> (k < width_of nst x)%nat -> val s m x q k = val s m' x q k) -> m x = m' x.
  Proof.
    intros L L' H. apply list_get_ext; [congruence|]. intros j Hj. rewrite L in Hj.
    assert (W : (0 < width_of nst x)%nat) by (destruct (width_of nst x); lia).
    pose proof (Nat.div_mod j (width_of nst x)) as DM.
    assert (HD : (j / width_of nst x < n)%nat) by (apply Nat.div_lt_upper_bound; lia).
    pose proof (Nat.mod_upper_bound j (width_of nst x)) as HM.
    specialize (H (j / width_of nst x)%nat (j mod width_of nst x)%nat HD ltac:(lia)).
    unfold val in H. rewrite (view_stride nst s x HV) in H. rewrite <- DM in H by lia. exact H.
  Qed.

  (** the next step continues with energy and stress of the one before *)
  Lemma step_follows solver lu dt a a' a'' b b' : is_step solver lu dt a a' b -> is_step solver lu dt a' a'' b' ->
    follows [AE; AS] b b'.
  Proof.
    intros (G & E1 & _ & _ & E4 & _ & E5 & Q & SZ & _ & _ & L1 & L2) (G' & E1' & _ & _ & E4' & _ & E5' & Q' & _ & _ & _ & L1' & L2').
    split; [congruence|]. split; [congruence|]. intros x HX.
    destruct HX as [HX|[HX|HX]]; [| |destruct HX]; subst x; apply cells_eq; try apply L1'; try apply L2; intros q k Hq Hk.
    - cbn [width_of] in Hk. assert (k = 0)%nat by lia. subst k.
      destruct (Q' q Hq) as [(_ & _ & _ & _ & _ & _ & _ & _ & GE & _) _]. destruct (Q q Hq) as [_ (_ & _ & TE & _)].
      unfold eInt in *. congruence.
    - destruct (Q' q Hq) as [(_ & _ & GS & GT & _) _]. destruct (Q q Hq) as [_ (TS & _)].
      assert (Hq' : (q < b_n b)%nat) by (rewrite E5; exact Hq).
      pose proof (call_trace hs c b q G Hq') as CT. rewrite E1 in CT.
      rewrite TS in GS. destruct (split_unique _ _ _ _ GS CT GT) as [ED EP].
      unfold devStress, sym6 in ED. injection ED as D0 D5 D4 _ D1 D3 _ _ D2. unfold pres in EP.
      cbn [width_of] in Hk. do 7 (destruct k as [|k]; [congruence|]). lia.
  Qed.

  (** ** Runs *)
  Fixpoint steps (solver : Solver R) (lu : LUSolver R) (dt : R) (a : App R) (l : list BCall) (a' : App R) : Prop :=
    match l with
    | [] => a' = a
    | b :: r => exists a1, is_step solver lu dt a a1 b /\ steps solver lu dt a1 r a'
    end.

  Lemma run_steps solver lu dt : forall orders a a', sized nst n a -> orders_ok n orders ->
    app_run solver lu c s nst dt n orders a = (BRet Done, a') ->
    exists l, List.length l = List.length orders /\ steps solver lu dt a l a'.
  Proof.
    induction orders as [|[qs qs'] r IH]; intros a a' SZ HO E; cbn [app_run] in E.
    - exists []. split; [reflexivity|]. cbn. congruence.
    - destruct (HO (qs, qs') (or_introl eq_refl)) as [V1 V2]. cbn [fst snd] in V1, V2.
      destruct (app_step solver lu c s nst dt n qs qs' a) as [o a1] eqn:ES.
      destruct o as [o|]; [|discriminate]. destruct o; try discriminate.
      destruct (step_is solver lu dt qs qs' a a1 SZ V1 V2 ES) as (b & HS).
      assert (SZ1 : sized nst n a1) by exact (proj1 (proj2 (proj2 (proj2 (proj2 (proj2 (proj2 (proj2 (proj2 HS))))))))).
      destruct (IH a1 a' SZ1 (fun o H => HO o (or_intror H)) E) as (l & HL & HT).
      exists (b :: l). split; [cbn; congruence|]. exists a1. split; assumption.
  Qed.

  Lemma steps_chain solver lu dt : forall l a a', steps solver lu dt a l a' -> chain hs c [AE; AS] l.
  Proof.
    induction l as [|b r IH]; intros a a' H; [exact I|]. destruct H as (a1 & H1 & H2). cbn [chain].
    refine (conj (proj1 H1) (conj _ (IH a1 a' H2))).
    destruct r as [|b' r']; [exact I|]. destruct H2 as (a2 & H3 & _).
    exact (step_follows solver lu dt a a1 a2 b b' H1 H3).
  Qed.

  Lemma is_step_of solver lu dt a a' b : is_step solver lu dt a a' b -> step_of hs c s nst n dt a a' b.
  Proof.
    intros (G & E1 & E2 & E3 & E4 & E5 & E6 & Q & _ & EV & _). exact (conj G (conj E1 (conj E4 (conj E6 (conj EV Q))))).
  Qed.
  Lemma steps_run solver lu dt : forall l a a', steps solver lu dt a l a' -> run_of hs c s nst n dt a l a'.
  Proof.
    induction l as [|b r IH]; intros a a' H; [exact H|]. destruct H as (a1 & H1 & H2).
    exists a1. split; [exact (is_step_of _ _ _ _ _ _ H1)|exact (IH _ _ H2)].
  Qed.
  Lemma steps_linked solver lu dt : forall l a a', steps solver lu dt a l a' -> linked n (nst - 2) l.
  Proof.
    induction l as [|b r IH]; intros a a' H; [exact I|]. destruct H as (a1 & H1 & H2). cbn [linked].
    split; [|exact (IH _ _ H2)]. destruct r as [|b' r']; [exact I|]. destruct H2 as (a2 & H3 & _).
    intros q k Hq Hk. destruct H1 as (_ & E1 & _ & _ & _ & _ & _ & Q & _). destruct H3 as (_ & E1' & _ & _ & _ & _ & _ & Q' & _).
    destruct (Q q Hq) as [_ (_ & _ & _ & T)]. destruct (Q' q Hq) as [(_ & _ & _ & _ & _ & _ & _ & _ & _ & _ & Gi) _].
    rewrite E1, E1', Gi, T by assumption. reflexivity.
  Qed.

  Lemma steps_volume solver lu dt : forall l a a' q, steps solver lu dt a l a' -> (q < n)%nat ->
    volume nst a' q = volume nst a q * exp (INR (List.length l) * dt * trace (velGrad a q)) /\ ap_vgrad a' = ap_vgrad a.
  Proof.
    induction l as [|b r IH]; intros a a' q H Hq.
    - cbn in H. subst a'. cbn [List.length INR]. rewrite !Rmult_0_l, exp_0. split; [ring|reflexivity].
    - destruct H as (a1 & H1 & H2). destruct (IH a1 a' q H2 Hq) as [E EV].
      destruct H1 as (G & E1 & _ & _ & _ & _ & E5 & Q & _ & EG & FV & _). destruct (Q q Hq) as [Gi Ta].
      destruct Gi as (_ & _ & _ & _ & _ & GV & _). destruct Ta as (_ & TV & _).
      assert (VN : vNew s (b_m1 b) q = vNew s (b_m b) q) by (unfold vNew, val; now rewrite FV).
      assert (VG : velGrad a1 q = velGrad a q) by (unfold velGrad; now rewrite EG).
      split; [|congruence]. rewrite E, TV, VN, GV, VG. rewrite Rmult_assoc, <- exp_plus. f_equal. f_equal.
      cbn [List.length]. rewrite S_INR. ring.
  Qed.

  Lemma steps_energy solver lu dt : forall l a a' q, steps solver lu dt a l a' -> (q < n)%nat ->
    energy nst a' q = energy nst a q + fold_right (fun b x => work b q + x) 0 l.
  Proof.
    induction l as [|b r IH]; intros a a' q H Hq.
    - cbn in H. subst a'. cbn [fold_right]. ring.
    - destruct H as (a1 & H1 & H2). rewrite (IH a1 a' q H2 Hq). cbn [fold_right].
      destruct H1 as (G & E1 & _ & _ & _ & _ & E5 & Q & _). destruct (Q q Hq) as [Gi Ta].
      destruct Gi as (_ & _ & _ & _ & _ & _ & _ & _ & GE & _). destruct Ta as (_ & _ & TE & _).
      assert (Hq' : (q < b_n b)%nat) by (rewrite E5; exact Hq).
      pose proof (call_energy hs c b q G Hq') as CE. rewrite E1 in CE. rewrite TE, CE, GE. ring.
  Qed.
End Step.

(** ** Whole runs of what main has set up *)
Lemma app_wrap {T} nst (s : MM T) n : app_view nst s -> (nst <= 36)%nat -> (36 * (Z.of_nat n - 1) <= 2147483647)%Z -> no_wrap (mm_strides s) true n.
Proof.
  intros HV HN HW. split; [|intros _; exact HW]. intros x _. rewrite (view_stride nst s x HV).
  assert (width_of nst x <= 36)%nat by (destruct x; cbn [width_of]; lia).
  assert (2147483647 < 2 ^ 32)%Z by reflexivity. nia.
Qed.

Theorem main_run hs openmp gpu model device params c s nst d solver lu dt n orders a a' :
  app_main hs openmp gpu model device params = Ready c s nst d ->
  (36 * (Z.of_nat n - 1) <= 2147483647)%Z -> sized nst n a -> orders_ok n orders ->
  app_run solver lu c s nst dt n orders a = (BRet Done, a') ->
  exists l, List.length l = List.length orders /\ run_of hs c s nst n dt a l a' /\ chain hs c [AE; AS] l /\ linked n (nst - 2) l /\
  forall q, (q < n)%nat ->
    volume nst a' q = volume nst a q * exp (INR (List.length orders) * dt * trace (velGrad a q)) /\
    energy nst a' q = energy nst a q + fold_right (fun b x => work b q + x) 0 l.
Proof.
  intros HM HW SZ HO E. destruct (app_ready _ _ _ _ _ _ _ _ _ _ HM) as (HB & HR & _ & _ & HV & HN & HN').
  pose proof (app_wrap nst s n HV ltac:(lia) HW) as NW.
  destruct (run_steps hs c s nst n HB HR HV HN NW solver lu dt orders a a' SZ HO E) as (l & HL & HT).
  exists l. refine (conj HL (conj _ (conj _ (conj _ _)))).
  - exact (steps_run hs c s nst n solver lu dt l a a' HT).
  - exact (steps_chain hs c s nst n HV HN solver lu dt l a a' HT).
  - exact (steps_linked hs c s nst n solver lu dt l a a' HT).
  - intros q Hq. rewrite <- HL. split.
    + exact (proj1 (steps_volume hs c s nst n solver lu dt l a a' q HT Hq)).
    + exact (steps_energy hs c s nst n solver lu dt l a a' q HT Hq).
Qed.
