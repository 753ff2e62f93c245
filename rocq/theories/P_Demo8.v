(** Concrete runs of the mini-app (C40, C41, C48). *)
From Coq Require Import List ZArith Bool Lia PeanoNat Reals Lra Permutation String.
From Verif Require Import Num Arr NumR Util SlipGeom Eos Hard KinVoce KinKMBalD Elast Evptn MatModel Cases Miniapp SpecTensor
  P_Tensor P_Sngl P_Batch P_Batch3 P_Batch4 P_Api P_Api2 P_Builtin SpecApi SpecKinApi SpecStep SpecObj P_Hist P_Call P_Slip P_Demo P_Demo2 P_Demo3 P_Demo6 SpecMini P_Mini P_Mini2 P_Mini3.
Import ListNotations.
Local Open Scope R_scope.

Lemma app_new {T} {N : Num T} (c : MClass T) : (numHist (c_nH c) (c_nslip c) <= app_nst c)%nat -> exists s0, mm_newStrides c (app_strides c) 8 = Some s0.
Proof.
  intros H. apply (proj2 (newStrides_iff c (app_strides c) eq_refl 8)). split; [reflexivity|].
  unfold app_strides. repeat apply Forall2_cons; try apply Forall2_nil; try (unfold mm_numHist; exact H); apply Nat.leb_le; reflexivity.
Qed.

Lemma main_ready {T} {N : Num T} (hs : Solver T) openmp gpu model device d params c : In (model, c) [("voce"%string, cls_FCC_A hs); ("mts"%string, cls_FCC_B hs)] ->
  app_device openmp gpu device = Some d -> List.length params = mm_nParams c ->
  (forall s0, exists s1, mm_init c s0 [] params [] = (Done, s1)) ->
  exists s, app_main hs openmp gpu model device params = Ready c s 28 d.
Proof.
  intros HIn HD HL HI. unfold app_main. rewrite HD.
  destruct (app_new (cls_FCC_A hs)) as [a Ea]; [apply Nat.leb_le; reflexivity|].
  destruct (app_new (cls_FCC_B hs)) as [b Eb]; [apply Nat.leb_le; reflexivity|].
  rewrite Ea, Eb.
  destruct HIn as [E|[E|[]]]; apply pair_equal_spec in E; destruct E as [<- <-]; cbn [String.eqb Ascii.eqb Bool.eqb].
  - rewrite HL, Nat.eqb_refl. cbn [negb]. unfold app_init. destruct (HI a) as [s1 ->]. eexists. reflexivity.
  - rewrite HL, Nat.eqb_refl. cbn [negb]. unfold app_init. destruct (HI b) as [s1 ->]. eexists. reflexivity.
Qed.

Lemma init_any {T} {N : Num T} (c : MClass T) s s' pars s1 : mm_init c s [] pars [] = (Done, s1) -> exists s2, mm_init c s' [] pars [] = (Done, s2).
Proof.
  intros H. destruct (init_done _ _ _ _ _ _ H) as (HC & a & HP & HL & _).
  exact (init_done_conv c s' [] pars [] a HC HP HL).
Qed.
Lemma voce_ready hs openmp gpu device d : app_device openmp gpu device = Some d ->
  exists s, app_main hs openmp gpu "voce" device demo_pars = Ready (cls_FCC_A hs) s 28 d.
Proof.
  intros HD. apply main_ready; [now left|exact HD|reflexivity|]. intros s0. destruct (d2_init hs) as [s1 H]. exact (init_any _ _ s0 _ _ H).
Qed.
Lemma mts_ready hs openmp gpu device d : app_device openmp gpu device = Some d ->
  exists s, app_main hs openmp gpu "mts" device d3_pars = Ready (cls_FCC_B hs) s 28 d.
Proof.
  intros HD. apply main_ready; [now right; left|exact HD|reflexivity|]. intros s0. destruct (d3_init hs) as [s1 H]. exact (init_any _ _ s0 _ _ H).
Qed.

(** With a solver that accepts its starting point and a linear solver that answers something, every run succeeds. *)
Definition anyLU : LUSolver R := fun _ _ _ _ => Some [].

Section Run.
  Variables (s : MM R) (d : Exec).
  Hypothesis HM : app_main echo true true "voce" "OpenMP" demo_pars = Ready demo_c s 28 d.

  Definition hard_ok (n : nat) (a : App R) : Prop := forall q, (q < n)%nat -> 0 < stored 28 a q 13.

  Lemma run_good n dt m : batch_ok demo_c s true n m -> (forall i, (i < n)%nat -> 0 < val s m AH i 13) ->
    good echo demo_c (call_of demo_c s echo anyLU true n dt m).
  Proof.
    intros HO HH. destruct (app_ready _ _ _ _ _ _ _ _ _ _ HM) as (HB & HR & HU & HC & _).
    destruct (d2_ready echo) as (sg & E1 & E2 & _).
    destruct demo_gmod as [g Hg].
    refine (good_intro_t echo demo_c s demo_pars HB HU HC echo anyLU n dt m HO sg
      (voce_kinetics echo (voce_setParams false (sub demo_pars 6 9)) 12) (voce_histInfo (voce_setParams false (sub demo_pars 6 9))) E1 eq_refl E2 eq_refl g Hg _).
    intros i Hi. exists [h1_getHn (strength s m i) [0]], 1%nat. split; [|split; [|cbv zeta; split]].
    - cbn [voce_kinetics k_updateH]. unfold voce_updateH, updateH1. cbn [echo so_converged]. reflexivity.
    - cbn [voce_kinetics k_valsOk]. unfold voce_valsOk, h1_getHn. rarr. apply Rltb_true. specialize (HH i Hi). unfold strength. lra.
    - reflexivity.
    - apply mtan_some. intros B k. discriminate.
  Qed.

  Lemma run_hard n dt m : batch_ok demo_c s true n m -> (forall i, (i < n)%nat -> 0 < val s m AH i 13) ->
    forall i, (i < n)%nat -> val s (b_m1 (call_of demo_c s echo anyLU true n dt m)) AH i 13 = val s m AH i 13.
  Proof.
    intros HO HH i Hi. destruct (app_ready _ _ _ _ _ _ _ _ _ _ HM) as (_ & _ & HU & _).
    pose proof (run_good n dt m HO HH) as G.
    destruct (call_hard echo demo_c (call_of demo_c s echo anyLU true n dt m) i demo_pars G Hi HU) as (kin & hi & k & E2 & E).
    apply (f_equal (option_map fst)) in E2. cbn [option_map fst] in E2.
    assert (EK : kin = voce_kinetics echo (voce_setParams false (sub demo_pars 6 9)) 12).
    { change (Some (voce_kinetics echo (voce_setParams false (sub demo_pars 6 9)) 12) = Some kin) in E2. clear - E2. congruence. }
    rewrite EK in E. cbn [voce_kinetics k_updateH] in E. unfold voce_updateH, updateH1 in E. cbn [echo so_converged] in E.
    apply (f_equal (option_map fst)) in E. cbn [option_map fst] in E. apply some_inj in E.
    cbn [echo so_x] in E. apply (f_equal (fun l => nth 0 l 0)) in E. unfold h1_getHn in E. cbn [nth] in E.
    cbn [call_of b_s b_m] in E. rewrite <- E. rarr. lra.
  Qed.

  Theorem run_total n dt : (36 * (Z.of_nat n - 1) <= 2147483647)%Z -> forall orders a, sized 28 n a -> orders_ok n orders -> hard_ok n a ->
    exists a', app_run echo anyLU demo_c s 28 dt n orders a = (BRet Done, a').
  Proof.
    intros HW. destruct (app_ready _ _ _ _ _ _ _ _ _ _ HM) as (HB & HR & HU & HC & HV & HN & _).
    pose proof (app_wrap 28 s n HV ltac:(lia) HW) as NW.
    induction orders as [|[qs qs'] r IH]; intros a SZ HO HH; [eexists; reflexivity|].
    destruct (HO (qs, qs') (or_introl eq_refl)) as [V1 V2]. cbn [fst snd] in V1, V2. cbn [app_run].
    assert (ES : exists a1, app_step echo anyLU demo_c s 28 dt n qs qs' a = (BRet Done, a1) /\ sized 28 n a1 /\ hard_ok n a1).
    { pose proof (setup_sized 28 n dt qs a SZ) as SZ1.
      pose proof (app_batch_ok demo_c s 28 n HV HN NW _ SZ1) as BO.
      assert (PH : forall i, (i < n)%nat -> 0 < val s (ap_m (setup_data 28 dt qs a)) AH i 13).
      { intros i Hi. destruct (setup_given 28 n s ltac:(lia) HV dt qs a i SZ V1 Hi) as (_ & _ & _ & _ & _ & _ & _ & _ & _ & _ & GH).
        rewrite GH by lia. exact (HH i Hi). }
      pose proof (run_good n dt _ BO PH) as G. pose proof (run_hard n dt _ BO PH) as RH.
      destruct (good_frame echo demo_c _ G) as [FL _].
      destruct G as (_ & _ & _ & EC). cbn [call_of b_n b_solver b_lu b_s b_dt b_mtan b_m b_m1] in EC, FL, RH.
      unfold app_step. rewrite EC. eexists. split; [reflexivity|].
      set (a2 := {| ap_vgrad := _; ap_stress := _; ap_m := _ |}).
      assert (SZ2 : sized 28 n a2).
      { destruct SZ1 as (X1 & X2 & X3). split; [exact X1|]. split; [exact X2|]. intros x. cbn [ap_m a2]. rewrite FL. apply X3. }
      split; [exact (retrieve_sized 28 n ltac:(lia) qs' a2 SZ2)|].
      intros q Hq. destruct (retrieve_taken 28 n s ltac:(lia) HV qs' a2 q SZ2 V2 Hq) as (_ & _ & _ & TH).
      rewrite TH by lia. cbn [ap_m a2]. rewrite (RH q Hq). exact (PH q Hq). }
    destruct ES as (a1 & E & S1 & H1). rewrite E. apply IH; [exact S1| |exact H1]. intros o Ho. apply HO. now right.
  Qed.
End Run.

(** memory as allocated for [n] points, with some left-over values *)
Definition fresh (n : nat) : App R :=
  {| ap_vgrad := tab (9 * n) (fun _ => 17); ap_stress := tab (6 * n) (fun _ => 17);
     ap_m := fun x => tab (n * width_of 28 x) (fun _ => 17) |}.
Lemma fresh_sized n : sized 28 n (fresh n).
Proof.
  unfold sized, fresh. cbn [ap_vgrad ap_stress ap_m]. rewrite !tab_length. split; [reflexivity|]. split; [reflexivity|].
  intros x. rewrite tab_length. destruct x; reflexivity.
Qed.
Lemma visits_seq n : visits n (seq 0 n).
Proof. apply Permutation_refl. Qed.
Lemma visits_rev n : visits n (rev (seq 0 n)).
Proof. apply Permutation_sym, Permutation_rev. Qed.
