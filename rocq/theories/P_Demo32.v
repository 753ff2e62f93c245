(** Runs of the mini-app in doubles (C69). *)
From Coq Require Import List ZArith Bool Lia PeanoNat Reals Lra String.
From Flocq Require Import Core IEEE754.BinarySingleNaN.
From Verif Require Import Num Arr NumR Util SlipGeom Eos Hard KinVoce KinKMBalD Elast Evptn MatModel Cases Miniapp
  P_Sngl P_Sngl3 P_Batch P_Batch2 P_Batch3 P_Batch4 P_Api P_Builtin P_Gen SpecApi P_Api2 P_Hist NumD P_Dbl P_Dbl2 SpecDbl P_Dbl3 P_Dbl4 P_Dbl5 P_Dbl6 P_Dbl7 P_Dbl8 SpecDblGeom P_Dbl9 P_Demo12
  SpecMini SpecMini2 P_Mini P_Mini2 P_Mini3 P_Mini6 P_Demo8.
Import ListNotations.
Local Open Scope R_scope.
#[local] Hint Extern 0 (Num (binary_float 53 1024)) => exact (DNum xlm) : typeclass_instances.

Definition yLU : LUSolver dbl := fun _ _ _ _ => Some [].
Lemma y_ready : exists s, @app_main dbl DX zsol true true "voce" "OpenMP" x_pars = Ready x_c s 28 OPENMP.
Proof.
  apply (@main_ready dbl DX zsol true true "voce" "OpenMP" OPENMP x_pars x_c); [now left|reflexivity|reflexivity|].
  intros s0. destruct x_init as [s1 H]. exact (@init_any dbl DX _ _ s0 _ _ H).
Qed.
Lemma sngl_succeeds_any (solver : Solver dbl) lu m dt tol d w vr pt h_u nh gmod :
  @k_updateH dbl (m_kin m) (sub (pt_hist pt) iHistLbH (k_nH (m_kin m))) dt
     (sub (pt_hist pt) (iHistLbGdot (k_nH (m_kin m))) (sg_nslip (m_sg m))) = Some (h_u, nh) ->
  k_valsOk (m_kin m) (u_press (@snglUpd dbl DX m vr (pt_eInt pt) (pt_stress pt))) (@snglTkelv dbl DX m vr (pt_eInt pt)) h_u = true ->
  (forall f x0, so_converged (solver 8%nat f tol 200%nat x0) = true) ->
  (forall n A B k, lu n A B k <> None) ->
  @el_getGmod dbl DX (m_el m) = Some gmod ->
  fst (@getResponseSngl dbl DX solver lu m dt tol d w vr pt) = Done.
Proof.
  intros H1 H2 H3 H4 H5. unfold getResponseSngl. cbv zeta. rewrite H1, H2. cbn [negb]. rewrite H3. cbn [negb].
  destruct (pt_mtan pt) as [old|].
  - match goal with |- context [match mtan_vecds ?l ?p ?x with _ => _ end] => assert (X : mtan_vecds l p x <> None) end.
    { unfold mtan_vecds. match goal with |- context [lu ?a ?b ?c ?d] => pose proof (H4 a b c d) as Y; destruct (lu a b c d) as [sol|]; [|congruence] end.
      match goal with |- context [dxi_parts ?p ?e] => destruct (dxi_parts p e) as [[? ?] ?] end. discriminate. }
    match goal with |- context [match mtan_vecds ?l ?p ?x with _ => _ end] => destruct (mtan_vecds l p x) as [mv|]; [|congruence] end.
    destruct stateFromX. rewrite H5. reflexivity.
  - destruct stateFromX. rewrite H5. reflexivity.
Qed.

Section Run.
  Variable (s : MM dbl).
  Hypothesis HM : @app_main dbl DX zsol true true "voce" "OpenMP" x_pars = Ready x_c s 28 OPENMP.
  Lemma y_mat : exists sg eos tol, sg_nslip sg = 12%nat /\ @mm_ready dbl s =
    Some ({| m_sg := sg; m_kin := x_kin; m_el := @cubic_setParams dbl DX (sub x_pars 3 3); m_eos := eos |}, tol).
  Proof.
    destruct (app_ready _ _ _ _ _ _ _ _ _ _ HM) as (_ & _ & HU & _). rewrite (@in_use_ready dbl DX x_c s x_s x_pars HU x_in_use). exact x_ready.
  Qed.
  Definition y_call (n : nat) (dt : dbl) (m : Mem dbl) : DCall :=
    {| d_s := s; d_solver := zsol; d_lu := yLU; d_dt := dt; d_mtan := true; d_n := n; d_m := m;
       d_m1 := snd (@mm_getResponse dbl DX zsol yLU x_c s dt true (Z.of_nat n) m) |}.
  Lemma y_good n dt m : @batch_ok dbl x_c s true n m -> (forall i, (i < n)%nat -> hok (dval s m AH i 13)) -> dgood xlm zsol x_c (y_call n dt m).
  Proof.
    intros HO HH. destruct (app_ready _ _ _ _ _ _ _ _ _ _ HM) as (_ & HR & HU & HC & _). destruct y_mat as (sg & eos & tol & Hsg & HR').
    refine (conj x_builtin (conj HR (conj HO _))). cbn [y_call d_n d_solver d_lu d_s d_dt d_mtan d_m d_m1].
    destruct (@api_batch dbl DX x_c s zsol yLU dt true n m _ _ HR HC HR' HO) as (o & m1 & E & _ & P).
    rewrite E. cbn [snd]. f_equal. f_equal. cbv zeta in P.
    assert (G : forall i, (i < n)%nat -> fst (@getResponseSngl dbl DX zsol yLU
       {| m_sg := sg; m_kin := x_kin; m_el := @cubic_setParams dbl DX (sub x_pars 3 3); m_eos := eos |} dt tol
       (cell_of x_c s true m AD i) (cell_of x_c s true m AW i)
       (cell_of x_c s true m AV i) (pt_of x_c s true m i)) = Done).
    { intros i Hi. destruct x_gmod as [g Hg].
      assert (EH : get (sub (pt_hist (pt_of x_c s true m i)) iHistLbH 1) 0 = dval s m AH i 13).
      { rewrite get_sub by lia. unfold pt_of, pt_at. cbn [pt_hist].
        apply (dcell_val xlm x_c s true n m AH i 13); [apply HO|assumption|]. cbn. lia. }
      apply (sngl_succeeds_any zsol yLU
       {| m_sg := sg; m_kin := x_kin; m_el := @cubic_setParams dbl DX (sub x_pars 3 3); m_eos := eos |} dt tol
       (cell_of x_c s true m AD i) (cell_of x_c s true m AW i)
       (cell_of x_c s true m AV i) (pt_of x_c s true m i)
       [@h1_getHn dbl DX (dval s m AH i 13) [dz]] 1 g).
      - cbn [m_kin x_kin voce_kinetics k_updateH k_nH]. unfold voce_updateH, updateH1. cbn [zsol so_converged]. rewrite EH. reflexivity.
      - cbn [m_kin x_kin voce_kinetics k_valsOk]. unfold voce_valsOk.
        destruct (keep_h _ (HH i Hi)) as (F1 & P1 & _). set (h := h1_getHn _ _) in *. clearbody h. cbn [get nth nltb DNum].
        change (Bltb dz h = true). rewrite Bltb_correct; [|reflexivity|exact F1]. apply Rlt_bool_true. change (B2R dz) with 0. lra.
      - reflexivity.
      - discriminate.
      - exact Hg. }
    destruct o; [reflexivity| |]; destruct P as (k & Hk & P & _); specialize (G k Hk); rewrite P in G; discriminate.
  Qed.
  Lemma y_next n dt m : @batch_ok dbl x_c s true n m -> (forall i, (i < n)%nat -> hok (dval s m AH i 13)) ->
    forall i, (i < n)%nat -> hok (dval s (d_m1 (y_call n dt m)) AH i 13).
  Proof.
    intros HO H2 i Hi. pose proof (y_good n dt m HO H2) as G.
    destruct (dres xlm zsol x_c (y_call n dt m) i G Hi) as (mat & tol & h_u & p & r & v & nf & gm & HMt & _ & HPr & HR & Rs).
    destruct (g_updH _ _ _ _ _ _ _ _ _ _ _ _ _ _ Rs) as [nh EU].
    pose proof (g_H _ _ _ _ _ _ _ _ _ _ _ _ _ _ Rs) as EH.
    destruct y_mat as (sg & eos & tol' & _ & HM'). cbn [y_call d_s] in HMt. rewrite HM' in HMt.
    apply (f_equal (option_map fst)) in HMt. cbn [option_map fst] in HMt.
    assert (EK : m_kin mat = x_kin).
    { apply (f_equal (option_map (@m_kin dbl))) in HMt. cbn [option_map m_kin] in HMt. clear - HMt. congruence. }
    rewrite EK in EU, EH. unfold x_kin in EU, EH. cbn [voce_kinetics k_nH k_updateH] in EU, EH.
    unfold voce_updateH, updateH1 in EU. cbn [zsol so_converged] in EU.
    assert (EHu : h_u = [@h1_getHn dbl DX (get (sub (pt_hist (pt_of x_c (d_s (y_call n dt m)) (d_mtan (y_call n dt m)) (d_m (y_call n dt m)) i)) iHistLbH 1) 0) [dz]]).
    { apply (f_equal (option_map fst)) in EU. cbn [option_map fst] in EU. cbn [so_x zsol repeat] in EU. clear - EU. congruence. }
    pose proof (f_equal (fun l => @get dbl DX l 0) EH) as E0. cbv beta in E0. rewrite EHu in E0. rewrite !get_sub in E0 by lia.
    cbn [get nth] in E0.
    unfold pt_of, pt_at in E0. cbn [pt_hist] in E0.
    pose proof (dv_in xlm zsol x_c (y_call n dt m) i G Hi AH 13) as V1. pose proof (dv_out xlm zsol x_c (y_call n dt m) i G Hi AH 13) as V2.
    unfold cell_of in V1, V2. unfold iHistLbH in E0. cbn [Nat.add] in E0.
    rewrite V1, V2 in E0 by (cbn; lia). specialize (H2 i Hi).
    change (hok (dval (d_s (y_call n dt m)) (d_m1 (y_call n dt m)) AH i 13)). rewrite E0. apply keep_h. exact H2.
  Qed.
  Lemma y_val n (a : App dbl) i k : sized 28 n a -> (i < n)%nat -> (k < 28)%nat -> dval s (ap_m a) AH i k = gst 28 a i k.
  Proof.
    intros SZ Hi Hk. destruct (app_ready _ _ _ _ _ _ _ _ _ _ HM) as (_ & _ & _ & _ & HV & _). unfold dval, gst, get. rewrite (view_stride 28 s AH HV). reflexivity.
  Qed.
  Lemma y_run n dt : few n -> forall orders a, sized 28 n a -> orders_ok n orders -> (forall q, (q < n)%nat -> hok (gst 28 a q 13)) ->
    exists a', @app_run dbl DX zsol yLU x_c s 28 dt n orders a = (BRet Done, a').
  Proof.
    intros F. destruct (app_ready _ _ _ _ _ _ _ _ _ _ HM) as (HB & HR & HU & HC & HV & HN & _).
    pose proof (g_few _ _ _ _ _ _ _ _ _ _ HM n F) as NW.
    induction orders as [|[qs qs'] r IH]; intros a SZ HO HH; [eexists; reflexivity|].
    destruct (HO (qs, qs') (or_introl eq_refl)) as [V1 V2]. cbn [fst snd] in V1, V2.
    pose proof (g_setup_ok x_c s 28 HV HN dt n qs a NW SZ) as BO.
    assert (PH : forall i, (i < n)%nat -> hok (dval s (ap_m (setup_data 28 dt qs a)) AH i 13)).
    { intros i Hi. rewrite (y_val n) by (try apply setup_sized; try assumption; lia). unfold gst. destruct (setup_same 28 dt qs a) as (_ & _ & -> & _). exact (HH i Hi). }
    pose proof (y_good n dt _ BO PH) as (_ & _ & _ & E). pose proof (y_next n dt _ BO PH) as RH. cbn [y_call d_n d_solver d_lu d_s d_dt d_mtan d_m d_m1] in E, RH.
    set (m1 := snd (mm_getResponse zsol yLU x_c s dt true (Z.of_nat n) (ap_m (setup_data 28 dt qs a)))) in *. clearbody m1.
    assert (B : sized 28 n (between 28 dt qs a m1)) by (exact (g_between x_c s 28 x_pars HU HC HV HN zsol yLU dt n qs a m1 NW SZ E)).
    pose proof (@retrieve_sized dbl DX 28 n ltac:(lia) qs' (between 28 dt qs a m1) B) as S1.
    destruct (IH (retrieve_data 28 qs' (between 28 dt qs a m1)) S1 (fun o X => HO o (or_intror X))) as [a' E'].
    - intros q Hq. destruct (g_retrieve zsol x_c s 28 x_pars HB HU HN n qs' _ q B V2 Hq) as (_ & T2 & _). rewrite T2 by lia.
      rewrite <- (y_val n) by (try assumption; lia). exact (RH q Hq).
    - exists a'. apply (g_cons x_c s 28 HV HN). eexists. split; [apply (g_step x_c s 28 HV HN); exists m1; split; [exact E|reflexivity]|exact E'].
  Qed.
  Definition yfresh (n : nat) : App dbl := {| ap_vgrad := repeat (Z2D 17) (9 * n); ap_stress := repeat (Z2D 17) (6 * n); ap_m := fun x => repeat (Z2D 17) (n * width_of 28 x) |}.
  Lemma yfresh_sized n : sized 28 n (yfresh n).
  Proof. split; [apply repeat_length|]. split; [apply repeat_length|]. intros x. cbn [yfresh ap_m]. rewrite repeat_length. destruct x; reflexivity. Qed.
  Lemma y_computes n ori N dt : few n -> exists a', @computes dbl DX zsol yLU x_c s 28 dt n ori N a'.
  Proof.
    intros F. destruct (app_ready _ _ _ _ _ _ _ _ _ _ HM) as (HB & HR & HU & HC & HV & HN & _).
    destruct (@hist_in_use dbl DX zsol x_c s x_pars HB HU) as (nm & HI & _).
    assert (ES : exists a1, @app_start dbl DX x_c s ori n (rev (seq 0 n)) 28 (yfresh n) = Some a1).
    { unfold app_start. rewrite HI. eexists. reflexivity. }
    destruct ES as [a1 ES].
    destruct (g_start _ _ _ _ _ _ _ _ _ _ HM n ori _ _ _ _ (yfresh_sized n) (visits_rev n) HI ES) as [SA A].
    set (orders := repeat (seq 0 n, rev (seq 0 n)) N).
    assert (OK : orders_ok n orders).
    { intros o Ho. apply repeat_spec in Ho. subst o. split; [apply visits_seq|apply visits_rev]. }
    destruct (y_run n dt F orders a1 SA OK) as [a' E].
    - intros q Hq. destruct (A q Hq) as (_ & _ & A3). rewrite A3 by lia.
      match goal with |- hok ?x => change (hok (Z2D 1)) end.
      destruct (Z2D_ok 1 ltac:(cbn; lia)) as [F1 V1]. split; [exact F1|]. rewrite V1. lra.
    - exists a', (yfresh n), (rev (seq 0 n)), orders, a1.
      exact (conj (yfresh_sized n) (conj (visits_rev n) (conj OK (conj (repeat_length _ _) (conj ES E))))).
  Qed.
End Run.
Definition y_q (k : Z) : list dbl := map Z2D [k; 1; 0; 2]%Z.
Lemma y_case : exists s, @app_main dbl DX zsol true true "voce" "OpenMP" x_pars = Ready x_c s 28 OPENMP /\
  (exists a', @computes dbl DX zsol yLU x_c s 28 (Z2D 1) 3 (y_q 1 ++ y_q 2 ++ y_q 3) 4 a') /\
  (exists b', @computes dbl DX zsol yLU x_c s 28 (Z2D 1) 2 (y_q 3 ++ y_q 1) 4 b') /\
  crystal (y_q 1 ++ y_q 2 ++ y_q 3) 0 = crystal (y_q 3 ++ y_q 1) 1.
Proof.
  destruct y_ready as [s HM]. exists s. split; [exact HM|]. split; [|split; [|reflexivity]]; apply (y_computes s HM); unfold few; lia.
Qed.
