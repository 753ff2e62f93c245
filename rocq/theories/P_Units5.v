(** Change of units: what a call returns, and that the call in the new units succeeds too (C64). *)
From Coq Require Import List ZArith Bool Lia PeanoNat Reals Lra String FunctionalExtensionality.
From Verif Require Import P_Demo.
From Verif Require Import Num Arr NumR Util SlipGeom Eos Hard KinVoce KinKMBalD Elast Evptn MatModel Cases SpecTensor
  SpecElast SpecSlip P_Tensor P_Elast P_Eos P_Sngl P_Sngl2 P_Sngl3 P_Batch P_Batch2 P_Batch3 P_Batch4 P_Api P_Builtin SpecApi P_Hist SpecStress P_Stress
  SpecKin SpecKinApi SpecStep P_Call P_Step P_Step2 P_Energy P_Rigid3 P_Demo3 SpecFrame P_Frame P_Frame2 P_Frame3 SpecTan SpecUnits P_Units P_Units2 P_Units3 P_Units4 P_Units6.
Import ListNotations.
Local Open Scope R_scope.

Lemma inner_ext a b (s s' d d' : list R) : (forall k, (k < 6)%nat -> get s' k = a * get s k) -> (forall k, (k < 6)%nat -> get d' k = b * get d k) ->
  vecsInnerSvecDev s' d' = a * b * vecsInnerSvecDev s d.
Proof. intros H1 H2. unfold vecsInnerSvecDev. rewrite !H1, !H2 by lia. rops. ring. Qed.
Lemma Deff_of (M : M3) (d : list R) : sym6 (get d) = M -> trace M = 0 -> vecd_Deff (svecToVecd d) = sqrt (2 / 3) * norm3t M.
Proof.
  intros E HT. assert (HS : is_sym M) by (rewrite <- E; reflexivity). rewrite svec_vec5 by (rewrite E; exact HT). rewrite E.
  unfold vecd_Deff. change ntvec with 5%nat. rewrite norm_vec5 by (split; [exact HS|exact HT]).
  change (s2 * s3 / 3 * norm3t M = sqrt (2 / 3) * norm3t M). f_equal.
  unfold s2, s3. rewrite <- sqrt_mult by lra. symmetry. clear. replace (2 / 3) with ((2 * 3) / (3 * 3)) by field. rewrite sqrt_div by lra. rewrite sqrt_square by lra. reflexivity.
Qed.

Lemma gmod_u lam : 0 < lam -> forall e e' g, el_units lam e e' -> el_getGmod e = Some g -> el_getGmod e' = Some (lam * g).
Proof.
  intros Hl e e' g (_ & _ & _ & _ & E). unfold el_getGmod. rewrite E. cbn [nleb RNum nZ].
  pose proof (leb_scal lam (el_K_gmod e) 0 Hl) as L. rewrite Rmult_0_r in L. rewrite L. destruct (Rleb (el_K_gmod e) 0); [discriminate|].
  intros X. apply some_inj in X. now subst g.
Qed.

Section Both.
  Variables (lam kap : R) (hs : Solver R) (c : MClass R) (pars pars' : list R) (b b' : BCall) (i i' : nat).
  Hypothesis Hl : 0 < lam.
  Hypothesis Hk : 0 < kap.
  Hypothesis G : good hs c b.
  Hypothesis G' : good hs c b'.
  Hypothesis U : in_use c (b_s b) pars.
  Hypothesis U' : in_use c (b_s b') pars'.
  Hypothesis HP : new_units lam kap c pars pars'.
  Hypothesis Hi : (i < b_n b)%nat.
  Hypothesis Hi' : (i' < b_n b')%nat.
  Hypothesis HST : new_step kap b b'.
  Hypothesis HT : new_in lam kap c b i b' i'.
  Hypothesis Htr : trace (devRate (b_s b) (b_m b) i) = 0.
  Hypothesis HX : off_limits lam kap c b i.

  Theorem call_units : new_out lam kap c b i b' i'.
  Proof.
    destruct HST as (ES & ED & EM).
    pose proof G as (HB & _ & HO & _). pose proof G' as (_ & _ & HO' & _).
    destruct (call_parts hs c b i pars G Hi U) as (sg & kin & hi & h_u & v & nf & gm & E1 & E2 & N1 & N2 & K & HL & S & So & Rs).
    destruct (call_parts hs c b' i' pars' G' Hi' U') as (sg' & kin' & hi' & h_u' & v' & nf' & gm' & E1' & E2' & N1' & N2' & K' & HL' & S' & So' & Rs').
    cbv zeta in Rs, Rs'.
    destruct (class_units lam kap Hl Hk hs c pars pars' sg kin hi HB HL HP E1 E2) as (F1 & (kin2 & hi2 & F2 & KO) & EL & B1 & B2 & B3 & B4 & BT).
    rewrite F1 in E1'. apply some_inj in E1'. subst sg'.
    assert (EK : kin2 = kin') by (rewrite F2 in E2'; apply (f_equal (option_map fst)) in E2'; cbn [option_map fst] in E2'; clear - E2'; congruence).
    subst kin2. clear E2' F2.
    change (P_in c b i) with (P c b i) in *. change (P_in c b' i') with (P' c b' i') in *.
    change (in_cell c b i) with (C c b i) in *. change (in_cell c b' i') with (C' c b' i') in *.
    rewrite ED, ES, BT in Rs'.
    assert (NH : c_nH c = 1%nat) by exact (nH1 hs c HB).
    assert (HU : exists x, h_u = [x] /\ h_u' = [hfac lam c * x]).
    { destruct (r_updH _ _ _ _ _ _ _ _ _ _ _ _ _ _ Rs) as [n1 X1]. destruct (r_updH _ _ _ _ _ _ _ _ _ _ _ _ _ _ Rs') as [n2 X2].
      cbn [m_kin m_sg mat_of] in X1, X2. rewrite N1 in X1, X2.
      rewrite (hard_u lam kap hs c b b' i i' HB HO HO' Hi Hi' HT HX sg kin kin' (b_dt b) N1 N2 N2' KO), X1 in X2. cbn [option_map fst snd] in X2.
      apply some_inj in X2. destruct KO as (_ & _ & _ & _ & KS). destruct (KS _ _ _ _ X1) as (x & Ex). cbn [fst] in Ex. exists x.
      split; [exact Ex|]. apply (f_equal fst) in X2. cbn [fst] in X2. rewrite <- X2, Ex. reflexivity. }
    destruct HU as (x & -> & ->).
    pose proof (r_valsOk _ _ _ _ _ _ _ _ _ _ _ _ _ _ Rs) as VO. cbn [m_kin mat_of] in VO.
    pose proof (pair_RJ_u lam kap hs c pars pars' b b' i i' Hl Hk HB HO HO' Hi Hi' HT sg kin kin' (b_dt b) N1 N2 N2' KO EL B1 B2 B3 B4 x VO) as RJ.
    pose proof (pair_state lam kap hs c pars pars' b b' i i' HB HO HO' Hi Hi' HT sg kin kin' (b_dt b) N1 N2 N2' x) as PS.
    pose proof (pair_C lam kap hs c pars pars' b b' i i' Hl HB HO HO' Hi Hi' HT sg kin kin' (b_dt b) N1 N2 N2' EL B1 B3 x) as PC.
    pose proof (pair_gdot lam kap hs c pars pars' b b' i i' Hl HB HO HO' Hi Hi' HT sg kin kin' (b_dt b) N1 N2 N2' KO EL B1 B2 B3 B4 x VO) as PG.
    pose proof (pair_shr lam kap hs c pars pars' b b' i i' Hl Hk HB HO HO' Hi Hi' HT sg kin kin' (b_dt b) N1 N2 N2' KO EL B1 B2 B3 B4 x VO) as PH.
    pose proof (pair_dis lam kap hs c pars pars' b b' i i' Hl HB HO HO' Hi Hi' HT sg kin kin' (b_dt b) N1 N2 N2' KO EL B1 B2 B3 B4 x VO) as PD.
    pose proof (hdn_u lam kap hs c pars pars' b b' i i' Hl HB HO HO' Hi Hi' HT sg kin kin' (b_dt b) N1 N2 N2' KO B2 B4 x VO) as PN.
    pose proof (tk_u lam kap hs c pars pars' b b' i i' Hl HB HO HO' Hi Hi' HT sg kin kin' N1 N2 N2' B2 B4) as ETk.
    pose proof (upd_u lam kap hs c pars pars' b b' i i' Hl HB HO HO' Hi Hi' HT sg kin kin' N1 N2 N2' B1 B3) as (EU1 & EU2 & EU3).
    set (mat := mat_of c pars sg kin) in *. set (mat' := mat_of c pars' sg kin') in *.
    unfold prob_o, prob_n in *. fold mat mat' in RJ, PS, PC, PG, PH, PD, PN.
    set (p := snglProb mat (b_dt b) (C c b i AD) (C c b i AW) (C c b i AV) (P c b i) [x]) in *.
    set (p' := snglProb mat' (kap * b_dt b) (C' c b' i' AD) (C' c b' i' AW) (C' c b' i' AV) (P' c b' i') [hfac lam c * x]) in *.
    rewrite RJ in Rs'.
    set (r := b_solver b 8%nat (computeRJ p) (nth 2 pars 0) 200%nat (tab 8 (fun _ : nat => 0))) in *.
    assert (XM : exists y n, v = evalEv p y /\ v' = evalEv p' y /\ nf = n /\ nf' = n).
    { pose proof (r_v _ _ _ _ _ _ _ _ _ _ _ _ _ _ Rs) as V1. pose proof (r_v _ _ _ _ _ _ _ _ _ _ _ _ _ _ Rs') as V2.
      pose proof (r_nfev _ _ _ _ _ _ _ _ _ _ _ _ _ _ Rs) as V3. pose proof (r_nfev _ _ _ _ _ _ _ _ _ _ _ _ _ _ Rs') as V4.
      unfold P, pt_of, pt_at in V1, V3. unfold P', pt_of, pt_at in V2, V4. cbn [pt_mtan] in V1, V2, V3, V4. rewrite EM in V2, V4.
      destruct (b_mtan b); [exists (so_x r), (so_nfev_rj r)|exists (so_xlast r), (so_nfev r)]; (split; [exact V1|split; [exact V2|split; [exact V3|exact V4]]]). }
    destruct XM as (y & n & V1 & V2 & V3 & V4).
    assert (EG : gm' = lam * gm).
    { pose proof (r_gmod _ _ _ _ _ _ _ _ _ _ _ _ _ _ Rs) as X1. pose proof (r_gmod _ _ _ _ _ _ _ _ _ _ _ _ _ _ Rs') as X2.
      cbn [m_el mat mat' mat_of] in X1, X2. rewrite (gmod_u lam Hl _ _ _ EL X1) in X2. clear - X2. congruence. }
    pose proof (r_stress _ _ _ _ _ _ _ _ _ _ _ _ _ _ Rs) as ST. pose proof (r_stress _ _ _ _ _ _ _ _ _ _ _ _ _ _ Rs') as ST'.
    rewrite PS, PC, stress_out_sc, <- ST in ST'.
    assert (VOu : forall a k, (k < per_point (c_nH c) (c_nslip c) (b_mtan b) a)%nat -> val (b_s b) (b_m1 b) a i k = get (cell_of c (b_s b) (b_mtan b) (b_m1 b) a i) k)
      by exact (vval hs c b i G Hi).
    assert (VOu' : forall a k, (k < per_point (c_nH c) (c_nslip c) (b_mtan b') a)%nat -> val (b_s b') (b_m1 b') a i' k = get (cell_of c (b_s b') (b_mtan b') (b_m1 b') a i') k)
      by exact (vval hs c b' i' G' Hi').
    assert (ADu : forall k, (k < 6)%nat -> get (C' c b' i' AD) k = / kap * get (C c b i AD) k).
    { intros k Hk6. unfold C', C. rewrite (cin' c b' i' HO' Hi' AD), (cin c b i HO Hi AD) by (cbn [per_point]; lia). destruct HT as (T1 & _). now apply T1. }
    unfold new_out. cbv zeta.
    refine (conj _ (conj _ (conj _ (conj _ (conj _ _))))).
    - unfold eInt. rewrite VOu, VOu' by (cbn [per_point]; lia).
      change (get (pt_eInt (P_out c b' i')) 0 = lam * get (pt_eInt (P_out c b i)) 0).
      rewrite (r_eInt _ _ _ _ _ _ _ _ _ _ _ _ _ _ Rs), (r_eInt _ _ _ _ _ _ _ _ _ _ _ _ _ _ Rs').
      rewrite EU2. rewrite PS, PC, stress_out_sc, <- ST.
      rewrite (V_in lam kap hs c b b' i i' HB HO HO' Hi Hi' HT sg kin kin' N1 N2 N2' 0), (V_in lam kap hs c b b' i i' HB HO HO' Hi Hi' HT sg kin kin' N1 N2 N2' 1) by (cbn; tauto).
      rewrite (inner_ext lam (/ kap) (pt_stress (P c b i)) (pt_stress (P' c b' i')) (C c b i AD) (C' c b' i' AD))
        by (assumption || (intros k Hk6; apply (S_in lam kap hs c b b' i i' HB HO HO' Hi Hi' HT sg kin kin' N1 N2 N2' k); lia)).
      rewrite (inner_ext lam (/ kap) (pt_stress (P_out c b i)) (sc lam (pt_stress (P_out c b i))) (C c b i AD) (C' c b' i' AD))
        by (assumption || (intros k Hk6; apply get_sc)).
      rops. generalize (vecsInnerSvecDev (pt_stress (P c b i)) (C c b i AD)) (vecsInnerSvecDev (pt_stress (P_out c b i)) (C c b i AD))
        (get (C c b i AV) 0) (get (C c b i AV) 1) (u_eNew (snglUpd mat (C c b i AV) (pt_eInt (P c b i)) (pt_stress (P c b i)))). intros z1 z2 z3 z4 z5.
      field. lra.
    - intros k Hk7. rewrite VOu, VOu' by (cbn [per_point]; lia).
      change (get (pt_stress (P_out c b' i')) k = lam * get (pt_stress (P_out c b i)) k). rewrite ST'. apply get_sc.
    - intros k Hkn.
      assert (LV : forall k, (k < 14 + c_nslip c)%nat -> val (b_s b) (b_m1 b) AH i k = get (pt_hist (P_out c b i)) k).
      { intros j Hj. apply VOu. cbn [per_point]. unfold numHist, iHistLbH. rewrite NH. exact Hj. }
      assert (LV' : forall k, (k < 14 + c_nslip c)%nat -> val (b_s b') (b_m1 b') AH i' k = get (pt_hist (P_out c b' i')) k).
      { intros j Hj. apply VOu'. cbn [per_point]. unfold numHist, iHistLbH. rewrite NH. exact Hj. }
      rewrite LV, LV' by exact Hkn.
      destruct (Nat.lt_ge_cases k 4) as [K4|K4].
      { destruct k as [|[|[|[|k]]]]; [| | | |lia].
        - change (hist_dim lam kap c 0) with (/ kap).
          rewrite (r_shrateEff _ _ _ _ _ _ _ _ _ _ _ _ _ _ Rs : get (pt_hist (P_out c b i)) 0 = _), (r_shrateEff _ _ _ _ _ _ _ _ _ _ _ _ _ _ Rs' : get (pt_hist (P_out c b' i')) 0 = _). rewrite V1, V2. apply PH.
        - change (hist_dim lam kap c 1) with 1.
          rewrite (r_shrEff _ _ _ _ _ _ _ _ _ _ _ _ _ _ Rs : get (pt_hist (P_out c b i)) 1 = _), (r_shrEff _ _ _ _ _ _ _ _ _ _ _ _ _ _ Rs' : get (pt_hist (P_out c b' i')) 1 = _).
          rewrite V1, V2, PH. unfold iHistA_shrEff. rewrite (H_in lam kap hs c b b' i i' HB HO HO' Hi Hi' HT) by lia. change (hist_dim lam kap c 1) with 1.
          rops. field. lra.
        - change (hist_dim lam kap c 2) with lam.
          rewrite (r_flow _ _ _ _ _ _ _ _ _ _ _ _ _ _ Rs : get (pt_hist (P_out c b i)) 2 = _), (r_flow _ _ _ _ _ _ _ _ _ _ _ _ _ _ Rs' : get (pt_hist (P_out c b' i')) 2 = _).
          rewrite V1, V2, PD, PN. rewrite (d_in lam kap hs c b b' i i' HB HO HO' Hi Hi' HT sg kin kin' N1 N2 N2').
          assert (KI : 0 < / kap) by now apply Rinv_0_lt_compat.
          rewrite Deff_sc by lra.
          assert (ESy : sym6 (get (C c b i AD)) = devRate (b_s b) (b_m b) i).
          { apply sym6_ext. intros k Hk6. apply (cin c b i HO Hi AD). cbn [per_point]. lia. }
          change (P_Frame2.C c b i AD) with (C c b i AD).
          rewrite (Deff_of _ _ ESy Htr). set (D := sqrt (2 / 3) * norm3t (devRate (b_s b) (b_m b) i)).
          destruct HX as (_ & _ & X3). pose proof (side_ltb D (/ kap * D) X3) as X4. cbn [nltb RNum] in X4. rewrite X4.
          destruct (Rltb idp_tiny_sqrt D); [|reflexivity].
          unfold Rdiv. rewrite Rinv_mult, Rinv_inv. generalize (/ D). intros iD. field. lra.
        - change (hist_dim lam kap c 3) with 1.
          rewrite (r_nf _ _ _ _ _ _ _ _ _ _ _ _ _ _ Rs : get (pt_hist (P_out c b i)) 3 = _), (r_nf _ _ _ _ _ _ _ _ _ _ _ _ _ _ Rs' : get (pt_hist (P_out c b' i')) 3 = _). rewrite V3, V4. ring. }
      destruct (Nat.lt_ge_cases k 13) as [K13|K13].
      { assert (HD : hist_dim lam kap c k = 1).
        { unfold hist_dim. destruct (Nat.eqb_spec k 0); [lia|]. destruct (Nat.eqb_spec k 2); [lia|]. destruct (Nat.ltb_spec k 13); [reflexivity|lia]. }
        rewrite HD, Rmult_1_l. destruct (Nat.lt_ge_cases k 9) as [K9|K9].
        - pose proof (r_E _ _ _ _ _ _ _ _ _ _ _ _ _ _ Rs) as X1. pose proof (r_E _ _ _ _ _ _ _ _ _ _ _ _ _ _ Rs') as X2.
          rewrite PS, <- X1 in X2.
          apply (f_equal (fun l => get l (k - 4))) in X2. rewrite !get_sub in X2 by lia. unfold iHistLbE in X2. replace (4 + (k - 4))%nat with k in X2 by lia. exact X2.
        - pose proof (r_Q _ _ _ _ _ _ _ _ _ _ _ _ _ _ Rs) as X1. pose proof (r_Q _ _ _ _ _ _ _ _ _ _ _ _ _ _ Rs') as X2.
          rewrite PS, (quat_u lam kap hs c b b' i i' HB HO HO' Hi Hi' HT sg kin kin' N1 N2 N2') in X2. change (P_Frame2.P c b i) with (P c b i) in X2. rewrite <- X1 in X2.
          apply (f_equal (fun l => get l (k - 9))) in X2. rewrite !get_sub in X2 by lia. unfold iHistLbQ in X2. replace (9 + (k - 9))%nat with k in X2 by lia. exact X2. }
      destruct (Nat.eq_dec k 13) as [K14|K14].
      { subst k. pose proof (r_H _ _ _ _ _ _ _ _ _ _ _ _ _ _ Rs) as X1. pose proof (r_H _ _ _ _ _ _ _ _ _ _ _ _ _ _ Rs') as X2.
        cbn [m_kin mat mat' mat_of] in X1, X2. rewrite N2, NH in X1. rewrite N2', NH in X2.
        apply (f_equal (fun l => get l 0)) in X1. apply (f_equal (fun l => get l 0)) in X2. rewrite !get_sub in X1, X2 by lia.
        change (iHistLbH + 0)%nat with 13%nat in X1, X2. rewrite X1, X2. reflexivity. }
      pose proof (r_G _ _ _ _ _ _ _ _ _ _ _ _ _ _ Rs) as X1. pose proof (r_G _ _ _ _ _ _ _ _ _ _ _ _ _ _ Rs') as X2.
      cbn [m_kin m_sg mat mat' mat_of] in X1, X2. rewrite N1, N2, NH, V1 in X1. rewrite N1, N2', NH, V2, PG, <- X1 in X2.
      apply (f_equal (fun l => get l (k - 14))) in X2. rewrite get_sc, !get_sub in X2 by lia.
      unfold iHistLbGdot, iHistLbH in X2. replace (13 + 1 + (k - 14))%nat with k in X2 by lia. rewrite X2. f_equal.
      replace k with (14 + (k - 14))%nat by lia. reflexivity.
    - rewrite VOu, VOu' by (cbn [per_point]; lia). change (pt_tkelv (P_out c b' i') = pt_tkelv (P_out c b i)).
      rewrite (r_tkelv _ _ _ _ _ _ _ _ _ _ _ _ _ _ Rs), (r_tkelv _ _ _ _ _ _ _ _ _ _ _ _ _ _ Rs'). exact ETk.
    - rewrite VOu, VOu' by (cbn [per_point]; lia). change (get (pt_sdd (P_out c b' i')) 0 = lam * get (pt_sdd (P_out c b i)) 0).
      rewrite (r_sdd _ _ _ _ _ _ _ _ _ _ _ _ _ _ Rs), (r_sdd _ _ _ _ _ _ _ _ _ _ _ _ _ _ Rs'). exact EU3.
    - rewrite VOu, VOu' by (cbn [per_point]; lia). change (get (pt_sdd (P_out c b' i')) 1 = lam * get (pt_sdd (P_out c b i)) 1).
      rewrite (r_sdd _ _ _ _ _ _ _ _ _ _ _ _ _ _ Rs), (r_sdd _ _ _ _ _ _ _ _ _ _ _ _ _ _ Rs'). exact EG.
  Qed.

  Theorem call_units_tan : b_mtan b = true -> solves_exactly (b_lu b) -> solves_exactly (b_lu b') ->
    forall r q, (r < 6)%nat -> (q < 6)%nat -> tangent (b_s b') (b_m1 b') i' r q = lam * tangent (b_s b) (b_m1 b) i r q.
  Proof.
    intros Hm LX1 LX2 r0 q0 Hr Hq.
    destruct HST as (ES & ED & EM).
    pose proof G as (HB & _ & HO & _). pose proof G' as (_ & _ & HO' & _).
    destruct (call_parts hs c b i pars G Hi U) as (sg & kin & hi & h_u & v & nf & gm & E1 & E2 & N1 & N2 & K & HL & S & So & Rs).
    destruct (call_parts hs c b' i' pars' G' Hi' U') as (sg' & kin' & hi' & h_u' & v' & nf' & gm' & E1' & E2' & N1' & N2' & K' & HL' & S' & So' & Rs').
    cbv zeta in Rs, Rs'.
    destruct (class_units lam kap Hl Hk hs c pars pars' sg kin hi HB HL HP E1 E2) as (F1 & (kin2 & hi2 & F2 & KO) & EL & B1 & B2 & B3 & B4 & BT).
    rewrite F1 in E1'. apply some_inj in E1'. subst sg'.
    assert (EK : kin2 = kin') by (rewrite F2 in E2'; apply (f_equal (option_map fst)) in E2'; cbn [option_map fst] in E2'; clear - E2'; congruence).
    subst kin2. clear E2' F2.
    change (P_in c b i) with (P c b i) in *. change (P_in c b' i') with (P' c b' i') in *.
    change (in_cell c b i) with (C c b i) in *. change (in_cell c b' i') with (C' c b' i') in *.
    rewrite ED, ES, BT in Rs'.
    assert (NH : c_nH c = 1%nat) by exact (nH1 hs c HB).
    assert (HU : exists x, h_u = [x] /\ h_u' = [hfac lam c * x]).
    { destruct (r_updH _ _ _ _ _ _ _ _ _ _ _ _ _ _ Rs) as [n1 X1]. destruct (r_updH _ _ _ _ _ _ _ _ _ _ _ _ _ _ Rs') as [n2 X2].
      cbn [m_kin m_sg mat_of] in X1, X2. rewrite N1 in X1, X2.
      rewrite (hard_u lam kap hs c b b' i i' HB HO HO' Hi Hi' HT HX sg kin kin' (b_dt b) N1 N2 N2' KO), X1 in X2. cbn [option_map fst snd] in X2.
      apply some_inj in X2. destruct KO as (_ & _ & _ & _ & KS). destruct (KS _ _ _ _ X1) as (x & Ex). cbn [fst] in Ex. exists x.
      split; [exact Ex|]. apply (f_equal fst) in X2. cbn [fst] in X2. rewrite <- X2, Ex. reflexivity. }
    destruct HU as (x & -> & ->).
    pose proof (r_valsOk _ _ _ _ _ _ _ _ _ _ _ _ _ _ Rs) as VO. cbn [m_kin mat_of] in VO.
    pose proof (pair_RJ_u lam kap hs c pars pars' b b' i i' Hl Hk HB HO HO' Hi Hi' HT sg kin kin' (b_dt b) N1 N2 N2' KO EL B1 B2 B3 B4 x VO) as RJ.
    pose proof (pair_state lam kap hs c pars pars' b b' i i' HB HO HO' Hi Hi' HT sg kin kin' (b_dt b) N1 N2 N2' x) as PS.
    pose proof (pair_C lam kap hs c pars pars' b b' i i' Hl HB HO HO' Hi Hi' HT sg kin kin' (b_dt b) N1 N2 N2' EL B1 B3 x) as PC.
    pose proof (pair_gdot lam kap hs c pars pars' b b' i i' Hl HB HO HO' Hi Hi' HT sg kin kin' (b_dt b) N1 N2 N2' KO EL B1 B2 B3 B4 x VO) as PG.
    pose proof (pair_shr lam kap hs c pars pars' b b' i i' Hl Hk HB HO HO' Hi Hi' HT sg kin kin' (b_dt b) N1 N2 N2' KO EL B1 B2 B3 B4 x VO) as PH.
    pose proof (pair_dis lam kap hs c pars pars' b b' i i' Hl HB HO HO' Hi Hi' HT sg kin kin' (b_dt b) N1 N2 N2' KO EL B1 B2 B3 B4 x VO) as PD.
    pose proof (hdn_u lam kap hs c pars pars' b b' i i' Hl HB HO HO' Hi Hi' HT sg kin kin' (b_dt b) N1 N2 N2' KO B2 B4 x VO) as PN.
    pose proof (tk_u lam kap hs c pars pars' b b' i i' Hl HB HO HO' Hi Hi' HT sg kin kin' N1 N2 N2' B2 B4) as ETk.
    pose proof (upd_u lam kap hs c pars pars' b b' i i' Hl HB HO HO' Hi Hi' HT sg kin kin' N1 N2 N2' B1 B3) as (EU1 & EU2 & EU3).
    pose proof (fun y => pair_rhs lam kap hs c pars pars' b b' i i' HB HO HO' Hi Hi' HT sg kin kin' (b_dt b) N1 N2 N2' x y) as PR.
    pose proof (pair_jac0 lam kap hs c pars pars' b b' i i' Hl Hk HB HO HO' Hi Hi' HT sg kin kin' (b_dt b) N1 N2 N2' KO EL B1 B2 B3 B4 x VO) as PJ.
    pose proof (pair_SD lam kap hs c pars pars' b b' i i' Hl Hk HB HO HO' Hi Hi' HT sg kin kin' (b_dt b) N1 N2 N2' EL B1 B3 x) as PM.
    set (mat := mat_of c pars sg kin) in *. set (mat' := mat_of c pars' sg kin') in *.
    unfold prob_o, prob_n in *. fold mat mat' in PR, PJ, PM, RJ, PS, PC, PG, PH, PD, PN.
    set (p := snglProb mat (b_dt b) (C c b i AD) (C c b i AW) (C c b i AV) (P c b i) [x]) in *.
    set (p' := snglProb mat' (kap * b_dt b) (C' c b' i' AD) (C' c b' i' AW) (C' c b' i' AV) (P' c b' i') [hfac lam c * x]) in *.
    rewrite RJ in Rs'.
    set (r := b_solver b 8%nat (computeRJ p) (nth 2 pars 0) 200%nat (tab 8 (fun _ : nat => 0))) in *.
    pose proof (r_mtan _ _ _ _ _ _ _ _ _ _ _ _ _ _ Rs) as T1. pose proof (r_mtan _ _ _ _ _ _ _ _ _ _ _ _ _ _ Rs') as T2.
    assert (Q1 : exists l, pt_mtan (P c b i) = Some l) by (unfold P, pt_of, pt_at; cbn [pt_mtan]; rewrite Hm; eexists; reflexivity).
    assert (Q2 : exists l, pt_mtan (P' c b' i') = Some l) by (unfold P', pt_of, pt_at; cbn [pt_mtan]; rewrite EM, Hm; eexists; reflexivity).
    destruct Q1 as (l1 & Q1). destruct Q2 as (l2 & Q2). rewrite Q1 in T1. rewrite Q2 in T2.
    destruct T1 as (mv & T1 & O1). destruct T2 as (mv' & T2 & O2).
    assert (LU1 : exists sol, b_lu b 8%nat (jacobian0 p (evalEv p (so_x r))) (mtan_rhs_T (evalEv p (so_x r))) 5%nat = Some sol).
    { unfold mtan_vecds in T1. destruct (b_lu b 8%nat _ _ _) as [sol|]; [exists sol; reflexivity|discriminate]. }
    assert (LU2 : exists sol, b_lu b' 8%nat (jacobian0 p' (evalEv p' (so_x r))) (mtan_rhs_T (evalEv p' (so_x r))) 5%nat = Some sol).
    { unfold mtan_vecds in T2. destruct (b_lu b' 8%nat _ _ _) as [sol|]; [exists sol; reflexivity|discriminate]. }
    destruct LU1 as (sol & L1). destruct LU2 as (sol' & L2).
    assert (LS : forall j r', (j < 5)%nat -> (r' < 8)%nat -> get2 8 sol' j r' = kap * get2 8 sol j r').
    { pose proof L2 as L3. rewrite PR in L3.
      assert (LN : forall j i, (j < 5)%nat -> (i < 8)%nat -> nth (j * 8 + i) sol' 0 = kap * nth (j * 8 + i) sol 0); [|exact LN].
      apply (lu_units kap (b_lu b) (b_lu b') (fun r' => if Nat.ltb r' 5 then kap else 1) 8 (jacobian0 p (evalEv p (so_x r))) (jacobian0 p' (evalEv p' (so_x r))) (mtan_rhs_T (evalEv p (so_x r))) 5 sol sol' LX1 LX2); [| | |exact L1|exact L3].
      - intros r'. destruct (Nat.ltb r' 5); lra.
      - intros r' q' Hr' Hq'. pose proof (PJ (so_x r) r' q' Hr' Hq') as J.
        change (nth (r' * 8 + q') (jacobian0 p' (evalEv p' (so_x r))) 0) with (get2 8 (jacobian0 p' (evalEv p' (so_x r))) r' q').
        change (nth (r' * 8 + q') (jacobian0 p (evalEv p (so_x r))) 0) with (get2 8 (jacobian0 p (evalEv p (so_x r))) r' q').
        rewrite J. destruct (Nat.ltb r' 5); field; lra.
      - intros j r' Hj Hr'. change (nth (j * 8 + r') (mtan_rhs_T (evalEv p (so_x r))) 0) with (get2 8 (mtan_rhs_T (evalEv p (so_x r))) j r').
        unfold mtan_rhs_T. rewrite get2_tab2 by assumption. destruct (Nat.ltb r' 5); [left|right]; reflexivity. }
    pose proof (PM (so_x r) sol sol' (b_lu b) (b_lu b') mv mv' (u_bulkNew (snglUpd mat (C c b i AV) (pt_eInt (P c b i)) (pt_stress (P c b i)))) L1 L2 LS T1 T2) as FIN.
    rewrite EU3, FIN in O2.
    unfold tangent. rewrite (vval hs c b i G Hi), (vval hs c b' i' G' Hi') by (cbn [per_point]; rewrite ?EM, Hm; lia).
    unfold P_out, pt_of, pt_at in O1, O2. cbn [pt_mtan] in O1, O2. rewrite Hm in O1. rewrite EM, Hm in O2. apply some_inj in O1. apply some_inj in O2.
    unfold cell_of. rewrite EM, Hm, O1, O2. apply get_sc.
  Qed.
End Both.

(** the call in the new units succeeds when the other one does *)
Section Success.
  Variables (lam kap : R) (hs : Solver R) (c : MClass R) (pars pars' : list R) (b : BCall) (s' : MM R) (lu' : LUSolver R) (n' : nat) (m' : Mem R).
  Let b' := call_of c s' (b_solver b) lu' false n' (kap * b_dt b) m'.
  Hypothesis Hl : 0 < lam.
  Hypothesis Hk : 0 < kap.
  Hypothesis G : good hs c b.
  Hypothesis U : in_use c (b_s b) pars.
  Hypothesis U' : in_use c s' pars'.
  Hypothesis HP : new_units lam kap c pars pars'.
  Hypothesis HC : mm_complete s' = true.
  Hypothesis HO' : batch_ok c s' false n' m'.
  Hypothesis HI : forall i', (i' < n')%nat -> exists i, (i < b_n b)%nat /\ new_in lam kap c b i b' i' /\ off_limits lam kap c b i.
  Hypothesis Hn : (0 < n')%nat.

  Theorem units_succeeds : good hs c b'.
  Proof.
    pose proof G as (HB & _ & HO & _).
    destruct (HI 0%nat Hn) as (i0 & Hi0 & _).
    destruct (call_parts hs c b i0 pars G Hi0 U) as (sg & kin & hi & h_u & v & nf & gm & E1 & E2 & N1 & N2 & K & HL & S & So & Rs).
    cbv zeta in Rs. pose proof (r_gmod _ _ _ _ _ _ _ _ _ _ _ _ _ _ Rs) as Hg. clear h_u v nf S So Rs.
    destruct (class_units lam kap Hl Hk hs c pars pars' sg kin hi HB HL HP E1 E2) as (F1 & (kin' & hi' & F2 & KO) & EL & B1 & B2 & B3 & B4 & BT).
    assert (NH : c_nH c = 1%nat) by exact (nH1 hs c HB).
    assert (N2' : k_nH kin' = c_nH c) by (destruct KO as (_ & KN & _); rewrite KN; exact N2).
    assert (N2'' : k_nH kin' = 1%nat) by (rewrite N2'; exact NH).
    assert (Hg' : el_getGmod (m_el (mat_of c pars' sg kin')) = Some (lam * gm)).
    { cbn [m_el mat_of] in Hg |- *. exact (gmod_u lam Hl _ _ _ EL Hg). }
    apply (good_intro hs c s' pars' HB U' HC (b_solver b) lu' n' (kap * b_dt b) m' HO' sg kin' hi' F1 F2 N1 N2'' (lam * gm) Hg').
    intros i' Hi'. destruct (HI i' Hi') as (i & Hi & HT & HX).
    destruct (call_parts hs c b i pars G Hi U) as (sg0 & kin0 & hi0 & h_u & v & nf & gm0 & E10 & E20 & _ & _ & _ & _ & S & So & Rs).
    cbv zeta in Rs. rewrite E1 in E10. apply some_inj in E10. subst sg0.
    assert (EK : kin0 = kin) by (rewrite E2 in E20; apply (f_equal (option_map fst)) in E20; cbn [option_map fst] in E20; clear - E20; congruence).
    subst kin0. clear E20.
    assert (HOb : batch_ok c (b_s b') (b_mtan b') (b_n b') (b_m b')) by exact HO'.
    assert (Hib : (i' < b_n b')%nat) by exact Hi'.
    change (P_in c b i) with (P c b i) in *. change (in_cell c b i) with (C c b i) in *.
    destruct (r_updH _ _ _ _ _ _ _ _ _ _ _ _ _ _ Rs) as [n X1]. cbn [m_kin m_sg mat_of] in X1. rewrite N1 in X1.
    pose proof (hard_u lam kap hs c b b' i i' HB HO HOb Hi Hib HT HX sg kin kin' (b_dt b) N1 N2 N2' KO) as X2. rewrite X1 in X2. cbn [option_map fst snd] in X2.
    destruct KO as (KO1 & KO2 & KO3 & KO4 & KS). destruct (KS _ _ _ _ X1) as (x & Ex). cbn [fst] in Ex. subst h_u.
    pose proof (conj KO1 (conj KO2 (conj KO3 (conj KO4 KS)))) as KO. fold (kin_ok lam kap (hfac lam c) (strength_is_stress c) (c_nslip c) kin kin') in KO.
    pose proof (r_valsOk _ _ _ _ _ _ _ _ _ _ _ _ _ _ Rs) as VO. cbn [m_kin mat_of] in VO.
    exists [hfac lam c * x], n. split; [|split].
    - change (sc (hfac lam c) [x]) with [hfac lam c * x] in X2. rewrite <- X2. rewrite N2', NH. f_equal.
      + apply list_get_ext; [rewrite sub_length by (rewrite (len_H' hs c b' i' HB HOb Hib); unfold iHistLbH; lia); reflexivity|].
        intros k Hk1. cbn [List.length] in Hk1. assert (k = 0%nat) by lia. subst k. rewrite get_sub by lia.
        rewrite (get_H' hs c b' i' HB HOb Hib) by (unfold iHistLbH; lia). reflexivity.
      + apply list_get_ext; [rewrite sub_length by (rewrite (len_H' hs c b' i' HB HOb Hib); unfold iHistLbGdot, iHistLbH; lia); unfold slip_rates; now rewrite map_length, seq_length|].
        intros k Hk1. unfold slip_rates in Hk1. rewrite map_length, seq_length in Hk1. rewrite get_sub by lia.
        change (slip_rates c s' m' i') with (tab (c_nslip c) (fun k => val s' m' AH i' (14 + k))). rewrite get_tab by lia.
        rewrite (get_H' hs c b' i' HB HOb Hib) by (unfold iHistLbGdot, iHistLbH; lia). reflexivity.
    - exact (vals_u lam kap hs c pars pars' b b' i i' Hl HB HO HOb Hi Hib HT sg kin kin' N1 N2 N2' KO B2 B4 x VO).
    - pose proof (r_conv _ _ _ _ _ _ _ _ _ _ _ _ _ _ Rs) as VK.
      pose proof (pair_RJ_u lam kap hs c pars pars' b b' i i' Hl Hk HB HO HOb Hi Hib HT sg kin kin' (b_dt b) N1 N2 N2' KO EL B1 B2 B3 B4 x VO) as RJ.
      unfold prob_o, prob_n in RJ. rewrite <- RJ in VK. rewrite BT. exact VK.
  Qed.
End Success.
