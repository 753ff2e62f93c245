(** Change of units: the call in the new units succeeds too when the tangent is requested (C64). *)
From Coq Require Import List ZArith Bool Lia PeanoNat Reals Lra String FunctionalExtensionality.
From Verif Require Import P_Demo.
From Verif Require Import Num Arr NumR Util SlipGeom Eos Hard KinVoce KinKMBalD Elast Evptn MatModel Cases SpecTensor
  SpecElast SpecSlip P_Tensor P_Elast P_Eos P_Sngl P_Sngl2 P_Sngl3 P_Batch P_Batch2 P_Batch3 P_Batch4 P_Api P_Builtin SpecApi P_Hist SpecStress P_Stress
  SpecKin SpecKinApi SpecStep P_Call P_Step P_Step2 P_Energy P_Rigid3 P_Demo3 SpecFrame P_Frame P_Frame2 P_Frame3 SpecTan SpecUnits P_Units P_Units2 P_Units3 P_Units4 P_Units6 P_Units5 P_Demo6.
Import ListNotations.
Local Open Scope R_scope.


Section Success.
  Variables (lam kap : R) (hs : Solver R) (c : MClass R) (pars pars' : list R) (b : BCall) (s' : MM R) (lu' : LUSolver R) (n' : nat) (m' : Mem R).
  Let b' := call_of c s' (b_solver b) lu' true n' (kap * b_dt b) m'.
  Hypothesis Hl : 0 < lam.
  Hypothesis Hk : 0 < kap.
  Hypothesis G : good hs c b.
  Hypothesis U : in_use c (b_s b) pars.
  Hypothesis U' : in_use c s' pars'.
  Hypothesis HP : new_units lam kap c pars pars'.
  Hypothesis HC : mm_complete s' = true.
  Hypothesis HO' : batch_ok c s' true n' m'.
  Hypothesis HI : forall i', (i' < n')%nat -> exists i, (i < b_n b)%nat /\ new_in lam kap c b i b' i' /\ off_limits lam kap c b i.
  Hypothesis Hn : (0 < n')%nat.
  Hypothesis Hm : b_mtan b = true.
  Hypothesis HLU : forall A B k, b_lu b 8%nat (row_times 8 (row_unit kap) A) B k <> None -> lu' 8%nat A B k <> None.

  Theorem units_succeeds_t : good hs c b'.
  Proof.
    pose proof G as (HB & _ & HO & _).
    destruct (HI 0%nat Hn) as (i0 & Hi0 & _).
    destruct (call_parts hs c b i0 pars G Hi0 U) as (sg & kin & hi & h_u & v & nf & gm & E1 & E2 & N1 & N2 & K & HL & S & So & Rs).
    cbv zeta in Rs. pose proof (r_gmod _ _ _ _ _ _ _ _ _ _ _ _ _ _ Rs) as Hg. clear h_u v nf S So Rs.
    destruct (class_units lam kap Hl Hk hs c pars pars' sg kin hi HB HL HP E1 E2) as (F1 & (kin' & hi' & F2 & KO) & EL & B1 & B2 & B3 & B4 & BT).
    assert (NH : c_nH c = 1%nat) by exact (nH1 hs c HB).
    assert (N2' : k_nH kin' = c_nH c) by (destruct KO as (_ & KN & _); rewrite KN; exact N2).
    assert (N2'' : k_nH kin' = 1%nat) by (rewrite N2'; exact NH).
    assert (Hg' : el_getGmod (m_el (mat_of c pars' sg kin')) = Some (lam * gm)).
    { cbn [m_el mat_of] in Hg |- *. exact (gmod_u lam Hl _ _ _ EL Hg). }
    apply (good_intro_t hs c s' pars' HB U' HC (b_solver b) lu' n' (kap * b_dt b) m' HO' sg kin' hi' F1 F2 N1 N2'' (lam * gm) Hg').
    intros i' Hi'. destruct (HI i' Hi') as (i & Hi & HT & HX).
    destruct (call_parts hs c b i pars G Hi U) as (sg0 & kin0 & hi0 & h_u & v & nf & gm0 & E10 & E20 & _ & _ & _ & _ & S & So & Rs).
    cbv zeta in Rs. rewrite E1 in E10. apply some_inj in E10. subst sg0.
    assert (EK : kin0 = kin) by (rewrite E2 in E20; apply (f_equal (option_map fst)) in E20; cbn [option_map fst] in E20; clear - E20; congruence).
    subst kin0. clear E20.
    assert (HOb : batch_ok c (b_s b') (b_mtan b') (b_n b') (b_m b')) by exact HO'.
    assert (Hib : (i' < b_n b')%nat) by exact Hi'.
    change (P_in c b i) with (P c b i) in *. change (in_cell c b i) with (C c b i) in *.
    destruct (r_updH _ _ _ _ _ _ _ _ _ _ _ _ _ _ Rs) as [n X1]. cbn [m_kin m_sg mat_of] in X1. rewrite N1 in X1.
    pose proof (hard_u lam kap hs c b b' i i' HB HO HOb Hi Hib HT HX sg kin kin' (b_dt b) N1 N2 N2' KO) as X2. rewrite X1 in X2. cbn [option_map fst snd] in X2.
    destruct KO as (KO1 & KO2 & KO3 & KO4 & KS). destruct (KS _ _ _ _ X1) as (x & Ex). cbn [fst] in Ex. subst h_u.
    pose proof (conj KO1 (conj KO2 (conj KO3 (conj KO4 KS)))) as KO. fold (kin_ok lam kap (hfac lam c) (strength_is_stress c) (c_nslip c) kin kin') in KO.
    pose proof (r_valsOk _ _ _ _ _ _ _ _ _ _ _ _ _ _ Rs) as VO. cbn [m_kin mat_of] in VO.
    exists [hfac lam c * x], n. split; [|split].
    - change (sc (hfac lam c) [x]) with [hfac lam c * x] in X2. rewrite <- X2. rewrite N2', NH. f_equal.
      + apply list_get_ext; [rewrite sub_length by (rewrite (len_H' hs c b' i' HB HOb Hib); unfold iHistLbH; lia); reflexivity|].
        intros k Hk1. cbn [List.length] in Hk1. assert (k = 0%nat) by lia. subst k. rewrite get_sub by lia.
        rewrite (get_H' hs c b' i' HB HOb Hib) by (unfold iHistLbH; lia). reflexivity.
      + apply list_get_ext; [rewrite sub_length by (rewrite (len_H' hs c b' i' HB HOb Hib); unfold iHistLbGdot, iHistLbH; lia); unfold slip_rates; now rewrite map_length, seq_length|].
        intros k Hk1. unfold slip_rates in Hk1. rewrite map_length, seq_length in Hk1. rewrite get_sub by lia.
        change (slip_rates c s' m' i') with (tab (c_nslip c) (fun k => val s' m' AH i' (14 + k))). rewrite get_tab by lia.
        rewrite (get_H' hs c b' i' HB HOb Hib) by (unfold iHistLbGdot, iHistLbH; lia). reflexivity.
    - exact (vals_u lam kap hs c pars pars' b b' i i' Hl HB HO HOb Hi Hib HT sg kin kin' N1 N2 N2' KO B2 B4 x VO).
    - pose proof (r_conv _ _ _ _ _ _ _ _ _ _ _ _ _ _ Rs) as VK.
      pose proof (pair_RJ_u lam kap hs c pars pars' b b' i i' Hl Hk HB HO HOb Hi Hib HT sg kin kin' (b_dt b) N1 N2 N2' KO EL B1 B2 B3 B4 x VO) as RJ.
      pose proof (pair_jac0 lam kap hs c pars pars' b b' i i' Hl Hk HB HO HOb Hi Hib HT sg kin kin' (b_dt b) N1 N2 N2' KO EL B1 B2 B3 B4 x VO) as PJ.
      pose proof (fun y => pair_rhs lam kap hs c pars pars' b b' i i' HB HO HOb Hi Hib HT sg kin kin' (b_dt b) N1 N2 N2' x y) as PR.
      pose proof (r_mtan _ _ _ _ _ _ _ _ _ _ _ _ _ _ Rs) as T1.
      assert (Q1 : exists l, pt_mtan (P c b i) = Some l) by (unfold P, pt_of, pt_at; cbn [pt_mtan]; rewrite Hm; eexists; reflexivity).
      destruct Q1 as (l1 & Q1). rewrite Q1 in T1. destruct T1 as (mv & T1 & _).
      unfold prob_o, prob_n in RJ, PJ, PR.
      set (p := snglProb (mat_of c pars sg kin) (b_dt b) (C c b i AD) (C c b i AW) (C c b i AV) (P c b i) [x]) in *.
      set (p' := snglProb (mat_of c pars' sg kin') (kap * b_dt b) (C' c b' i' AD) (C' c b' i' AW) (C' c b' i' AV) (P' c b' i') [hfac lam c * x]) in *.
      cbv zeta. change (so_converged (b_solver b 8%nat (computeRJ p') (nth 2 pars' 0) 200%nat (tab 8 (fun _ => 0))) = true /\
        mtan_vecds lu' p' (so_x (b_solver b 8%nat (computeRJ p') (nth 2 pars' 0) 200%nat (tab 8 (fun _ => 0)))) <> None).
      rewrite BT, RJ. split; [exact VK|].
      set (r := b_solver b 8%nat (computeRJ p) (nth 2 pars 0) 200%nat (tab 8 (fun _ => 0))) in *.
      assert (EJ : jacobian0 p (evalEv p (so_x r)) = row_times 8 (row_unit kap) (jacobian0 p' (evalEv p' (so_x r)))).
      { apply list_get_ext.
        - unfold jacobian0. destruct (dxi_parts p _) as [[? ?] ?]. reflexivity.
        - intros k Hk8. assert (L : (k < 64)%nat) by (revert Hk8; unfold jacobian0; destruct (dxi_parts p _) as [[? ?] ?]; cbn; lia).
          rewrite (Nat.div_mod k 8) by lia. rewrite (Nat.mul_comm 8). assert (D1 : (k / 8 < 8)%nat) by (apply Nat.div_lt_upper_bound; lia).
          assert (D2 : (k mod 8 < 8)%nat) by (apply Nat.mod_upper_bound; lia).
          change (get2 8 (jacobian0 p (evalEv p (so_x r))) (k / 8) (k mod 8) = get2 8 (row_times 8 (row_unit kap) (jacobian0 p' (evalEv p' (so_x r)))) (k / 8) (k mod 8)).
          change (row_times 8 (row_unit kap) (jacobian0 p' (evalEv p' (so_x r)))) with (tab2 8 8 (fun i j => row_unit kap i * get2 8 (jacobian0 p' (evalEv p' (so_x r))) i j)).
          rewrite get2_tab2 by assumption. rewrite PJ by assumption. unfold row_unit. destruct (Nat.ltb (k / 8) 5); field; lra. }
      assert (LU1 : b_lu b 8%nat (jacobian0 p (evalEv p (so_x r))) (mtan_rhs_T (evalEv p (so_x r))) 5%nat <> None).
      { intros Z. unfold mtan_vecds in T1. rewrite Z in T1. discriminate. }
      rewrite EJ in LU1. apply HLU in LU1. rewrite <- PR in LU1.
      unfold mtan_vecds. destruct (lu' 8%nat _ _ _) as [sol|]; [|congruence]. destruct (dxi_parts p' _) as [[? ?] ?]. discriminate.
  Qed.
End Success.
