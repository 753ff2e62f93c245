(** Frame indifference of whole calls: what they return, and that the turned call succeeds too (C21). *)
From Coq Require Import List ZArith Bool Lia PeanoNat Reals Lra String.
From Verif Require Import P_Demo.
From Verif Require Import Num Arr NumR Util SlipGeom Eos Hard KinVoce KinKMBalD Elast Evptn MatModel Cases SpecTensor
  SpecElast SpecSlip P_Tensor P_Elast P_Eos P_Sngl P_Sngl2 P_Sngl3 P_Batch P_Batch2 P_Batch3 P_Batch4 P_Api P_Builtin SpecApi P_Hist SpecStress P_Stress
  SpecKin SpecKinApi SpecStep P_Call P_Step P_Step2 P_Energy P_Rigid3 P_Demo3 SpecFrame P_Frame P_Frame2.
Import ListNotations.
Local Open Scope R_scope.

Lemma vval hs c b i : good hs c b -> (i < b_n b)%nat -> forall a k, (k < per_point (c_nH c) (c_nslip c) (b_mtan b) a)%nat ->
  val (b_s b) (b_m1 b) a i k = get (cell_of c (b_s b) (b_mtan b) (b_m1 b) a i) k.
Proof. intros G Hi a k Hk. symmetry. exact (vout hs c b i G Hi a k Hk). Qed.
Lemma pt_work (s d : list R) : vecsInnerSvecDev s d = inner (sym6 (get s)) (sym6 (get d)).
Proof. apply innerSvec. Qed.

Section Both.
  Variables (hs : Solver R) (c : MClass R) (pars : list R) (b b' : BCall) (i i' : nat) (Q : M3).
  Hypothesis G : good hs c b.
  Hypothesis G' : good hs c b'.
  Hypothesis U : in_use c (b_s b) pars.
  Hypothesis U' : in_use c (b_s b') pars.
  Hypothesis Hi : (i < b_n b)%nat.
  Hypothesis Hi' : (i' < b_n b')%nat.
  Hypothesis HST : same_setting b b'.
  Hypothesis HT : turned_in c Q b i b' i'.
  Hypothesis Htr : trace (devRate (b_s b) (b_m b) i) = 0.
  Hypothesis Hq : norm2 (quat (b_s b) (b_m b) i) <> 0.
  Hypothesis Hq' : norm2 (quat (b_s b') (b_m b') i') <> 0.

  Theorem call_turn : turned_out c Q b i b' i'.
  Proof.
    destruct HST as (ES & ED & EM).
    pose proof G as (HB & _ & HO & _). pose proof G' as (_ & _ & HO' & _).
    destruct (call_parts hs c b i pars G Hi U) as (sg & kin & hi & h_u & v & nf & gm & E1 & E2 & N1 & N2 & K & HL & S & So & Rs).
    destruct (call_parts hs c b' i' pars G' Hi' U') as (sg' & kin' & hi' & h_u' & v' & nf' & gm' & E1' & E2' & N1' & N2' & K' & HL' & S' & So' & Rs').
    cbv zeta in Rs, Rs'. rewrite E1 in E1'. apply some_inj in E1'. subst sg'.
    assert (EK : kin' = kin) by (rewrite E2 in E2'; apply (f_equal (option_map fst)) in E2'; cbn [option_map fst] in E2'; clear - E2'; congruence).
    subst kin'. clear E2'.
    set (mat := mat_of c pars sg kin) in *.
    change (P_in c b i) with (P c b i) in *. change (P_in c b' i') with (P' c b' i') in *.
    change (in_cell c b i) with (C c b i) in *. change (in_cell c b' i') with (C' c b' i') in *.
    rewrite ED in Rs'. rewrite ES in Rs'.
    assert (MS : sg_nslip (m_sg mat) = c_nslip c) by exact N1. assert (MH : k_nH (m_kin mat) = c_nH c) by exact N2.
    pose proof (in_hard hs c b b' i i' Q HB HO HO' Hi Hi' HT mat MS MH) as IH.
    pose proof (in_rates hs c b b' i i' Q HB HO HO' Hi Hi' HT mat MS MH) as IR.
    assert (EU : h_u' = h_u).
    { destruct (r_updH _ _ _ _ _ _ _ _ _ _ _ _ _ _ Rs) as [n1 X1]. destruct (r_updH _ _ _ _ _ _ _ _ _ _ _ _ _ _ Rs') as [n2 X2].
      rewrite IH, IR in X2. rewrite X1 in X2. clear - X2. congruence. }
    subst h_u'.
    pose proof (pair_RJ hs c b b' i i' Q HB HO HO' Hi Hi' HT Htr Hq Hq' mat (b_dt b) MS MH h_u) as RJ.
    pose proof (pair_prob hs c b b' i i' Q HB HO HO' Hi Hi' HT Htr Hq Hq' mat (b_dt b) MS MH h_u) as EP.
    pose proof (prob_ok hs c b b' i i' HB HO Hi Hi' Hq mat (b_dt b) h_u) as (OK1 & OK2 & OK3).
    pose proof (pair_upd c b b' i i' Q HO HO' Hi Hi' HT mat MS MH) as EUp.
    pose proof (pair_tk c b b' i i' Q HO HO' Hi Hi' HT mat MS MH) as ETk.
    set (p := prob c b i mat (b_dt b) h_u) in *.
    change (snglProb mat (b_dt b) (C c b i AD) (C c b i AW) (C c b i AV) (P c b i) h_u) with p in Rs.
    rewrite RJ in Rs'. rewrite EP in Rs'.
    set (r := b_solver b 8%nat (computeRJ p) (nth 2 pars 0) 200%nat (tab 8 (fun _ : nat => 0))) in *.
    set (q := qQ b b' i i') in *.
    assert (Lq : List.length q = 4%nat) by reflexivity.
    assert (Nq : SpecTensor.norm2 q = 1) by exact (qQ_unit b b' i i' Hq Hq').
    assert (RQ : rotq q = Q) by exact (qQ_rot c b b' i i' Q HT Hq Hq').
    assert (OQ : is_orth Q) by exact (Q_orth c b b' i i' Q HT Hq Hq').
    assert (XM : exists x n, v = evalEv p x /\ v' = evalEv (turn_prob q p) x /\ nf = n /\ nf' = n).
    { pose proof (r_v _ _ _ _ _ _ _ _ _ _ _ _ _ _ Rs) as V1. pose proof (r_v _ _ _ _ _ _ _ _ _ _ _ _ _ _ Rs') as V2.
      pose proof (r_nfev _ _ _ _ _ _ _ _ _ _ _ _ _ _ Rs) as V3. pose proof (r_nfev _ _ _ _ _ _ _ _ _ _ _ _ _ _ Rs') as V4.
      unfold P, pt_of, pt_at in V1, V3. unfold P', pt_of, pt_at in V2, V4. cbn [pt_mtan] in V1, V2, V3, V4. rewrite EM in V2, V4.
      destruct (b_mtan b); [exists (so_x r), (so_nfev_rj r)|exists (so_xlast r), (so_nfev r)]; (split; [exact V1|split; [exact V2|split; [exact V3|exact V4]]]). }
    destruct XM as (x & n & V1 & V2 & V3 & V4).
    assert (EG : gm' = gm).
    { pose proof (r_gmod _ _ _ _ _ _ _ _ _ _ _ _ _ _ Rs) as X1. pose proof (r_gmod _ _ _ _ _ _ _ _ _ _ _ _ _ _ Rs') as X2.
      clear - X1 X2. congruence. }
    destruct (stateFromX_length p (so_x r)) as [L5 L4].
    assert (NU : SpecTensor.norm2 (snd (stateFromX p (so_x r))) = 1) by exact (proj2 (ev_C_unit p OK1 (so_x r))).
    assert (QU : snd (stateFromX (turn_prob q p) (so_x r)) = quat_prod q (snd (stateFromX p (so_x r))))
      by exact (turn_C p q Lq OK1 (so_x r)).
    pose proof (r_stress _ _ _ _ _ _ _ _ _ _ _ _ _ _ Rs) as ST. pose proof (r_stress _ _ _ _ _ _ _ _ _ _ _ _ _ _ Rs') as ST'.
    rewrite QU in ST'.
    change (elastNEtoC (turn_prob q p) (fst (stateFromX (turn_prob q p) (so_x r)))) with (elastNEtoC p (fst (stateFromX p (so_x r)))) in ST'.
    destruct (stress_turn q (snd (stateFromX p (so_x r))) (elastNEtoC p (fst (stateFromX p (so_x r)))) Lq Nq L4 NU eq_refl) as [SD SP].
    rewrite <- ST, <- ST', RQ in SD. rewrite <- ST, <- ST' in SP.
    assert (VO : forall a k, (k < per_point (c_nH c) (c_nslip c) (b_mtan b) a)%nat -> val (b_s b) (b_m1 b) a i k = get (cell_of c (b_s b) (b_mtan b) (b_m1 b) a i) k)
      by exact (vval hs c b i G Hi).
    assert (VO' : forall a k, (k < per_point (c_nH c) (c_nslip c) (b_mtan b') a)%nat -> val (b_s b') (b_m1 b') a i' k = get (cell_of c (b_s b') (b_mtan b') (b_m1 b') a i') k)
      by exact (vval hs c b' i' G' Hi').
    assert (DS : devStress (b_s b) (b_m1 b) i = sym6 (get (pt_stress (P_out c b i)))).
    { apply sym6_ext. intros k Hk. apply VO. cbn [per_point]. lia. }
    assert (DS' : devStress (b_s b') (b_m1 b') i' = sym6 (get (pt_stress (P_out c b' i')))).
    { apply sym6_ext. intros k Hk. apply VO'. cbn [per_point]. lia. }
    assert (R1 : devStress (b_s b') (b_m1 b') i' = cong Q (devStress (b_s b) (b_m1 b) i)) by (rewrite DS, DS'; exact SD).
    unfold turned_out. cbv zeta.
    refine (conj R1 (conj _ (conj _ (conj _ (conj _ (conj _ (conj _ _))))))).
    - pose proof (quat_out hs c b i G Hi) as QO. pose proof (quat_out hs c b' i' G' Hi') as QO'.
      unfold quat_of in QO, QO'. change (pt_of c (b_s b) (b_mtan b) (b_m1 b) i) with (P_out c b i) in QO. change (pt_of c (b_s b') (b_mtan b') (b_m1 b') i') with (P_out c b' i') in QO'.
      rewrite <- QO, <- QO'. rewrite (r_Q _ _ _ _ _ _ _ _ _ _ _ _ _ _ Rs), (r_Q _ _ _ _ _ _ _ _ _ _ _ _ _ _ Rs'), QU.
      rewrite (in_Q hs c b b' i i' HB HO HO' Hi Hi' Hq Hq'). fold q.
      assert (LN : List.length (snglQuatN (pt_hist (P c b i))) = 4%nat) by reflexivity.
      rewrite final_turn by assumption.
      set (f := quat_final (snd (stateFromX p (so_x r))) (snglQuatN (pt_hist (P c b i)))).
      assert (LF : List.length f = 4%nat) by (unfold f, quat_final; destruct Rltb; [rewrite map_length|]; exact L4).
      exists (rotq f). split; [now apply rotq_rotates|]. rewrite <- RQ, <- rotq_prod by assumption. now apply rotq_rotates.
    - unfold eInt. rewrite VO, VO' by (cbn [per_point]; lia).
      change (get (pt_eInt (P_out c b' i')) 0 = get (pt_eInt (P_out c b i)) 0).
      rewrite (r_eInt _ _ _ _ _ _ _ _ _ _ _ _ _ _ Rs), (r_eInt _ _ _ _ _ _ _ _ _ _ _ _ _ _ Rs').
      rewrite EUp.
      rewrite (in_V c b b' i i' Q HO HO' Hi Hi' HT 0) by lia. rewrite (in_V c b b' i i' Q HO HO' Hi Hi' HT 1) by lia.
      rewrite QU.
      change (elastNEtoC (turn_prob q p) (fst (stateFromX (turn_prob q p) (so_x r)))) with (elastNEtoC p (fst (stateFromX p (so_x r)))).
      rewrite <- ST, <- ST'. rewrite !pt_work. rewrite SD.
      rewrite (dev_cell c b b' i i' HO Hi Hi'), (dev_cell' c b b' i i' HO' Hi Hi').
      destruct HT as (T1 & _ & T3 & _). rewrite T1.
      assert (DI : sym6 (get (pt_stress (P c b i))) = devStress (b_s b) (b_m b) i).
      { apply sym6_ext. intros k Hk. apply (cin c b i HO Hi AS). cbn [per_point]. lia. }
      assert (DI' : sym6 (get (pt_stress (P' c b' i'))) = devStress (b_s b') (b_m b') i').
      { apply sym6_ext. intros k Hk. apply (cin' c b' i' HO' Hi' AS). cbn [per_point]. lia. }
      rewrite DI, DI', T3. rewrite !cong_inner by exact OQ. reflexivity.
    - unfold pres. rewrite VO, VO' by (cbn [per_point]; lia). exact SP.
    - intros k Hk Hn.
      assert (NH : c_nH c = 1%nat) by exact (nH1 hs c HB).
      assert (LV : forall k, (k < 14 + c_nslip c)%nat -> val (b_s b) (b_m1 b) AH i k = get (pt_hist (P_out c b i)) k).
      { intros j Hj. apply VO. cbn [per_point]. unfold numHist, iHistLbH. rewrite NH. exact Hj. }
      assert (LV' : forall k, (k < 14 + c_nslip c)%nat -> val (b_s b') (b_m1 b') AH i' k = get (pt_hist (P_out c b' i')) k).
      { intros j Hj. apply VO'. cbn [per_point]. unfold numHist, iHistLbH. rewrite NH. exact Hj. }
      rewrite LV, LV' by exact Hk.
      destruct (Nat.lt_ge_cases k 4) as [K4|K4].
      { destruct k as [|[|[|[|k]]]]; [| | | |lia].
        - rewrite (r_shrateEff _ _ _ _ _ _ _ _ _ _ _ _ _ _ Rs : get (pt_hist (P_out c b i)) 0 = _), (r_shrateEff _ _ _ _ _ _ _ _ _ _ _ _ _ _ Rs' : get (pt_hist (P_out c b' i')) 0 = _). rewrite V1, V2. reflexivity.
        - rewrite (r_shrEff _ _ _ _ _ _ _ _ _ _ _ _ _ _ Rs : get (pt_hist (P_out c b i)) 1 = _), (r_shrEff _ _ _ _ _ _ _ _ _ _ _ _ _ _ Rs' : get (pt_hist (P_out c b' i')) 1 = _).
          rewrite V1, V2. f_equal. unfold iHistA_shrEff. rewrite (get_H hs c b i HB HO Hi), (get_H' hs c b' i' HB HO' Hi') by lia.
          destruct HT as (_ & _ & _ & _ & _ & _ & _ & TH). apply TH; lia.
        - rewrite (r_flow _ _ _ _ _ _ _ _ _ _ _ _ _ _ Rs : get (pt_hist (P_out c b i)) 2 = _), (r_flow _ _ _ _ _ _ _ _ _ _ _ _ _ _ Rs' : get (pt_hist (P_out c b' i')) 2 = _).
          rewrite V1, V2.
          rewrite (deff_turn q (C c b i AD) (C' c b' i' AD) Lq Nq (in_d c b b' i i' Q HO HO' Hi Hi' HT Htr Hq Hq')). reflexivity.
        - rewrite (r_nf _ _ _ _ _ _ _ _ _ _ _ _ _ _ Rs : get (pt_hist (P_out c b i)) 3 = _), (r_nf _ _ _ _ _ _ _ _ _ _ _ _ _ _ Rs' : get (pt_hist (P_out c b' i')) 3 = _). rewrite V3, V4. reflexivity. }
      destruct (Nat.lt_ge_cases k 9) as [K9|K9].
      { pose proof (r_E _ _ _ _ _ _ _ _ _ _ _ _ _ _ Rs) as X1. pose proof (r_E _ _ _ _ _ _ _ _ _ _ _ _ _ _ Rs') as X2.
        change (fst (stateFromX (turn_prob q p) (so_x r))) with (fst (stateFromX p (so_x r))) in X2. rewrite <- X1 in X2.
        apply (f_equal (fun l => get l (k - 4))) in X2. rewrite !get_sub in X2 by lia. unfold iHistLbE in X2. replace (4 + (k - 4))%nat with k in X2 by lia. exact X2. }
      destruct (Nat.eq_dec k 13) as [K13|K13].
      { subst k. pose proof (r_H _ _ _ _ _ _ _ _ _ _ _ _ _ _ Rs) as X1. pose proof (r_H _ _ _ _ _ _ _ _ _ _ _ _ _ _ Rs') as X2. rewrite <- X1 in X2.
        rewrite MH, NH in X2. apply (f_equal (fun l => get l 0)) in X2. rewrite !get_sub in X2 by lia. exact X2. }
      pose proof (r_G _ _ _ _ _ _ _ _ _ _ _ _ _ _ Rs) as X1. pose proof (r_G _ _ _ _ _ _ _ _ _ _ _ _ _ _ Rs') as X2.
      rewrite V1 in X1. rewrite V2 in X2. change (ev_gdot (evalEv (turn_prob q p) x)) with (ev_gdot (evalEv p x)) in X2. rewrite <- X1 in X2.
      rewrite MH, MS, NH in X2. apply (f_equal (fun l => get l (k - 14))) in X2. rewrite !get_sub in X2 by lia.
      unfold iHistLbGdot, iHistLbH in X2. replace (13 + 1 + (k - 14))%nat with k in X2 by lia. exact X2.
    - rewrite VO, VO' by (cbn [per_point]; lia). change (pt_tkelv (P_out c b' i') = pt_tkelv (P_out c b i)).
      rewrite (r_tkelv _ _ _ _ _ _ _ _ _ _ _ _ _ _ Rs), (r_tkelv _ _ _ _ _ _ _ _ _ _ _ _ _ _ Rs'). exact ETk.
    - rewrite VO, VO' by (cbn [per_point]; lia). change (get (pt_sdd (P_out c b' i')) 0 = get (pt_sdd (P_out c b i)) 0).
      rewrite (r_sdd _ _ _ _ _ _ _ _ _ _ _ _ _ _ Rs), (r_sdd _ _ _ _ _ _ _ _ _ _ _ _ _ _ Rs'). rewrite EUp. reflexivity.
    - rewrite VO, VO' by (cbn [per_point]; lia). change (get (pt_sdd (P_out c b' i')) 1 = get (pt_sdd (P_out c b i)) 1).
      rewrite (r_sdd _ _ _ _ _ _ _ _ _ _ _ _ _ _ Rs), (r_sdd _ _ _ _ _ _ _ _ _ _ _ _ _ _ Rs'). rewrite EG. reflexivity.
  Qed.
End Both.

(** the turned call succeeds when the other one does *)
Section Success.
  Variables (hs : Solver R) (c : MClass R) (pars : list R) (b : BCall) (s' : MM R) (lu' : LUSolver R) (n' : nat) (m' : Mem R).
  Let b' := call_of c s' (b_solver b) lu' false n' (b_dt b) m'.
  Hypothesis G : good hs c b.
  Hypothesis U : in_use c (b_s b) pars.
  Hypothesis U' : in_use c s' pars.
  Hypothesis HC : mm_complete s' = true.
  Hypothesis HO' : batch_ok c s' false n' m'.
  Hypothesis HI : forall i', (i' < n')%nat -> exists i Q, (i < b_n b)%nat /\ turned_in c Q b i b' i' /\
    trace (devRate (b_s b) (b_m b) i) = 0 /\ norm2 (quat (b_s b) (b_m b) i) <> 0 /\ norm2 (quat s' m' i') <> 0.
  Hypothesis Hn : (0 < n')%nat.

  Theorem turn_succeeds : good hs c b'.
  Proof.
    pose proof G as (HB & _ & HO & _).
    destruct (HI 0%nat Hn) as (i0 & Q0 & Hi0 & _).
    destruct (call_parts hs c b i0 pars G Hi0 U) as (sg & kin & hi & h_u & v & nf & gm & E1 & E2 & N1 & N2 & K & HL & S & So & Rs).
    cbv zeta in Rs. pose proof (r_gmod _ _ _ _ _ _ _ _ _ _ _ _ _ _ Rs) as Hg. clear h_u v nf S So Rs.
    assert (NH : c_nH c = 1%nat) by exact (nH1 hs c HB).
    assert (N2' : k_nH kin = 1%nat) by (rewrite N2; exact NH).
    apply (good_intro hs c s' pars HB U' HC (b_solver b) lu' n' (b_dt b) m' HO' sg kin hi E1 E2 N1 N2' gm Hg).
    intros i' Hi'. destruct (HI i' Hi') as (i & Q & Hi & HT & Htr & Hq & Hq').
    destruct (call_parts hs c b i pars G Hi U) as (sg0 & kin0 & hi0 & h_u & v & nf & gm0 & E10 & E20 & _ & _ & _ & _ & S & So & Rs).
    cbv zeta in Rs. rewrite E1 in E10. apply some_inj in E10. subst sg0.
    assert (EK : kin0 = kin) by (rewrite E2 in E20; apply (f_equal (option_map fst)) in E20; cbn [option_map fst] in E20; clear - E20; congruence).
    subst kin0. clear E20.
    set (mat := mat_of c pars sg kin) in *.
    assert (MS : sg_nslip (m_sg mat) = c_nslip c) by exact N1. assert (MH : k_nH (m_kin mat) = c_nH c) by exact N2.
    assert (HOb : batch_ok c (b_s b') (b_mtan b') (b_n b') (b_m b')) by exact HO'.
    assert (Hib : (i' < b_n b')%nat) by exact Hi'.
    assert (Hqb : norm2 (quat (b_s b') (b_m b') i') <> 0) by exact Hq'.
    pose proof (in_hard hs c b b' i i' Q HB HO HOb Hi Hib HT mat MS MH) as IH.
    pose proof (in_rates hs c b b' i i' Q HB HO HOb Hi Hib HT mat MS MH) as IR.
    pose proof (pair_RJ hs c b b' i i' Q HB HO HOb Hi Hib HT Htr Hq Hqb mat (b_dt b) MS MH h_u) as RJ.
    pose proof (pair_upd c b b' i i' Q HO HOb Hi Hib HT mat MS MH) as EUp.
    pose proof (pair_tk c b b' i i' Q HO HOb Hi Hib HT mat MS MH) as ETk.
    destruct (r_updH _ _ _ _ _ _ _ _ _ _ _ _ _ _ Rs) as [n X].
    exists h_u, n. split; [|split].
    - change (P_in c b i) with (P c b i) in X. rewrite <- IH, <- IR in X. rewrite <- X. rewrite MH, MS, NH. f_equal.
      + apply list_get_ext; [rewrite sub_length by (rewrite (len_H' hs c b' i' HB HOb Hib); unfold iHistLbH; lia); reflexivity|].
        intros k Hk. cbn [List.length] in Hk. assert (k = 0%nat) by lia. subst k. rewrite get_sub by lia.
        rewrite (get_H' hs c b' i' HB HOb Hib) by (unfold iHistLbH; lia). reflexivity.
      + apply list_get_ext; [rewrite sub_length by (rewrite (len_H' hs c b' i' HB HOb Hib); unfold iHistLbGdot, iHistLbH; lia); unfold slip_rates; now rewrite map_length, seq_length|].
        intros k Hk. unfold slip_rates in Hk. rewrite map_length, seq_length in Hk. rewrite get_sub by lia.
        change (slip_rates c s' m' i') with (tab (c_nslip c) (fun k => val s' m' AH i' (14 + k))). rewrite get_tab by lia.
        rewrite (get_H' hs c b' i' HB HOb Hib) by (unfold iHistLbGdot, iHistLbH; lia). reflexivity.
    - pose proof (r_valsOk _ _ _ _ _ _ _ _ _ _ _ _ _ _ Rs) as VK.
      change (P_in c b i) with (P c b i) in VK. change (in_cell c b i) with (C c b i) in VK. rewrite <- EUp, <- ETk in VK. exact VK.
    - pose proof (r_conv _ _ _ _ _ _ _ _ _ _ _ _ _ _ Rs) as VK.
      change (P_in c b i) with (P c b i) in VK. change (in_cell c b i) with (C c b i) in VK.
      change (snglProb mat (b_dt b) (C c b i AD) (C c b i AW) (C c b i AV) (P c b i) h_u) with (prob c b i mat (b_dt b) h_u) in VK.
      rewrite <- RJ in VK. exact VK.
  Qed.
End Success.
