(** Whole calls for equivalent orientations: what they return (C22). *)
From Coq Require Import List ZArith Bool Lia PeanoNat Reals Lra String.
From Verif Require Import P_Demo.
From Verif Require Import Num Arr NumR Util SlipGeom Eos Hard KinVoce KinKMBalD Elast Evptn MatModel Cases SpecTensor
  SpecElast SpecSlip P_Tensor P_Elast P_Eos P_Sngl P_Sngl2 P_Sngl3 P_Batch P_Batch2 P_Batch3 P_Batch4 P_Api P_Builtin SpecApi P_Hist SpecStress P_Stress
  SpecKin SpecKinApi SpecStep P_KinV P_Kin4 P_Call P_Slip P_SlipH P_Step P_Step2 P_Energy P_Rigid3 P_Demo3 P_Deriv P_Jac P_Jac2 SpecJac P_Jac3 SpecFrame P_Frame P_Frame2 P_Frame3
  SpecSym P_Sym P_Sym1 P_Sym2 P_Sym3 P_Sym4 P_SymH P_Sym5 P_Sym6 P_Sym7.
Import ListNotations.
Local Open Scope R_scope.

Section Both.
  Variables (hs : Solver R) (c : MClass R) (pars : list R) (b b' : BCall) (i i' : nat) (S : M3) (sg : nat -> nat) (ep : nat -> R).
  Variables (md sd : nat -> V3) (law : nat -> R -> R) (ref : R).
  Hypothesis G : good hs c b.
  Hypothesis U : in_use c (b_s b) pars.
  Hypothesis Hi : (i < b_n b)%nat.
  Hypothesis HO' : batch_ok c (b_s b') (b_mtan b') (b_n b') (b_m b').
  Hypothesis Hi' : (i' < b_n b')%nat.
  Hypothesis ED : b_dt b' = b_dt b.
  Hypothesis HT : equivalent_in c S sg ep b i b' i'.
  Hypothesis HSys : systems hs c pars md sd.
  Hypothesis HLaw : slip_law hs c pars (tKel (b_s b) (b_m1 b) i) (strength (b_s b) (b_m1 b) i) law ref.
  Hypothesis HM : matches (c_nslip c) S sg ep md sd.
  Hypothesis HS : lattice_rot hs c pars S sg.
  Hypothesis Hq : norm2 (quat (b_s b) (b_m b) i) <> 0.
  Hypothesis Hq' : norm2 (quat (b_s b') (b_m b') i') <> 0.

  Lemma ep_pm k : (k < c_nslip c)%nat -> ep k = 1 \/ ep k = -1.
  Proof. intros Hk. exact (proj1 (proj2 HM k Hk)). Qed.

  (** the two problems *)
  Lemma pair_probs p p' : is_prob c b i pars p -> is_prob c b' i' pars p' ->
    p' = sym_prob (qS b b' i i') p /\ sym_ok p (qS b b' i i') sg ep /\ sg_nslip (pb_sg p) = c_nslip c.
  Proof.
    intros (g & kin & hi & h_u & nh & E1 & E2 & UH & EP) (g' & kin' & hi' & h_u' & nh' & E1' & E2' & UH' & EP').
    pose proof G as (HB & _ & HO & _).
    rewrite E1 in E1'. apply some_inj in E1'. subst g'.
    assert (EK : kin' = kin) by (rewrite E2 in E2'; apply (f_equal (option_map fst)) in E2'; cbn [option_map fst] in E2'; clear - E2'; congruence).
    subst kin'. clear E2'.
    destruct (call_parts hs c b i pars G Hi U) as (g0 & kin0 & hi0 & h0 & v & nf & gm & E10 & E20 & N1 & N2 & K & HL & PS1 & PS2 & Rs).
    cbv zeta in Rs. rewrite E1 in E10. apply some_inj in E10. subst g0.
    assert (EK : kin0 = kin) by (rewrite E2 in E20; apply (f_equal (option_map fst)) in E20; cbn [option_map fst] in E20; clear - E20; congruence).
    subst kin0. clear E20.
    assert (Eh0 : h0 = h_u).
    { destruct (r_updH _ _ _ _ _ _ _ _ _ _ _ _ _ _ Rs) as [n1 X1]. cbn [mat_of m_kin m_sg] in X1. rewrite UH in X1. clear - X1. congruence. }
    subst h0.
    assert (NH : c_nH c = 1%nat) by exact (nH1 hs c HB).
    rewrite N1, N2, NH in UH, UH'. rewrite ED in UH'.
    change (P_in c b i) with (P c b i) in *. change (P_in c b' i') with (P c b' i') in *.
    assert (Eh : h_u' = h_u).
    { rewrite (pr_h hs c b b' i i' S sg ep HB HO HO' Hi Hi' HT) in UH'.
      rewrite (updH_sym hs c (sub pars (3 + c_sgNP c + c_elNP c) (c_kinNP c)) kin hi (c_nslip c) sg ep _ (b_dt b) _ _ HB E2 eq_refl (proj1 HM) ep_pm
        (pr_g hs c b b' i i' S sg ep HB HO HO' Hi Hi' HT (proj1 HM))) in UH'.
      rewrite UH in UH'. clear - UH'. congruence. }
    subst h_u'.
    assert (EPr : p' = sym_prob (qS b b' i i') p).
    { rewrite EP', EP, ED. exact (pr_prob hs c b b' i i' S sg ep HB HO HO' Hi Hi' HT Hq Hq' (mat_of c pars g kin) (b_dt b) h_u). }
    split; [exact EPr|].
    assert (NS : sg_nslip (pb_sg p) = c_nslip c) by (rewrite EP; exact N1).
    split; [|exact NS].
    destruct (prob_ok hs c b b' i i' HB HO Hi Hi' Hq (mat_of c pars g kin) (b_dt b) h_u) as (OK1 & OK2 & OK3).
    change (prob c b i (mat_of c pars g kin) (b_dt b) h_u) with (snglProb (mat_of c pars g kin) (b_dt b) (in_cell c b i AD) (in_cell c b i AW) (in_cell c b i AV) (P c b i) h_u) in OK1, OK2, OK3.
    rewrite <- EP in OK1, OK2, OK3.
    destruct (systems_data hs c pars md sd g HSys HL E1) as [SD _].
    assert (RQ : rotq (qS b b' i i') = S) by exact (qS_rot c b b' i i' S sg ep HT Hq Hq').
    assert (RS : is_rot S) by exact (S_is_rot c b b' i i' S sg ep HT Hq Hq').
    assert (Eel : pb_el p = el_of c pars) by (rewrite EP; reflexivity).
    assert (Esg : pb_sg p = g) by (rewrite EP; reflexivity).
    assert (Ekn : pb_kin p = kin) by (rewrite EP; reflexivity).
    assert (EH : h_u = [strength (b_s b) (b_m1 b) i]).
    { pose proof (r_H _ _ _ _ _ _ _ _ _ _ _ _ _ _ Rs) as X. cbn [mat_of m_kin] in X. rewrite N2, NH in X. change iHistLbH with 13%nat in X.
      rewrite (hist_out_sub hs c b i G Hi (mat_of c pars g kin)) in X; try assumption; [|lia]. rewrite <- X. reflexivity. }
    assert (ET : pb_tK p = tKel (b_s b) (b_m1 b) i).
    { pose proof (r_tkelv _ _ _ _ _ _ _ _ _ _ _ _ _ _ Rs) as X. transitivity (pt_tkelv (P_out c b i)); [rewrite EP; symmetry; exact X|].
      unfold P_out, pt_of, pt_at. cbn [pt_tkelv]. apply (vout hs c b i G Hi AT 0). cbn [per_point]. lia. }
    pose proof (r_valsOk _ _ _ _ _ _ _ _ _ _ _ _ _ _ Rs) as VO. cbn [mat_of m_kin] in VO.
    assert (ET2 : snglTkelv (mat_of c pars g kin) (in_cell c b i AV) (pt_eInt (P c b i)) = tKel (b_s b) (b_m1 b) i) by (rewrite <- ET, EP; reflexivity).
    change (P_in c b i) with (P c b i) in VO. rewrite ET2, EH in VO.
    assert (EV : pb_kin_vals p = fst (k_getVals kin (u_press (snglUpd (mat_of c pars g kin) (in_cell c b i AV) (pt_eInt (P c b i)) (pt_stress (P c b i)))) (tKel (b_s b) (b_m1 b) i) [strength (b_s b) (b_m1 b) i])).
    { rewrite EP. rewrite <- EH, <- ET2. reflexivity. }
    constructor.
    - reflexivity.
    - exact (qS_unit b b' i i' Hq Hq').
    - exact OK1.
    - rewrite EP. reflexivity.
    - rewrite EP. change (pb_w_veccp_sm _) with (in_cell c b i AW). exact (P_Batch4.cell_len c (b_mtan b) (b_s b) (b_n b) (b_m b) AW i HO Hi).
    - rewrite EP. change (pb_e_vecd_n _) with (sub (pt_hist (P c b i)) iHistLbE 5). apply sub_length. rewrite (len_H hs c b i HB HO Hi). unfold iHistLbE. lia.
    - rewrite NS. exact (proj1 HM).
    - rewrite NS. intros k Hk. destruct (ep_pm k Hk) as [E|E]; rewrite E; ring.
    - rewrite NS, RQ, Esg. exact (sch_HP _ _ _ md sd S sg ep SD HM RS).
    - rewrite NS, RQ, Esg. exact (sch_HW _ _ _ md sd S sg ep SD HM RS).
    - rewrite RQ, Eel. intros j k Hj Hk. destruct HS as [[HC HR]|(HC & HR & _)].
      + destruct (cubic_el hs c pars HB HC) as (X0 & X1 & X3 & X4 & _). exact (HK_of S _ j k (cubic_mono S HR) Hj Hk X1 X3 X4).
      + destruct (hex_el hs c pars HC) as (X1 & X3 & _). exact (hex_HK S _ j k HR Hj Hk X1 X3).
    - rewrite RQ, Eel. destruct HS as [[HC HR]|(HC & HR & _)].
      + intros EX. rewrite (proj1 (cubic_el hs c pars HB HC)) in EX. discriminate.
      + intros _ j Hj. exact (hex_rmat1 S j HR Hj).
    - rewrite NS, Ekn, EV. intros tau tau' _ _ Ht k Hk.
      destruct HS as [[HC HR]|(HC & HR & FA & HF)];
        [exact (law_sym hs c pars _ _ law ref _ kin hi (c_nslip c) sg ep HLaw HC HL E2 VO eq_refl (proj1 HM) ep_pm tau tau' Ht k Hk)|].
      assert (EN : c_nslip c = 24%nat) by (rewrite HC; reflexivity). pose proof ep_pm as EPM. destruct HM as [HR1 _]. rewrite EN in HR1, EPM, Ht, Hk.
      exact (law_symH hs c pars _ _ law ref _ kin hi sg ep HLaw HC HL E2 VO HR1 EPM FA HF tau tau' Ht k Hk).
  Qed.

  Hypothesis G' : good hs c b'.
  Hypothesis U' : in_use c (b_s b') pars.
  Hypothesis EM : b_mtan b' = b_mtan b.

  (** whatever the solvers are: when their answers correspond, so do the results *)
  Lemma call_ans p p' : is_prob c b i pars p -> is_prob c b' i' pars p' ->
    answers_correspond S (b_solver b 8%nat (computeRJ p) (nth 2 pars 0) 200%nat [0; 0; 0; 0; 0; 0; 0; 0])
      (b_solver b' 8%nat (computeRJ p') (nth 2 pars 0) 200%nat [0; 0; 0; 0; 0; 0; 0; 0]) ->
    equivalent_out c S sg ep b i b' i'.
  Proof.
    intros IP IP' (Lx & Ll & Ex & El & En & Enj & OT).
    destruct (pair_probs p p' IP IP') as (EPr & SY & NS).
    destruct IP as (g & kin & hi & h_u & nh & E1 & E2 & UH & EP).
    destruct IP' as (g' & kin' & hi' & h_u' & nh' & E1' & E2' & UH' & EP').
    pose proof G as (HB & _ & HO & _).
    rewrite E1 in E1'. apply some_inj in E1'. subst g'.
    assert (EK : kin' = kin) by (rewrite E2 in E2'; apply (f_equal (option_map fst)) in E2'; cbn [option_map fst] in E2'; clear - E2'; congruence).
    subst kin'. clear E2'.
    destruct (call_parts hs c b i pars G Hi U) as (g0 & kin0 & hi0 & h0 & v & nf & gm & E10 & E20 & N1 & N2 & K & HL & PS1 & PS2 & Rs).
    destruct (call_parts hs c b' i' pars G' Hi' U') as (g1 & kin1 & hi1 & h1 & v' & nf' & gm' & E11 & E21 & _ & _ & _ & _ & PS1' & PS2' & Rs').
    cbv zeta in Rs, Rs'. rewrite E1 in E10, E11. apply some_inj in E10. apply some_inj in E11. subst g0 g1.
    assert (EK : kin0 = kin) by (rewrite E2 in E20; apply (f_equal (option_map fst)) in E20; cbn [option_map fst] in E20; clear - E20; congruence).
    subst kin0. clear E20.
    assert (EK : kin1 = kin) by (rewrite E2 in E21; apply (f_equal (option_map fst)) in E21; cbn [option_map fst] in E21; clear - E21; congruence).
    subst kin1. clear E21.
    assert (Eh0 : h0 = h_u).
    { destruct (r_updH _ _ _ _ _ _ _ _ _ _ _ _ _ _ Rs) as [n1 X1]. cbn [mat_of m_kin m_sg] in X1. rewrite UH in X1. clear - X1. congruence. }
    assert (Eh1 : h1 = h_u').
    { destruct (r_updH _ _ _ _ _ _ _ _ _ _ _ _ _ _ Rs') as [n1 X1]. cbn [mat_of m_kin m_sg] in X1. rewrite UH' in X1. clear - X1. congruence. }
    subst h0 h1.
    set (mat := mat_of c pars g kin) in *.
    rewrite <- EP in Rs. rewrite <- EP' in Rs'. change (tab 8 (fun _ : nat => 0)) with [0; 0; 0; 0; 0; 0; 0; 0] in Rs, Rs'.
    change (P_in c b i) with (P c b i) in *. change (P_in c b' i') with (P c b' i') in *.
    change (in_cell c b i) with (C c b i) in *. change (in_cell c b' i') with (C c b' i') in *.
    assert (MS : sg_nslip (m_sg mat) = c_nslip c) by exact N1. assert (MH : k_nH (m_kin mat) = c_nH c) by exact N2.
    assert (NH : c_nH c = 1%nat) by exact (nH1 hs c HB).
    set (q := qS b b' i i') in *.
    assert (RQ : rotq q = S) by exact (qS_rot c b b' i i' S sg ep HT Hq Hq').
    assert (RS : is_rot S) by exact (S_is_rot c b b' i i' S sg ep HT Hq Hq').
    set (r := b_solver b 8%nat (computeRJ p) (nth 2 pars 0) 200%nat [0; 0; 0; 0; 0; 0; 0; 0]) in *.
    set (r' := b_solver b' 8%nat (computeRJ p') (nth 2 pars 0) 200%nat [0; 0; 0; 0; 0; 0; 0; 0]) in *.
    assert (XM : exists x n, List.length x = 8%nat /\ v = evalEv p x /\ v' = evalEv (sym_prob q p) (sym_map (rotq q) x) /\ nf = n /\ nf' = n).
    { pose proof (r_v _ _ _ _ _ _ _ _ _ _ _ _ _ _ Rs) as V1. pose proof (r_v _ _ _ _ _ _ _ _ _ _ _ _ _ _ Rs') as V2.
      pose proof (r_nfev _ _ _ _ _ _ _ _ _ _ _ _ _ _ Rs) as V3. pose proof (r_nfev _ _ _ _ _ _ _ _ _ _ _ _ _ _ Rs') as V4.
      unfold P, pt_of, pt_at in V1, V3, V2, V4. cbn [pt_mtan] in V1, V2, V3, V4. rewrite EM in V2, V4. rewrite RQ.
      rewrite EPr in V2. destruct (b_mtan b); [exists (so_x r), (so_nfev_rj r)|exists (so_xlast r), (so_nfev r)].
      - split; [exact Lx|split; [exact V1|split; [rewrite <- Ex; exact V2|split; [exact V3|rewrite <- Enj; exact V4]]]].
      - split; [exact Ll|split; [exact V1|split; [rewrite <- El; exact V2|split; [exact V3|rewrite <- En; exact V4]]]]. }
    destruct XM as (x & n & Lxx & V1 & V2 & V3 & V4).
    assert (EG : gm' = gm).
    { pose proof (r_gmod _ _ _ _ _ _ _ _ _ _ _ _ _ _ Rs) as X1. pose proof (r_gmod _ _ _ _ _ _ _ _ _ _ _ _ _ _ Rs') as X2.
      clear - X1 X2. congruence. }
    pose proof (r_stress _ _ _ _ _ _ _ _ _ _ _ _ _ _ Rs) as ST. pose proof (r_stress _ _ _ _ _ _ _ _ _ _ _ _ _ _ Rs') as ST'.
    pose proof (so_stress p q sg ep SY (so_x r) Lx OT) as SS.
    pose proof (so_C p q sg ep SY (so_x r) Lx OT) as SC.
    pose proof (so_e p q sg ep SY (so_x r) Lx) as SE.
    rewrite RQ, <- Ex, <- EPr in SS, SC, SE. rewrite <- ST, <- ST' in SS.
    pose proof (pr_upd c b b' i i' S sg ep HO HO' Hi Hi' HT mat) as EUp.
    pose proof (pr_tk c b b' i i' S sg ep HO HO' Hi Hi' HT mat) as ETk.
    assert (VO : forall a k, (k < per_point (c_nH c) (c_nslip c) (b_mtan b) a)%nat -> val (b_s b) (b_m1 b) a i k = get (cell_of c (b_s b) (b_mtan b) (b_m1 b) a i) k)
      by exact (vval hs c b i G Hi).
    assert (VO' : forall a k, (k < per_point (c_nH c) (c_nslip c) (b_mtan b') a)%nat -> val (b_s b') (b_m1 b') a i' k = get (cell_of c (b_s b') (b_mtan b') (b_m1 b') a i') k)
      by exact (vval hs c b' i' G' Hi').
    assert (LV : forall k, (k < 14 + c_nslip c)%nat -> val (b_s b) (b_m1 b) AH i k = get (pt_hist (P_out c b i)) k).
    { intros j Hj. apply VO. cbn [per_point]. unfold numHist, iHistLbH. rewrite NH. exact Hj. }
    assert (LV' : forall k, (k < 14 + c_nslip c)%nat -> val (b_s b') (b_m1 b') AH i' k = get (pt_hist (P_out c b' i')) k).
    { intros j Hj. apply VO'. cbn [per_point]. unfold numHist, iHistLbH. rewrite NH. exact Hj. }
    assert (DS : devStress (b_s b) (b_m1 b) i = sym6 (get (pt_stress (P_out c b i)))).
    { apply sym6_ext. intros k Hk. apply VO. cbn [per_point]. lia. }
    assert (DS' : devStress (b_s b') (b_m1 b') i' = sym6 (get (pt_stress (P_out c b' i')))).
    { apply sym6_ext. intros k Hk. apply VO'. cbn [per_point]. lia. }
    unfold equivalent_out. cbv zeta.
    refine (conj _ (conj _ (conj _ (conj _ (conj _ (conj _ (conj _ (conj _ (conj _ _))))))))).
    - rewrite DS, DS', SS. reflexivity.
    - pose proof (quat_out hs c b i G Hi) as QO. pose proof (quat_out hs c b' i' G' Hi') as QO'.
      unfold quat_of in QO, QO'. change (pt_of c (b_s b) (b_mtan b) (b_m1 b) i) with (P_out c b i) in QO. change (pt_of c (b_s b') (b_mtan b') (b_m1 b') i') with (P_out c b' i') in QO'.
      rewrite <- QO, <- QO'. rewrite (r_Q _ _ _ _ _ _ _ _ _ _ _ _ _ _ Rs), (r_Q _ _ _ _ _ _ _ _ _ _ _ _ _ _ Rs'), SC.
      rewrite (pr_Q hs c b b' i i' HB HO HO' Hi Hi' Hq Hq'). fold q.
      assert (LN : List.length (snglQuatN (pt_hist (P c b i))) = 4%nat) by reflexivity.
      destruct (stateFromX_length p (so_x r)) as [L5 L4].
      rewrite final_right by (try assumption; apply SY).
      set (f := quat_final (snd (stateFromX p (so_x r))) (snglQuatN (pt_hist (P c b i)))).
      assert (LF : List.length f = 4%nat) by (unfold f, quat_final; destruct Rltb; [rewrite map_length|]; exact L4).
      exists (rotq f). split; [now apply rotq_rotates|]. rewrite <- RQ, <- rotq_prod by (try assumption; apply SY). apply rotq_rotates. reflexivity.
    - unfold eInt. rewrite VO, VO' by (cbn [per_point]; lia).
      change (get (pt_eInt (P_out c b' i')) 0 = get (pt_eInt (P_out c b i)) 0).
      rewrite (r_eInt _ _ _ _ _ _ _ _ _ _ _ _ _ _ Rs), (r_eInt _ _ _ _ _ _ _ _ _ _ _ _ _ _ Rs').
      rewrite EUp.
      rewrite (pr_V c b b' i i' S sg ep HO HO' Hi Hi' HT 0) by lia. rewrite (pr_V c b b' i i' S sg ep HO HO' Hi Hi' HT 1) by lia.
      rewrite <- ST, <- ST'. rewrite !pt_work, SS, ED.
      rewrite (dev_cell c b b' i i' HO Hi Hi'). rewrite (dev_cell' c b b' i i' HO' Hi Hi' : sym6 (get (C c b' i' AD)) = _).
      destruct HT as (T1 & _ & T3 & _). rewrite T1.
      assert (DI : sym6 (get (pt_stress (P c b i))) = devStress (b_s b) (b_m b) i).
      { apply sym6_ext. intros k Hk. apply (cin c b i HO Hi AS). cbn [per_point]. lia. }
      assert (DI' : sym6 (get (pt_stress (P c b' i'))) = devStress (b_s b') (b_m b') i').
      { apply sym6_ext. intros k Hk. apply (cin' c b' i' HO' Hi' AS). cbn [per_point]. lia. }
      rewrite DI, DI', T3. reflexivity.
    - unfold pres. rewrite VO, VO' by (cbn [per_point]; lia). change (get (pt_stress (P_out c b' i')) 6 = get (pt_stress (P_out c b i)) 6). rewrite SS. reflexivity.
    - intros k Hk.
      assert (HK14 : (k < 14 + c_nslip c)%nat) by (clear - Hk; lia). rewrite LV, LV' by exact HK14.
      destruct Hk as [K4|K13].
      { destruct k as [|[|[|[|k]]]]; [| | | |exfalso; clear - K4; lia].
        - rewrite (r_shrateEff _ _ _ _ _ _ _ _ _ _ _ _ _ _ Rs : get (pt_hist (P_out c b i)) 0 = _), (r_shrateEff _ _ _ _ _ _ _ _ _ _ _ _ _ _ Rs' : get (pt_hist (P_out c b' i')) 0 = _). rewrite V1, V2. exact (so_shrate p q sg ep SY x Lxx).
        - rewrite (r_shrEff _ _ _ _ _ _ _ _ _ _ _ _ _ _ Rs : get (pt_hist (P_out c b i)) 1 = _), (r_shrEff _ _ _ _ _ _ _ _ _ _ _ _ _ _ Rs' : get (pt_hist (P_out c b' i')) 1 = _).
          rewrite V1, V2, (so_shrate p q sg ep SY x Lxx), ED. f_equal. unfold iHistA_shrEff. rewrite (get_H hs c b i HB HO Hi) by lia. rewrite (get_H hs c b' i' HB HO' Hi') by lia.
          destruct HT as (_ & _ & _ & _ & _ & _ & _ & TH & _). apply TH; lia.
        - rewrite (r_flow _ _ _ _ _ _ _ _ _ _ _ _ _ _ Rs : get (pt_hist (P_out c b i)) 2 = _), (r_flow _ _ _ _ _ _ _ _ _ _ _ _ _ _ Rs' : get (pt_hist (P_out c b' i')) 2 = _).
          rewrite V1, V2, (so_disRate p q sg ep SY x Lxx), (pr_d c b b' i i' S sg ep HO HO' Hi Hi' HT), EPr. reflexivity.
        - rewrite (r_nf _ _ _ _ _ _ _ _ _ _ _ _ _ _ Rs : get (pt_hist (P_out c b i)) 3 = _), (r_nf _ _ _ _ _ _ _ _ _ _ _ _ _ _ Rs' : get (pt_hist (P_out c b' i')) 3 = _). rewrite V3, V4. reflexivity. }
      subst k. pose proof (r_H _ _ _ _ _ _ _ _ _ _ _ _ _ _ Rs) as X1. pose proof (r_H _ _ _ _ _ _ _ _ _ _ _ _ _ _ Rs') as X2.
      assert (Ehu : h_u' = h_u).
      { rewrite N1, N2, NH in UH, UH'. rewrite ED in UH'. rewrite (pr_h hs c b b' i i' S sg ep HB HO HO' Hi Hi' HT) in UH'.
        rewrite (updH_sym hs c (sub pars (3 + c_sgNP c + c_elNP c) (c_kinNP c)) kin hi (c_nslip c) sg ep _ (b_dt b) _ _ HB E2 eq_refl (proj1 HM) ep_pm
          (pr_g hs c b b' i i' S sg ep HB HO HO' Hi Hi' HT (proj1 HM))) in UH'.
        rewrite UH in UH'. clear - UH'. congruence. }
      rewrite Ehu, <- X1 in X2.
      rewrite MH, NH in X2. apply (f_equal (fun l => get l 0)) in X2. rewrite !get_sub in X2 by lia. exact X2.
    - pose proof (r_E _ _ _ _ _ _ _ _ _ _ _ _ _ _ Rs) as X1. pose proof (r_E _ _ _ _ _ _ _ _ _ _ _ _ _ _ Rs') as X2.
      rewrite SE in X2. rewrite <- X1 in X2. change iHistLbE with 4%nat in X1, X2.
      rewrite (hist_out_sub hs c b i G Hi mat) in X2; try assumption; [|lia]. rewrite (hist_out_sub hs c b' i' G' Hi' mat) in X2; try assumption; [|lia].
      change (dev_strain (b_s b) (b_m1 b) i) with (ten5 (tab 5 (fun k => val (b_s b) (b_m1 b) AH i (4 + k)))).
      change (dev_strain (b_s b') (b_m1 b') i') with (ten5 (tab 5 (fun k => val (b_s b') (b_m1 b') AH i' (4 + k)))).
      rewrite X2. apply SpecTensor.ten5_vec5. apply cong_dev; [apply orth_tr; exact (proj1 RS)|apply ten5_dev].
    - intros k Hk. destruct (proj1 HM) as [R1 _]. pose proof (R1 k Hk) as Hks. rewrite LV by (clear - Hk; lia). rewrite LV' by (clear - Hks; lia).
      pose proof (r_G _ _ _ _ _ _ _ _ _ _ _ _ _ _ Rs) as X1. pose proof (r_G _ _ _ _ _ _ _ _ _ _ _ _ _ _ Rs') as X2.
      rewrite V1 in X1. rewrite V2 in X2. assert (Hk2 : (k < sg_nslip (pb_sg p))%nat) by (rewrite NS; exact Hk). pose proof (so_gd p q sg ep SY x k Lxx Hk2) as GD. rewrite <- X1, <- X2 in GD.
      rewrite MH, MS, NH in GD. rewrite !get_sub in GD by (try apply R1; exact Hk). exact GD.
    - rewrite VO, VO' by (cbn [per_point]; lia). change (pt_tkelv (P_out c b' i') = pt_tkelv (P_out c b i)).
      rewrite (r_tkelv _ _ _ _ _ _ _ _ _ _ _ _ _ _ Rs), (r_tkelv _ _ _ _ _ _ _ _ _ _ _ _ _ _ Rs'). exact ETk.
    - rewrite VO, VO' by (cbn [per_point]; lia). change (get (pt_sdd (P_out c b' i')) 0 = get (pt_sdd (P_out c b i)) 0).
      rewrite (r_sdd _ _ _ _ _ _ _ _ _ _ _ _ _ _ Rs), (r_sdd _ _ _ _ _ _ _ _ _ _ _ _ _ _ Rs'). rewrite EUp. reflexivity.
    - rewrite VO, VO' by (cbn [per_point]; lia). change (get (pt_sdd (P_out c b' i')) 1 = get (pt_sdd (P_out c b i)) 1).
      rewrite (r_sdd _ _ _ _ _ _ _ _ _ _ _ _ _ _ Rs), (r_sdd _ _ _ _ _ _ _ _ _ _ _ _ _ _ Rs'). rewrite EG. reflexivity.
  Qed.

  Hypothesis ES : b_solver b' = b_solver b.
  Lemma call_sym p p' : coordinate_free (b_solver b) -> is_prob c b i pars p -> is_prob c b' i' pars p' ->
    stays_in (b_solver b) 8 (computeRJ p') off_tiny (nth 2 pars 0) 200 [0; 0; 0; 0; 0; 0; 0; 0] ->
    off_tiny (so_x (b_solver b 8%nat (computeRJ p) (nth 2 pars 0) 200%nat [0; 0; 0; 0; 0; 0; 0; 0])) ->
    equivalent_out c S sg ep b i b' i'.
  Proof.
    intros CF IP IP' SI OT. apply (call_ans p p' IP IP'). rewrite ES.
    destruct (pair_probs p p' IP IP') as (EPr & SY & NS).
    assert (RQ : rotq (qS b b' i i') = S) by exact (qS_rot c b b' i i' S sg ep HT Hq Hq').
    assert (RS : is_rot S) by exact (S_is_rot c b b' i i' S sg ep HT Hq Hq').
    pose proof (solver_turn (b_solver b) S (computeRJ p) (computeRJ p') (nth 2 pars 0) 200%nat (proj1 RS) (so_sized p) (so_sized p')) as SV.
    assert (SR : forall x, List.length x = 8%nat -> off_tiny x -> related_at 8 (sym_map S) (computeRJ p) (computeRJ p') x).
    { intros x Lx Ox. rewrite <- RQ, EPr. exact (so_related p (qS b b' i i') sg ep SY x Lx Ox). }
    specialize (SV SR CF SI). cbv zeta in SV. destruct SV as (Lx & Ll & _ & Ex & El & En & Enj).
    exact (conj Lx (conj Ll (conj Ex (conj El (conj En (conj Enj OT)))))).
  Qed.
End Both.
