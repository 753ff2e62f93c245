(** Every exact solution of the equations of a step is one for the code (C74). *)
From Coq Require Import List ZArith Bool Lia PeanoNat Reals Lra String.
From Verif Require Import Num Arr NumR Util SlipGeom Eos Hard KinVoce KinKMBalD Elast Evptn MatModel Cases SpecTensor
  SpecElast SpecSlip P_Tensor P_Elast P_Eos P_Sngl P_Sngl2 P_Sngl3 P_Batch P_Batch2 P_Batch3 P_Batch4 P_Api P_Builtin SpecApi P_Hist SpecStress P_Stress
  SpecKin SpecKinApi SpecStep SpecEnergy P_KinV P_Hard P_Kin4 P_Call P_Slip P_SlipH P_Demo P_Demo2 P_Demo3 P_Step P_Step2 P_Step3 P_Energy P_Rest P_Rigid
  P_Rigid2 P_Rigid3 P_Rigid4 SpecElastic P_Elastic P_Load SpecReach.
Import ListNotations.
Local Open Scope R_scope.

Lemma r_scale_val : r_scale = 1 / 100 :> R.
Proof. unfold r_scale. cbn. lra. Qed.
Lemma vec5_list A : is_dev A -> ten5 (map (fun k => inner A (basis k)) (seq 0 5)) = A.
Proof. intros H. exact (SpecTensor.ten5_vec5 A H). Qed.
Lemma add_sub A B : add3 (sub3 A B) B = A.
Proof. un3. meq; ring. Qed.
Lemma inner_sub_add A B C : inner (sub3 A B) C + inner B C = inner A C.
Proof. un3. ring. Qed.
Lemma ten5_comp l k : List.length l = 5%nat -> (k < 5)%nat -> nth k l 0 = inner (ten5 l) (basis k).
Proof. intros L Hk. symmetry. now apply inner_ten5. Qed.

Lemma scale_pos h : 0 < Rmax h 1.
Proof. apply Rlt_le_trans with 1; [lra|apply Rmax_r]. Qed.
Lemma update_exact hs (f : Sdot1 R) ho dt h1 : finds1 hs ((h1 - ho) / Rmax ho 1) -> implicit_step (fun h => fst (f h)) dt ho h1 ->
  exists nh, updateH1 hs f ho dt = Some (h1, nh).
Proof.
  intros F I. pose proof (scale_pos ho) as P. unfold updateH1. set (rj := h1_computeRJ f ho dt).
  assert (X : ho + (h1 - ho) / Rmax ho 1 * Rmax ho 1 = h1) by (field; lra).
  destruct (F rj (nlit 1 (-10)) 100%nat) as [F1 F2].
  - cbn. lra.
  - unfold rj, h1_computeRJ. cbn [get nth]. change (h1_x_scale ho) with (Rmax ho 1). unfold h1_res_scale.
    rops. rewrite X. unfold implicit_step in I. destruct (f h1) as [a d] eqn:E. cbn [fst] in I. cbn [fst nth].
    replace ((h1 - ho) / Rmax ho 1 * Rmax ho 1) with (h1 - ho) by (field; lra). rewrite I at 1. ring.
  - change [nZ 0] with [0]. rewrite F1, F2. eexists. f_equal. f_equal. unfold h1_getHn. cbn [get nth]. change (h1_x_scale ho) with (Rmax ho 1). rops. exact X.
Qed.

Lemma kin_nth c pars k : List.length pars = mm_nParams c -> (k < c_kinNP c)%nat -> get (kin_pars c pars) k = kin_par c pars k.
Proof. intros HL Hk. change (@get R RNum) with (fun (l : list R) k => nth k l 0). cbv beta. now apply kin_pars_nth. Qed.
(** the hardening step of the code *)
Lemma hard_update hs c pars dt rates h0 h1 kin hi : hardened hs c pars dt rates h0 h1 -> List.length pars = mm_nParams c ->
  List.length rates = c_nslip c -> builtin hs c ->
  c_kinSet c (sub pars (3 + c_sgNP c + c_elNP c) (c_kinNP c)) = Some (kin, hi) ->
  exists nh, k_updateH kin [h0] dt rates = Some ([h1], nh).
Proof.
  intros H HL LR HB HK. rewrite kin_pars_sub in HK by assumption.
  assert (VO : forall nl, c_kinSet c = kinVoce hs nl 12 -> kin = voce_kinetics hs (voce_setParams nl (kin_pars c pars)) 12).
  { intros nl E. rewrite E in HK. unfold kinVoce in HK. apply (f_equal (option_map fst)) in HK. cbn [option_map fst] in HK. apply some_inj in HK. now symmetry. }
  assert (KM : forall ga p1 q1 per, c_kinSet c = kinKM hs ga p1 q1 per (km_groups c) (c_nslip c) ->
     kin = km_kinetics hs (km_setParams ga p1 q1 per (km_groups c) (kin_pars c pars)) (c_nslip c)).
  { intros ga p1 q1 per E. rewrite E in HK. unfold kinKM in HK. destruct (_ && _); [|discriminate]. apply (f_equal (option_map fst)) in HK. cbn [option_map fst] in HK.
    apply some_inj in HK. now symmetry. }
  clear HK. destruct H as [HS Hh Z|h1 EC HG I F|h1 EC HG HT HH I F|l1 EC HG I F].
  - assert (KME : forall k, km_hdn_min k = / 10 ^ 4 * kin_par c pars (12 + 3 * km_groups c) -> Nat.leb 14 (c_kinNP c) = true -> kept c pars h0 = Rmax h0 (km_hdn_min k)).
    { intros k E1 E2. unfold kept. rewrite E2. unfold km_old. now rewrite E1. }
    assert (KMR : forall ga p1 q1 per, c_kinSet c = kinKM hs ga p1 q1 per (km_groups c) (c_nslip c) -> c_kinNP c = (13 + 3 * km_groups c)%nat -> (0 < km_groups c)%nat ->
      exists nh, k_updateH kin [h0] dt rates = Some ([kept c pars h0], nh)).
    { intros ga p1 q1 per E NP GP. rewrite (KM _ _ _ _ E). erewrite KME.
      - cbn [km_kinetics k_updateH]. now apply km_rest.
      - unfold km_setParams. cbn [km_hdn_min]. rewrite kin_nth by (try assumption; lia).
        replace (2 + km_groups c + 6 + km_groups c + km_groups c + 4)%nat with (12 + 3 * km_groups c)%nat by lia. change (@nmul R RNum) with Rmult. f_equal. cbn. lra.
      - apply Nat.leb_le. lia. }
    assert (VR : forall nl, c_kinSet c = kinVoce hs nl 12 -> Nat.leb 14 (c_kinNP c) = false -> c_nslip c = 12%nat -> exists nh, k_updateH kin [h0] dt rates = Some ([kept c pars h0], nh)).
    { intros nl E1 E2 E3. rewrite (VO _ E1). unfold kept. rewrite E2. cbn [voce_kinetics k_updateH]. apply voce_rest; [assumption|congruence|]. rewrite <- E3. exact Z. }
    clear KME KM VO. destruct HB as [ E | [ E | [ E | [ E | [ E | [ E | E ]]]]]].
    + subst c. apply (VR false); reflexivity.
    + subst c. apply (VR true); reflexivity.
    + subst c. clear VR. eapply KMR; [reflexivity|reflexivity|cbn; lia].
    + subst c. clear VR. eapply KMR; [reflexivity|reflexivity|cbn; lia].
    + subst c. apply (VR false); reflexivity.
    + subst c. apply (VR true); reflexivity.
    + subst c. clear VR. eapply KMR; [reflexivity|reflexivity|cbn; lia].
  - assert (E : c_kinSet c = kinVoce hs false 12) by (destruct EC as [ -> | -> ]; reflexivity).
    assert (NP : c_kinNP c = 9%nat) by (destruct EC as [ -> | -> ]; reflexivity).
    assert (NS : c_nslip c = 12%nat) by (destruct EC as [ -> | -> ]; reflexivity).
    rewrite (VO _ E). cbn [voce_kinetics k_updateH]. unfold voce_updateH. rewrite voce_evol; [|congruence|unfold voce_setParams; cbn [v_gamss0]; rewrite kin_nth by (try assumption; lia); exact HG].
    destruct (update_exact hs (voce_getSdot1 (voce_setParams false (kin_pars c pars)) (shear_sum rates, voce_sat (v_taus0 (voce_setParams false (kin_pars c pars))) (v_gamss0 (voce_setParams false (kin_pars c pars))) (v_xms (voce_setParams false (kin_pars c pars))) (shear_sum rates))) h0 dt h1 F) as [nh EU].
    + unfold implicit_step in *. rewrite voce_sdot by reflexivity. cbn [fst]. unfold voce_setParams. cbn [v_h0 v_tausi v_taus0 v_gamss0 v_xms]. rewrite !kin_nth by (try assumption; lia). exact I.
    + cbn [get nth]. rewrite EU. now exists nh.
  - assert (E : c_kinSet c = kinVoce hs true 12) by (destruct EC as [ -> | -> ]; reflexivity).
    assert (NP : c_kinNP c = 10%nat) by (destruct EC as [ -> | -> ]; reflexivity).
    assert (NS : c_nslip c = 12%nat) by (destruct EC as [ -> | -> ]; reflexivity).
    rewrite (VO _ E). cbn [voce_kinetics k_updateH]. unfold voce_updateH. rewrite voce_evol; [|congruence|unfold voce_setParams; cbn [v_gamss0]; rewrite kin_nth by (try assumption; lia); exact HG].
    assert (ES : voce_sat (v_taus0 (voce_setParams true (kin_pars c pars))) (v_gamss0 (voce_setParams true (kin_pars c pars))) (v_xms (voce_setParams true (kin_pars c pars))) (shear_sum rates) = voce_sat_at true c pars (shear_sum rates)).
    { unfold voce_setParams. cbn [v_taus0 v_gamss0 v_xms]. rewrite !kin_nth by (try assumption; lia). reflexivity. }
    rewrite ES. destruct (update_exact hs (voce_getSdot1 (voce_setParams true (kin_pars c pars)) (shear_sum rates, voce_sat_at true c pars (shear_sum rates))) h0 dt h1 F) as [nh EU].
    + unfold implicit_step in *. rewrite voce_sdot_nl; [|reflexivity|reflexivity| |exact HH].
      2:{ unfold voce_setParams. cbn [v_tausi]. rewrite kin_nth by (try assumption; lia). exact HT. }
      cbn [fst]. unfold voce_setParams. cbn [v_h0 v_tausi v_xmprime]. rewrite !kin_nth by (try assumption; lia). exact I.
    + cbn [get nth]. rewrite EU. now exists nh.
  - assert (E : (exists ga p1 q1 per, c_kinSet c = kinKM hs ga p1 q1 per (km_groups c) (c_nslip c)) /\ c_kinNP c = (13 + 3 * km_groups c)%nat)
      by (destruct EC as [ -> | [ -> | -> ]]; (split; [do 4 eexists; reflexivity|reflexivity])).
    destruct E as [(ga & p1 & q1 & per & E) NP]. rewrite (KM _ _ _ _ E). set (n0 := km_groups c) in *. set (k := km_setParams ga p1 q1 per n0 (kin_pars c pars)).
    cbn [km_kinetics k_updateH]. unfold km_updateH. rewrite km_evol; [|assumption|].
    2:{ unfold k, km_setParams. cbn [km_gamma_o]. rewrite kin_nth by (try assumption; lia). replace (2 + n0 + 6 + n0 + n0 + 3)%nat with (11 + 3 * n0)%nat by lia. exact HG. }
    assert (EL : nlog (nmax (get [h0] 0) (km_hdn_min k)) = ln (km_old c pars h0)).
    { unfold km_old. change (@nlog R RNum) with ln. change (@nmax R RNum) with Rmax. cbn [get nth]. f_equal. f_equal.
      unfold k, km_setParams. cbn [km_hdn_min]. rewrite kin_nth by (try assumption; lia). fold n0. replace (2 + n0 + 6 + n0 + n0 + 4)%nat with (12 + 3 * n0)%nat by lia.
      change (@nmul R RNum) with Rmult. f_equal. cbn. lra. }
    rewrite EL. destruct (update_exact hs (km_getSdot1 k (shear_sum rates, km_k2_at (km_k2o k) (km_gamma_o k) (km_ninv k) (shear_sum rates))) (ln (km_old c pars h0)) dt l1 F) as [nh EU].
    + unfold implicit_step in *. rewrite km_sdot. cbn [fst]. unfold km_rate_at in I. fold n0 in I. unfold k, km_setParams. cbn [km_k1 km_k2o km_gamma_o km_ninv]. rewrite !kin_nth by (try assumption; lia).
      replace (2 + n0 + 6 + n0 + n0)%nat with (8 + 3 * n0)%nat by lia.
      replace (8 + 3 * n0 + 1)%nat with (1 + (8 + 3 * n0))%nat by lia. replace (8 + 3 * n0 + 2)%nat with (2 + (8 + 3 * n0))%nat by lia.
      replace (8 + 3 * n0 + 3)%nat with (3 + (8 + 3 * n0))%nat by lia. exact I.
    + rewrite EU. now exists nh.
Qed.
Lemma law_vals hs c pars T h law ref kin hi pr : slip_law hs c pars T h law ref -> List.length pars = mm_nParams c -> 0 < h ->
  c_kinSet c (sub pars (3 + c_sgNP c + c_elNP c) (c_kinNP c)) = Some (kin, hi) -> k_valsOk kin pr T [h] = true.
Proof.
  intros HLaw HL Hh HK. rewrite kin_pars_sub in HK by assumption.
  assert (KM : forall ga p1 q1 per n, c_kinSet c = kinKM hs ga p1 q1 per n (c_nslip c) -> c_kinNP c = (13 + 3 * n)%nat ->
     (forall v, (v < n)%nat -> km_params_ok ga p1 n (kin_pars c pars) h T v) -> (0 < n)%nat -> k_valsOk kin pr T [h] = true).
  { intros ga p1 q1 per n EK NP PO Hn. rewrite EK in HK. unfold kinKM in HK. set (k := km_setParams ga p1 q1 per n (kin_pars c pars)) in *.
    destruct (_ && _); [|discriminate]. apply (f_equal (option_map fst)) in HK. cbn [option_map fst] in HK. apply some_inj in HK. subst kin.
    cbn [km_kinetics k_valsOk]. unfold km_valsOk.
    change (km_withGAthermal k) with ga. change (km_nVPer k) with n. destruct ga.
    + specialize (PO 0%nat Hn). unfold km_params_ok in PO. apply Rltb_true. unfold k, km_setParams. cbn [km_tau_a]. apply PO.
    + apply forallb_forall. intros v Hv. apply in_seq in Hv. specialize (PO v (proj2 Hv)). unfold km_params_ok in PO.
      apply Rltb_true. destruct PO as (_ & _ & _ & _ & _ & _ & _ & _ & _ & _ & [_ PO] & _).
      refine (eq_ind _ (fun x => 0 < x) PO _ _). unfold km_getVals. cbn [fst].
      change (km_nVPer k) with n. change (get (?a ++ ?b) (2 + v)) with (get b v).
      unfold get at 1. rewrite app_nth1 by (rewrite tab_length; lia). change (nth v ?l nundef) with (get l v). rewrite get_tab by lia.
      unfold km_strength, k, km_setParams. cbn [km_go km_s]. rewrite !get_sub by lia. change (@get R RNum) with (fun (l : list R) k => nth k l 0). cbv beta.
      change (@nsqrt R RNum) with sqrt. cbn [nth]. rops. f_equal; [f_equal; lia|]. f_equal. f_equal. lia. }
  destruct HLaw as [HC H2|HC PO|HC PO|HC PO Q1].
  - assert (E : exists nl n, c_kinSet c = kinVoce hs nl n) by (destruct HC as [ -> | [ -> | [ -> | -> ]]]; do 2 eexists; reflexivity).
    destruct E as (nl & n & E). rewrite E in HK. unfold kinVoce in HK. apply (f_equal (option_map fst)) in HK. cbn [option_map fst] in HK. apply some_inj in HK. subst kin.
    cbn [voce_kinetics k_valsOk]. apply Rltb_true. exact Hh.
  - apply (KM false false false false 1%nat); try (rewrite HC; reflexivity); [|lia]. intros v Hv. assert (v = 0%nat) by lia. subst v. exact PO.
  - apply (KM true false false false 1%nat); try (rewrite HC; reflexivity); [|lia]. intros v Hv. assert (v = 0%nat) by lia. subst v. exact PO.
  - apply (KM true true true true 24%nat); try (rewrite HC; reflexivity); [|lia]. exact PO.
Qed.

Section Reach.
  Variables (p : Prob R) (hs : Solver R) (c : MClass R) (pars : list R) (D E1 : M3) (w xi : V3) (md sd : nat -> V3) (law : nat -> R -> R).
  Hypothesis HB : builtin hs c.
  Hypothesis HL : List.length pars = mm_nParams c.
  Hypothesis Hel : pb_el p = el_of c pars.
  Hypothesis Hv : 0 < pb_detV p.
  Hypothesis Ha : pb_a_V p = Rpow (pb_detV p) (1 / 3).
  Hypothesis Har : pb_a_V_ri p = 1 / pb_a_V p.
  Hypothesis Hdt : pb_dt_ri p = 1 / pb_dt p.
  Hypothesis Hdt0 : pb_dt p <> 0.
  Hypothesis Hn : sg_nslip (pb_sg p) = c_nslip c.
  Hypothesis SD : schmid_data (sg_P (pb_sg p)) (sg_Q (pb_sg p)) (c_nslip c) md sd.
  Hypothesis SL : legal_systems (c_nslip c) md sd.
  Hypothesis HG : forall tau, fst (fst (k_evalGdots (pb_kin p) tau (pb_kin_vals p))) = tab (c_nslip c) (fun k => law k (get tau k)).
  Hypothesis HQ : List.length (pb_Cn_quat p) = 4%nat /\ SpecTensor.norm2 (pb_Cn_quat p) = 1.
  Hypothesis L5 : List.length (pb_e_vecd_n p) = 5%nat.
  Hypothesis HD : is_dev D.
  Hypothesis Hd : pb_d_vecd_sm p = vec5 D.
  Hypothesis Hw : pb_w_veccp_sm p = ofV3 w.
  Hypothesis HE : is_dev E1.
  Let C0 := rotq (pb_Cn_quat p).
  Let a := Rpower (pb_detV p) (1 / 3).
  Let E0 := ten5 (pb_e_vecd_n p).
  Let x := step_x E0 E1 xi.
  Let g k := law k (resolved c pars (pb_detV p) (pb_eVref p) (add3 (scal3 (/ a) E1) (scal3 (ln (pb_detV p) / 3) I3)) (sd k) (md k)).
  Hypothesis G1 : strain_gap (pb_dt p) a E0 E1 (mul3 C0 (turn xi)) D (c_nslip c) sd md g = Z3.
  Hypothesis G2 : spin_gap (pb_dt p) a E0 E1 (mul3 C0 (turn xi)) w xi (c_nslip c) sd md g = Z3.

  Lemma reach_e : ev_e_f (evalEv p x) = map (fun k => inner E1 (basis k)) (seq 0 5).
  Proof.
    unfold evalEv. cbn [ev_e_f]. unfold x, step_x.
    assert (K : forall k, (k < 5)%nat -> nth k (pb_e_vecd_n p) 0 = inner E0 (basis k)) by (intros k Hk; now apply ten5_comp).
    assert (S : forall k, inner E1 (basis k) = inner (sub3 E1 E0) (basis k) + inner E0 (basis k)) by (intros k; symmetry; apply inner_sub_add).
    cbn [map seq]. rewrite !S, <- !K by lia. generalize (inner (sub3 E1 E0) (basis 0)), (inner (sub3 E1 E0) (basis 1)), (inner (sub3 E1 E0) (basis 2)), (inner (sub3 E1 E0) (basis 3)), (inner (sub3 E1 E0) (basis 4)).
    intros. unfold x_e, vecsVapb, vecsVxa, tab, sub. cbn [app map seq skipn firstn get nth]. rewrite e_scale_val. unfold get. cbn [nth]. rops. clear. meq; try field.
  Qed.
  Lemma reach_ten : ten5 (ev_e_f (evalEv p x)) = E1.
  Proof. rewrite reach_e. now apply vec5_list. Qed.
  Lemma reach_xi : toV3 (ev_xi (evalEv p x)) = xi.
  Proof.
    unfold evalEv. cbn [ev_xi]. unfold x, step_x. cbn [map seq app]. unfold x_r, vecsVxa, tab, sub. cbn [map seq skipn firstn get nth toV3]. rewrite r_scale_val. rops.
    unfold toV3, get. cbn [nth]. destruct xi. cbn. meq; field.
  Qed.
  Lemma reach_C : rotq (ev_C_quat (evalEv p x)) = mul3 C0 (turn xi).
  Proof. pose proof (ev_C_comp p HQ x) as CC. rewrite reach_xi, turn_emap in CC. exact CC. Qed.
  Lemma reach_gdot k : (k < c_nslip c)%nat -> get (ev_gdot (evalEv p x)) k = g k.
  Proof.
    intros Hk. rewrite ev_gdot_evalGdots, HG, get_tab by assumption. unfold g. f_equal.
    change (ev_taua (evalEv p x)) with (vecsVaTM 5 (sg_nslip (pb_sg p)) (elastNEtoT p (ev_e_f (evalEv p x))) (sg_P (pb_sg p))). rewrite Hn.
    destruct (kirchhoff_law p (ev_e_f (evalEv p x)) c pars hs HB HL Hel Hv Ha Har eq_refl) as [SS [y EX]]. rewrite EX.
    rewrite (resolve_law _ y _ _ _ md sd k SS SD SL Hk). clear EX SS. unfold resolved. rewrite reach_ten. reflexivity.
  Qed.
  Lemma reach_zero j : (j < 8)%nat -> get (residual p x) j = 0.
  Proof.
    intros Hj.
    assert (HaP : pb_a_V p = a) by (rewrite Ha, Rpow_pos by assumption; reflexivity).
    assert (P : 0 < a) by apply exp_pos. assert (Ha0 : pb_a_V p <> 0) by lra.
    pose proof (res_strain p D (c_nslip c) sd md HD Hd Hn SD HQ L5 Hdt Hdt0 Har x) as RS.
    pose proof (res_spin p D w (c_nslip c) sd md Hd Hw Hn SD HQ L5 Hdt Hdt0 Har Ha0 x) as RW.
    rewrite reach_ten, reach_xi, reach_C, HaP in RW. rewrite reach_ten, reach_C, HaP in RS. fold E0 in RS, RW.
    assert (SS : forall f, slip_sum (c_nslip c) (get (ev_gdot (evalEv p x))) f = slip_sum (c_nslip c) g f)
      by (intros f; apply slip_sum_ext; exact reach_gdot).
    destruct (Nat.lt_ge_cases j 5) as [H5|H5].
    - rewrite RS by assumption. unfold strain_gap in *. rewrite SS, G1, inner_Zl. apply Rmult_0_r.
    - unfold spin_gap in *. rewrite SS, G2 in RW. destruct RW as (W5 & W6 & W7). assert (Q : j = 5%nat \/ j = 6%nat \/ j = 7%nat) by lia.
      destruct Q as [-> | [-> | -> ]]; [rewrite W5|rewrite W6|rewrite W7]; apply Rmult_0_r.
  Qed.
End Reach.

Section Point.
  Variables (hs : Solver R) (c : MClass R) (s : MM R) (pars : list R).
  Hypothesis HB : builtin hs c.
  Hypothesis HL : List.length pars = mm_nParams c.
  Variables (mtan : bool) (n : nat) (dt : R) (m : Mem R) (i : nat).
  Hypothesis HO : batch_ok c s mtan n m.
  Hypothesis Hi : (i < n)%nat.
  Variables (md sd : nat -> V3).
  Hypothesis HSys : systems hs c pars md sd.
  Hypothesis Hdt : 0 < dt.
  Variables (h1 : R) (C0 E1 : M3) (law : nat -> R -> R) (ref : R) (xi : V3).
  Hypothesis HR : startable hs c pars s m i dt h1 C0 law ref.
  Hypothesis HX1 : exact_step c pars s m i dt md sd C0 law E1 xi.
  Variables (sg : SlipGeom R) (kin : Kinetics R) (hi : list (HistEntry R)).
  Hypothesis E1s : c_sgSet c (sub pars 3 (c_sgNP c)) = Some sg.
  Hypothesis E2 : c_kinSet c (sub pars (3 + c_sgNP c + c_elNP c) (c_kinNP c)) = Some (kin, hi).
  Let mat := mat_of c pars sg kin.
  Let h := [h1].
  Let p := snglProb mat dt (cell_of c s mtan m AD i) (cell_of c s mtan m AW i) (cell_of c s mtan m AV i) (pt_of c s mtan m i) h.
  Let pr := u_press (snglUpd mat (cell_of c s mtan m AV i) (pt_eInt (pt_of c s mtan m i)) (pt_stress (pt_of c s mtan m i))).
  Let tK := snglTkelv mat (cell_of c s mtan m AV i) (pt_eInt (pt_of c s mtan m i)).
  Let x0 : list R := step_x (dev_strain s m i) E1 xi.
  Lemma reach_point : (exists nh, k_updateH kin [strength s m i] dt (slip_rates c s m i) = Some (h, nh)) /\ k_valsOk kin pr tK h = true /\
    (forall j, (j < 8)%nat -> nth j (residual p x0) 0 = 0) /\
    ev_e_f (evalEv p x0) = map (fun k => inner E1 (basis k)) (seq 0 5) /\
    (forall k, (k < c_nslip c)%nat -> get (ev_gdot (evalEv p x0)) k = end_rate c pars s m i md sd law E1 k) /\
    rotq (ev_C_quat (evalEv p x0)) = mul3 C0 (turn xi) /\
    pb_Cn_quat p = unit4 (quat s m i).
  Proof.
    destruct (builtin_parts hs c HB) as (Z1 & Z2 & _).
    pose proof (Z1 _ _ E1s) as Hns. destruct (Z2 _ _ _ E2) as [HnH _].
    assert (NH : c_nH c = 1%nat) by (destruct HB as [ -> | [ -> | [ -> | [ -> | [ -> | [ -> | -> ]]]]]]; reflexivity). rewrite NH in HnH.
    destruct HR as (HG & Hv & HQ & Hh & HC & HLaw). destruct HX1 as (HD & HE & Q1 & Q2). cbv zeta in *.
    assert (VI : forall a k, (k < per_point (c_nH c) (c_nslip c) mtan a)%nat -> get (cell_of c s mtan m a i) k = val s m a i k)
      by (intros a k Hk; apply (cell_val c s mtan n m a i k); [apply HO|assumption|assumption]).
    assert (LR : List.length (slip_rates c s m i) = c_nslip c) by (unfold slip_rates; now rewrite map_length, seq_length).
    destruct (hard_update hs c pars dt (slip_rates c s m i) (strength s m i) h1 kin hi HG HL LR HB E2) as [nh F1].
    pose proof (fun pr => law_vals hs c pars _ h1 law ref kin hi pr HLaw HL Hh E2) as F2.
    split; [exists nh; exact F1|].
    assert (ET : tK = (eInt s m i - p_ec0 c pars) / p_cv pars).
    { unfold tK, snglTkelv, mat, mat_of, p_eos. cbn [m_eos]. unfold pt_of, pt_at. cbn [pt_eInt].
      change (cell (mm_strides s) (c_nH c) (c_nslip c) mtan m AE i) with (cell_of c s mtan m AE i).
      rewrite (VI AE 0%nat) by (cbn [per_point]; lia). fold (eInt s m i). unfold evalPT, eos_setParams. rarr. cbn. unfold Rdiv. ring. }
    rewrite ET. split; [apply F2|].
    assert (L4 : List.length (quat s m i) = 4%nat) by reflexivity.
    destruct (systems_data hs c pars md sd sg HSys HL E1s) as [SD SL].
    destruct (law_data hs c pars _ _ law ref pr kin hi HLaw HL E2 (F2 pr)) as (R0 & R1 & R2).
    assert (LH : List.length (pt_hist (pt_of c s mtan m i)) = (14 + c_nslip c)%nat).
    { pose proof (P_Batch4.cell_len c mtan s n m AH i HO Hi) as L. cbn [per_point] in L. unfold numHist, iHistLbH in L. rewrite NH in L. exact L. }
    assert (VH : forall k, (k < 14 + c_nslip c)%nat -> get (pt_hist (pt_of c s mtan m i)) k = val s m AH i k).
    { intros k Hk. unfold pt_of, pt_at. cbn [pt_hist]. apply (VI AH k). cbn. unfold numHist, iHistLbH. lia. }
    assert (EQ : pb_Cn_quat p = unit4 (quat s m i)).
    { rewrite <- normalize_unit4 by assumption. change (pb_Cn_quat p) with (vecsVNormalize 4 (sub (pt_hist (pt_of c s mtan m i)) 9 4)). f_equal.
      apply list_get_ext; [rewrite sub_length by (rewrite LH; lia); reflexivity|]. intros k Hk.
      rewrite sub_length in Hk by (rewrite LH; lia). rewrite get_sub by lia. rewrite VH by lia. do 4 (destruct k as [|k]; [reflexivity|]); lia. }
    assert (EDV : pb_detV p = vNew s m i).
    { change (pb_detV p) with (get (cell_of c s mtan m AV i) 1). apply VI. cbn [per_point]. lia. }
    assert (Eev : pb_eVref p = eInt s m i - delv s m i * pres s m i).
    { unfold p, snglProb, mkProb, snglUpd, updateSimple. cbn [pb_eVref u_eNew].
      unfold pt_of, pt_at. cbn [pt_eInt pt_stress].
      change (cell (mm_strides s) (c_nH c) (c_nslip c) mtan m) with (cell_of c s mtan m).
      rewrite !VI by (cbn [per_point]; lia). reflexivity. }
    assert (HQ1 : List.length (pb_Cn_quat p) = 4%nat /\ SpecTensor.norm2 (pb_Cn_quat p) = 1) by (rewrite EQ; now apply unit4_unit).
    assert (HV1 : 0 < pb_detV p) by now rewrite EDV.
    assert (HG1 : forall tau, fst (fst (k_evalGdots (pb_kin p) tau (pb_kin_vals p))) = tab (c_nslip c) (fun k => law k (get tau k))).
    { intros tau. change (pb_kin p) with kin. change (pb_kin_vals p) with (fst (k_getVals kin pr tK h)). rewrite ET. apply R2. }
    assert (L5 : List.length (pb_e_vecd_n p) = 5%nat).
    { change (pb_e_vecd_n p) with (sub (pt_hist (pt_of c s mtan m i)) 4 5). rewrite sub_length by (rewrite LH; lia). reflexivity. }
    assert (HE1 : ten5 (pb_e_vecd_n p) = dev_strain s m i).
    { change (pb_e_vecd_n p) with (sub (pt_hist (pt_of c s mtan m i)) 4 5). unfold dev_strain. f_equal.
      apply list_get_ext; [rewrite sub_length by (rewrite LH; lia); reflexivity|]. intros k Hk.
      rewrite sub_length in Hk by (rewrite LH; lia). rewrite get_sub by lia. rewrite VH by lia. do 5 (destruct k as [|k]; [reflexivity|]); lia. }
    assert (DD : is_dev (devRate s m i)) by (split; [reflexivity|exact HD]).
    assert (HD1 : pb_d_vecd_sm p = vec5 (devRate s m i)).
    { change (pb_d_vecd_sm p) with (svecToVecd (cell_of c s mtan m AD i)).
      assert (ED : sym6 (get (cell_of c s mtan m AD i)) = devRate s m i).
      { unfold devRate, sym6. rewrite !VI by (cbn [per_point]; lia). reflexivity. }
      rewrite svec_vec5 by (rewrite ED; exact HD). now rewrite ED. }
    assert (HW1 : pb_w_veccp_sm p = ofV3 (spin s m i)).
    { change (pb_w_veccp_sm p) with (cell_of c s mtan m AW i).
      pose proof (P_Batch4.cell_len c mtan s n m AW i HO Hi) as LW. cbn [per_point] in LW.
      unfold spin. rewrite <- !VI by (cbn [per_point]; lia).
      destruct (cell_of c s mtan m AW i) as [|? [|? [|? [|]]]]; try discriminate LW. reflexivity. }
    assert (HD0 : pb_dt p <> 0) by (change (pb_dt p) with dt; lra).
    assert (EC : C0 = rotq (pb_Cn_quat p)) by (rewrite EQ; apply rotates_rotq; [apply (unit4_unit _ L4 HQ)|exact HC]).
    assert (EX0 : x0 = step_x (ten5 (pb_e_vecd_n p)) E1 xi) by (unfold x0; rewrite HE1; reflexivity). rewrite EX0. clear EX0.
    rewrite EC, <- HE1 in Q1, Q2. rewrite <- EDV in Q1, Q2. unfold end_rate in Q1, Q2. cbv zeta in Q1, Q2. rewrite <- EDV, <- Eev in Q1, Q2.
    split; [|split; [|split; [|split]]].
    - intros j Hj. exact (reach_zero p hs c pars (devRate s m i) E1 (spin s m i) xi md sd law HB HL eq_refl HV1 eq_refl eq_refl eq_refl HD0 Hns SD SL HG1 HQ1 L5 DD HD1 HW1 HE Q1 Q2 j Hj).
    - exact (reach_e p c pars E1 xi HL Hns HQ1 L5).
    - intros k Hk. rewrite (reach_gdot p hs c pars E1 xi md sd law HB HL eq_refl HV1 eq_refl eq_refl Hns SD SL HG1 HQ1 L5 HE k Hk).
      unfold end_rate. rewrite EDV, Eev. reflexivity.
    - rewrite EC. eapply reach_C; eassumption.
    - exact EQ.
  Qed.
End Point.

Section Calls.
  Variables (hs : Solver R) (c : MClass R) (s : MM R) (pars : list R).
  Hypothesis HB : builtin hs c.
  Hypothesis U : in_use c s pars.
  Hypothesis HC : mm_complete s = true.
  Variables (bs : Solver R) (lu : LUSolver R) (n : nat) (dt : R) (m : Mem R).
  Hypothesis HO : batch_ok c s false n m.
  Variables (md sd : nat -> V3).
  Hypothesis HSys : systems hs c pars md sd.
  Hypothesis HPD : pos_def (p_hooke c pars).
  Hypothesis Hdt : 0 < dt.
  Hypothesis Htol : 0 <= nth 2 pars 0.
  Variables (h1 : nat -> R) (C0 E1 : nat -> M3) (law : nat -> nat -> R -> R) (ref : nat -> R) (xi : nat -> V3).
  Hypothesis HR : forall i, (i < n)%nat -> startable hs c pars s m i dt (h1 i) (C0 i) (law i) (ref i).
  Hypothesis HX1 : forall i, (i < n)%nat -> exact_step c pars s m i dt md sd (C0 i) (law i) (E1 i) (xi i).
  Hypothesis HF : forall i, (i < n)%nat -> finds bs (step_x (dev_strain s m i) (E1 i) (xi i)).

  Lemma reach_good : good hs c (call_of c s bs lu false n dt m).
  Proof.
    destruct (in_use_all hs c s pars HB U) as (_ & HL & _ & sg & kin & hi & E1s & E2 & _).
    destruct (gmod_pd hs c pars HB HL HPD) as [g Hg].
    destruct (builtin_parts hs c HB) as (Z1 & Z2 & _).
    pose proof (Z1 _ _ E1s) as Hns. destruct (Z2 _ _ _ E2) as [HnH _].
    assert (NH : c_nH c = 1%nat) by (destruct HB as [ -> | [ -> | [ -> | [ -> | [ -> | [ -> | -> ]]]]]]; reflexivity). rewrite NH in HnH.
    apply (good_intro hs c s pars HB U HC bs lu n dt m HO sg kin hi E1s E2 Hns HnH g Hg).
    intros i Hi. destruct (reach_point hs c s pars HB HL false n dt m i HO Hi md sd HSys Hdt (h1 i) (C0 i) (E1 i) (law i) (ref i) (xi i) (HR i Hi) (HX1 i Hi) sg kin hi E1s E2) as ((nh & F1) & F2 & F3 & _).
    exists [h1 i], nh. split; [exact F1|]. split; [exact F2|]. apply (HF i Hi); [exact Htol|exact F3].
  Qed.
End Calls.

Section Eff.
  Variables (hs : Solver R) (c : MClass R) (b : BCall) (i : nat) (pars : list R).
  Hypothesis G : good hs c b.
  Hypothesis Hi : (i < b_n b)%nat.
  Hypothesis U : in_use c (b_s b) pars.
  Let s := b_s b. Let m := b_m b. Let m1 := b_m1 b.
  Variables (md sd : nat -> V3).
  Hypothesis HSys : systems hs c pars md sd.
  Hypothesis Hdt : 0 < b_dt b.
  Hypothesis Htol : 0 <= nth 2 pars 0.
  Variables (h1 : R) (C0 E1 : M3) (law : nat -> R -> R) (ref : R) (xi : V3).
  Hypothesis HR : startable hs c pars s m i (b_dt b) h1 C0 law ref.
  Hypothesis HX1 : exact_step c pars s m i (b_dt b) md sd C0 law E1 xi.
  Let xs := step_x (dev_strain s m i) E1 xi.
  Hypothesis HX : finds (b_solver b) xs.

  Lemma reach_state : strength s m1 i = h1 /\ dev_strain s m1 i = E1 /\ rotq (quat s m1 i) = mul3 C0 (turn xi) /\
    (forall k, (k < c_nslip c)%nat -> val s m1 AH i (14 + k) = end_rate c pars s m i md sd law E1 k).
  Proof.
    destruct (call_parts hs c b i pars G Hi U) as (sg & kin & hi & h_u & v & nf & gm & E1s & E2 & N1 & N2 & K & HL & S & S' & Rs). cbv zeta in *.
    pose proof G as (HB & _ & HO & _).
    pose proof (builtin_nH hs c b pars G U) as NH.
    assert (EH : h_u = [strength s m1 i]).
    { pose proof (r_H _ _ _ _ _ _ _ _ _ _ _ _ _ _ Rs) as X. cbn [mat_of m_kin] in X. rewrite N2, NH in X. change iHistLbH with 13%nat in X.
      rewrite (hist_out_sub hs c b i G Hi (mat_of c pars sg kin)) in X; try assumption; [|lia]. rewrite <- X. reflexivity. }
    destruct (reach_point hs c s pars HB HL (b_mtan b) (b_n b) (b_dt b) m i HO Hi md sd HSys Hdt h1 C0 E1 law ref xi HR HX1 sg kin hi E1s E2)
      as ((nh & F1) & F2 & F3 & F4 & F5 & F6 & F7).
    destruct (call_hard hs c b i pars G Hi U) as (kin' & hi' & n' & E2' & E3').
    rewrite E2 in E2'. apply (f_equal (option_map fst)) in E2'. cbn [option_map fst] in E2'. apply some_inj in E2'. subst kin'.
    change (old_rates c b i) with (slip_rates c s m i) in E3'. change (val (b_s b) (b_m b) AH i 13) with (strength s m i) in E3'. rewrite F1 in E3'.
    assert (EK : strength s m1 i = h1).
    { apply (f_equal (option_map fst)) in E3'. cbn [option_map fst] in E3'. apply some_inj in E3'. change (val (b_s b) (b_m1 b) AH i 13) with (strength s m1 i) in E3'. congruence. }
    rewrite EK in EH. subst h_u.
    set (p := snglProb (mat_of c pars sg kin) (b_dt b) (in_cell c b i AD) (in_cell c b i AW) (in_cell c b i AV) (P_in c b i) [h1]) in *.
    set (r := b_solver b 8%nat (computeRJ p) (nth 2 pars 0) 200%nat (tab 8 (fun _ => 0))) in *.
    destruct (HX (computeRJ p) (nth 2 pars 0) 200%nat (tab 8 (fun _ => 0)) Htol F3) as (_ & X1 & X2). change (so_x r = xs) in X1. change (so_xlast r = xs) in X2.
    assert (EVV : v = evalEv p xs).
    { pose proof (r_v _ _ _ _ _ _ _ _ _ _ _ _ _ _ Rs) as X. rewrite X. rewrite X1, X2. destruct (pt_mtan (P_in c b i)); reflexivity. }
    assert (EG : forall k, (k < c_nslip c)%nat -> get (ev_gdot v) k = end_rate c pars s m i md sd law E1 k) by (intros k Hk; rewrite EVV; now apply F5).
    assert (Lq : List.length (snd (stateFromX p (so_x r))) = 4%nat) by reflexivity.
    split; [exact EK|]. split; [|split].
    - pose proof (r_E _ _ _ _ _ _ _ _ _ _ _ _ _ _ Rs) as RE. change iHistLbE with 4%nat in RE.
      change (fst (stateFromX p (so_x r))) with (ev_e_f (evalEv p (so_x r))) in RE. rewrite X1 in RE.
      rewrite (hist_out_sub hs c b i G Hi (mat_of c pars sg kin)) in RE; try assumption; [|lia].
      assert (F4' : ev_e_f (evalEv p xs) = map (fun k => inner E1 (basis k)) (seq 0 5)) by exact F4.
      assert (RE' : map (fun k => val s m1 AH i (4 + k)) [0; 1; 2; 3; 4]%nat = map (fun k => inner E1 (basis k)) (seq 0 5)) by (rewrite <- F4'; exact RE).
      unfold dev_strain. rewrite RE'. apply vec5_list. apply HX1.
    - pose proof (quat_out hs c b i G Hi) as QO. change (quat (b_s b) (b_m1 b) i) with (quat s m1 i) in QO.
      assert (EQ : rotq (sub (pt_hist (P_out c b i)) iHistLbQ 4) = rotq (ev_C_quat (evalEv p xs))).
      { rewrite (r_Q _ _ _ _ _ _ _ _ _ _ _ _ _ _ Rs). unfold rotq. rewrite quat_final_tensor by assumption. rewrite X1. reflexivity. }
      rewrite <- QO. unfold quat_of. change (pt_hist (pt_of c (b_s b) (b_mtan b) (b_m1 b) i)) with (pt_hist (P_out c b i)). etransitivity; [exact EQ|exact F6].
    - intros k Hk. pose proof (r_G _ _ _ _ _ _ _ _ _ _ _ _ _ _ Rs) as X. cbn [mat_of m_kin m_sg] in X. rewrite N2, NH, N1 in X. change (iHistLbGdot 1) with 14%nat in X.
      rewrite (hist_out_sub hs c b i G Hi (mat_of c pars sg kin)) in X; try assumption; [|lia]. rewrite <- (EG k Hk), <- X, get_tab by assumption. reflexivity.
  Qed.
End Eff.
