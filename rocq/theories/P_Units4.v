(** Change of units: whole calls (C64). *)
From Coq Require Import List ZArith Bool Lia PeanoNat Reals Lra String FunctionalExtensionality.
From Verif Require Import P_Demo.
From Verif Require Import Num Arr NumR Util SlipGeom Eos Hard KinVoce KinKMBalD Elast Evptn MatModel Cases SpecTensor
  SpecElast SpecSlip P_Tensor P_Elast P_Eos P_Sngl P_Sngl2 P_Sngl3 P_Batch P_Batch2 P_Batch3 P_Batch4 P_Api P_Builtin SpecApi P_Hist SpecStress P_Stress
  SpecKin SpecKinApi SpecStep P_Call P_Step P_Step2 P_Energy P_Rigid3 P_Demo3 SpecFrame P_Frame P_Frame2 P_Frame3 SpecUnits P_Units P_Units2 P_Units3.
Import ListNotations.
Local Open Scope R_scope.

Lemma sc_1 l : sc 1 l = l.
Proof. unfold sc. rewrite <- (map_id l) at 2. apply map_ext. intros. ring. Qed.
Lemma Deff_sc a l : 0 <= a -> vecd_Deff (sc a l) = a * vecd_Deff l.
Proof. intros Ha. unfold vecd_Deff. rewrite norm_sc by assumption. rops. ring. Qed.
Lemma shear_fold n l : List.length l = n -> vecsssumabs n l = shear_sum l.
Proof.
  intros H. unfold vecsssumabs, shear_sum. rewrite sum_fold. f_equal.
  apply (nth_ext _ _ 0 0); [rewrite !map_length, seq_length; now symmetry|]. intros k Hk. rewrite map_length, seq_length in Hk.
  rewrite (nth_indep (map (fun i => nabs (get l i)) (seq 0 n)) 0 (nabs (get l 0))) by (rewrite map_length, seq_length; exact Hk).
  rewrite (map_nth (fun i => nabs (get l i))), seq_nth by exact Hk.
  rewrite (nth_indep (map Rabs l) 0 (Rabs 0)) by (rewrite map_length; lia). rewrite (map_nth Rabs). reflexivity.
Qed.

Section Pair.
  Variables (lam kap : R) (hs : Solver R) (c : MClass R) (pars pars' : list R) (b b' : BCall) (i i' : nat).
  Hypothesis Hl : 0 < lam.
  Hypothesis Hk : 0 < kap.
  Hypothesis HB : builtin hs c.
  Hypothesis HO : batch_ok c (b_s b) (b_mtan b) (b_n b) (b_m b).
  Hypothesis HO' : batch_ok c (b_s b') (b_mtan b') (b_n b') (b_m b').
  Hypothesis Hi : (i < b_n b)%nat.
  Hypothesis Hi' : (i' < b_n b')%nat.
  Hypothesis HT : new_in lam kap c b i b' i'.
  Hypothesis HX : off_limits lam kap c b i.
  Variables (sg : SlipGeom R) (kin kin' : Kinetics R) (dt : R).
  Let mat := mat_of c pars sg kin.
  Let mat' := mat_of c pars' sg kin'.
  Hypothesis MS : sg_nslip sg = c_nslip c.
  Hypothesis MH : k_nH kin = c_nH c.
  Hypothesis MH' : k_nH kin' = c_nH c.
  Hypothesis KO : kin_ok lam kap (hfac lam c) (strength_is_stress c) (c_nslip c) kin kin'.
  Hypothesis EL : el_units lam (el_of c pars) (el_of c pars').
  Hypothesis B1 : p_bulk c pars' = lam * p_bulk c pars.
  Hypothesis B2 : p_cv pars' = lam * p_cv pars.
  Hypothesis B3 : p_gamma c pars' = p_gamma c pars.
  Hypothesis B4 : p_ec0 c pars' = lam * p_ec0 c pars.
  Notation C := (P_Frame2.C c b i). Notation C' := (C' c b' i'). Notation P := (P_Frame2.P c b i). Notation P' := (P' c b' i').
  Let NH : c_nH c = 1%nat. Proof. exact (nH1 hs c HB). Qed.

  Lemma d_in : svecToVecd (C' AD) = sc (/ kap) (svecToVecd (C AD)).
  Proof.
    rewrite <- svec_sc. unfold svecToVecd.
    assert (E : forall k, (k < 6)%nat -> get (C' AD) k = get (sc (/ kap) (C AD)) k).
    { intros k Hk'. rewrite get_sc. unfold C', P_Frame2.C. rewrite (cin' c b' i' HO' Hi' AD), (cin c b i HO Hi AD) by (cbn [per_point]; lia). destruct HT as (T1 & _). now apply T1. }
    rewrite !E by lia. reflexivity.
  Qed.
  Lemma w_in : C' AW = sc (/ kap) (C AW).
  Proof.
    assert (L' : List.length (C' AW) = 3%nat) by (unfold P_Frame2.C'; rewrite (cell_len c (b_mtan b') (b_s b') (b_n b')) by assumption; reflexivity).
    assert (L : List.length (C AW) = 3%nat) by (unfold P_Frame2.C; rewrite (cell_len c (b_mtan b) (b_s b) (b_n b)) by assumption; reflexivity).
    apply list_get_ext; [now rewrite sc_len, L, L'|]. intros k Hk'. rewrite L' in Hk'. rewrite get_sc.
    unfold P_Frame2.C', P_Frame2.C. rewrite (cin' c b' i' HO' Hi' AW), (cin c b i HO Hi AW) by (cbn [per_point]; lia). destruct HT as (_ & T2 & _). now apply T2.
  Qed.
  Lemma V_in k : In k [0; 1; 3]%nat -> get (C' AV) k = get (C AV) k.
  Proof.
    intros Hk'. assert (k < 4)%nat by (cbn in Hk'; lia).
    unfold P_Frame2.C', P_Frame2.C. rewrite (cin' c b' i' HO' Hi' AV), (cin c b i HO Hi AV) by (cbn [per_point]; lia).
    destruct HT as (_ & _ & T3 & T4 & T5 & _). cbn in Hk'. destruct Hk' as [<-|[<-|[<-|[]]]]; assumption.
  Qed.
  Lemma E_in : get (pt_eInt P') 0 = lam * get (pt_eInt P) 0.
  Proof.
    change (get (C' AE) 0 = lam * get (C AE) 0). unfold P_Frame2.C', P_Frame2.C. rewrite (cin' c b' i' HO' Hi' AE), (cin c b i HO Hi AE) by (cbn [per_point]; lia).
    destruct HT as (_ & _ & _ & _ & _ & T6 & _). exact T6.
  Qed.
  Lemma S_in k : (k < 7)%nat -> get (pt_stress P') k = lam * get (pt_stress P) k.
  Proof.
    intros Hk'. change (get (C' AS) k = lam * get (C AS) k). unfold P_Frame2.C', P_Frame2.C. rewrite (cin' c b' i' HO' Hi' AS), (cin c b i HO Hi AS) by (cbn [per_point]; lia).
    destruct HT as (_ & _ & _ & _ & _ & _ & T7 & _). now apply T7.
  Qed.
  Lemma H_in k : (k < 14 + c_nslip c)%nat -> get (pt_hist P') k = hist_dim lam kap c k * get (pt_hist P) k.
  Proof.
    intros Hk'. rewrite (get_H hs c b i HB HO Hi), (get_H' hs c b' i' HB HO' Hi') by assumption. destruct HT as (_ & _ & _ & _ & _ & _ & _ & T8). now apply T8.
  Qed.
  Lemma H_sub a j n : (j + n <= 14 + c_nslip c)%nat -> (forall k, (k < n)%nat -> hist_dim lam kap c (j + k) = a) ->
    sub (pt_hist P') j n = sc a (sub (pt_hist P) j n).
  Proof.
    intros H1 H2. apply list_get_ext; [rewrite sc_len, !sub_length by (rewrite ?(len_H hs c b i HB HO Hi), ?(len_H' hs c b' i' HB HO' Hi'); exact H1); reflexivity|].
    intros k Hk'. rewrite sub_length in Hk' by (rewrite (len_H' hs c b' i' HB HO' Hi'); exact H1). rewrite get_sc, !get_sub by exact Hk'. rewrite H_in, H2 by lia. reflexivity.
  Qed.
  Lemma H_low j n : (j + n <= 13)%nat -> (3 <= j)%nat -> sub (pt_hist P') j n = sub (pt_hist P) j n.
  Proof.
    intros H1 H2. rewrite (H_sub 1); [apply sc_1|lia|]. intros k Hk'. unfold hist_dim.
    destruct (Nat.eqb_spec (j + k) 0); [lia|]. destruct (Nat.eqb_spec (j + k) 2); [lia|]. destruct (Nat.ltb_spec (j + k) 13); [reflexivity|lia].
  Qed.
  Lemma hd_13 : hist_dim lam kap c 13 = hfac lam c. Proof. reflexivity. Qed.
  Lemma hd_hi k : hist_dim lam kap c (14 + k) = / kap. Proof. reflexivity. Qed.

  Let h0 := strength (b_s b) (b_m b) i.
  Lemma hard_in : sub (pt_hist P) iHistLbH (k_nH kin) = [h0] /\ sub (pt_hist P') iHistLbH (k_nH kin') = [hfac lam c * h0].
  Proof.
    rewrite MH, MH', NH. unfold iHistLbH. rewrite (H_sub (hfac lam c)) by (lia || (intros k Hk'; assert (k = 0%nat) by lia; subst k; exact hd_13)).
    assert (E : sub (pt_hist P) 13 1 = [h0]).
    { apply list_get_ext; [rewrite sub_length by (rewrite (len_H hs c b i HB HO Hi); lia); reflexivity|]. intros k Hk'. rewrite sub_length in Hk' by (rewrite (len_H hs c b i HB HO Hi); lia).
      assert (k = 0%nat) by lia. subst k. rewrite get_sub, (get_H hs c b i HB HO Hi) by lia. reflexivity. }
    rewrite E. split; reflexivity.
  Qed.
  Definition rates_in := sub (pt_hist P) (iHistLbGdot (k_nH kin)) (c_nslip c).
  Lemma rates_u : sub (pt_hist P') (iHistLbGdot (k_nH kin')) (c_nslip c) = sc (/ kap) rates_in.
  Proof. unfold rates_in. rewrite MH, MH', NH. unfold iHistLbGdot, iHistLbH. apply H_sub; [lia|]. intros k _. apply hd_hi. Qed.
  Lemma rates_shear : vecsssumabs (c_nslip c) rates_in = shear_of c (b_s b) (b_m b) i.
  Proof.
    unfold rates_in. rewrite MH, NH. unfold iHistLbGdot, iHistLbH. unfold shear_of.
    rewrite shear_fold by (rewrite sub_length by (rewrite (len_H hs c b i HB HO Hi); lia); reflexivity). f_equal.
    apply list_get_ext; [rewrite sub_length by (rewrite (len_H hs c b i HB HO Hi); lia); unfold slip_rates; now rewrite map_length, seq_length|].
    intros k Hk'. rewrite sub_length in Hk' by (rewrite (len_H hs c b i HB HO Hi); lia). rewrite get_sub by exact Hk'. rewrite (get_H hs c b i HB HO Hi) by lia.
    change (slip_rates c (b_s b) (b_m b) i) with (tab (c_nslip c) (fun k => val (b_s b) (b_m b) AH i (14 + k))). rewrite get_tab by exact Hk'. reflexivity.
  Qed.
  Lemma hard_u : k_updateH kin' (sub (pt_hist P') iHistLbH (k_nH kin')) (kap * dt) (sub (pt_hist P') (iHistLbGdot (k_nH kin')) (c_nslip c)) =
    option_map (fun r => (sc (hfac lam c) (fst r), snd r)) (k_updateH kin (sub (pt_hist P) iHistLbH (k_nH kin)) dt (sub (pt_hist P) (iHistLbGdot (k_nH kin)) (c_nslip c))).
  Proof.
    rewrite (proj1 hard_in), (proj2 hard_in), rates_u. fold rates_in. destruct KO as (_ & _ & _ & K & _). destruct HX as (X1 & X2 & _). apply K.
    - exact X1.
    - rewrite rates_shear. exact X2.
  Qed.
  Lemma tk_u : snglTkelv mat' (C' AV) (pt_eInt P') = snglTkelv mat (C AV) (pt_eInt P).
  Proof.
    unfold snglTkelv, evalPT, mat, mat', mat_of, p_eos, eos_setParams. cbn [m_eos eos_iso eos_tK0 Eos.eos_dtde snd]. rewrite E_in, B2, B4. generalize (get (pt_eInt P) 0). intros e. cbn [get nth]. rops. unfold Rdiv. rewrite !Rinv_mult.
    transitivity (lam * / lam * (- p_ec0 c pars * (1 * / p_cv pars) + e * (1 * / p_cv pars))); [ring|].
    rewrite Rinv_r by lra. ring.
  Qed.
  Lemma upd_u : let u := snglUpd mat (C AV) (pt_eInt P) (pt_stress P) in let u' := snglUpd mat' (C' AV) (pt_eInt P') (pt_stress P') in
    u_press u' = lam * u_press u /\ u_eNew u' = lam * u_eNew u /\ u_bulkNew u' = lam * u_bulkNew u.
  Proof.
    unfold snglUpd, updateSimple, evalPTDiff, getBulkRef, mat, mat', mat_of, p_eos, eos_setParams.
    cbn [m_eos eos_iso eos_bulk eos_gamma eos_tK0 Eos.eos_dtde ptd_p ptd_bulk ptd_dpde u_press u_eNew u_bulkNew].
    rewrite (V_in 1), (V_in 3) by (cbn; tauto). rewrite E_in, (S_in 6) by lia. rewrite B1, B3. generalize (get (pt_eInt P) 0) (get (pt_stress P) 6) (get (P_Frame2.C c b i AV) 1) (get (P_Frame2.C c b i AV) 3). intros ei s6 v1 v3. cbn [get nth]. rops.
    split; [ring|]. split; [ring|]. rewrite <- max_scal by assumption. f_equal; ring.
  Qed.
  Definition prob_o x := snglProb mat dt (C AD) (C AW) (C AV) P [x].
  Definition prob_n x := snglProb mat' (kap * dt) (C' AD) (C' AW) (C' AV) P' [hfac lam c * x].
  Variable x : R.
  Hypothesis VO : k_valsOk kin (u_press (snglUpd mat (C AV) (pt_eInt P) (pt_stress P))) (snglTkelv mat (C AV) (pt_eInt P)) [x] = true.
  Let p := prob_o x. Let p' := prob_n x.
  Lemma vals_u : k_valsOk kin' (u_press (snglUpd mat' (C' AV) (pt_eInt P') (pt_stress P'))) (snglTkelv mat' (C' AV) (pt_eInt P')) [hfac lam c * x] = true.
  Proof. destruct KO as (_ & _ & K & _). rewrite tk_u. apply (K _ _ _ _ VO). Qed.
  Lemma quat_u : snglQuatN (pt_hist P') = snglQuatN (pt_hist P).
  Proof. unfold snglQuatN. rewrite H_low by (unfold iHistLbQ; lia). reflexivity. Qed.
  Lemma eps_u : pb_epsdot_scale_inv p' = kap * pb_epsdot_scale_inv p.
  Proof.
    assert (KI : 0 < / kap) by now apply Rinv_0_lt_compat.
    unfold p, p', prob_o, prob_n, snglProb, mkProb. cbn [pb_epsdot_scale_inv mat mat' mat_of m_kin]. rewrite tk_u, d_in, norm_sc by lra.
    destruct KO as (_ & _ & K & _). destruct (K _ _ _ (u_press (snglUpd mat' (C' AV) (pt_eInt P') (pt_stress P'))) VO) as (_ & _ & _ & E). rewrite E.
    set (r := k_getFixedRefRate kin _). set (n := vecNorm 5 _). rops.
    replace (epsdot_scl_nzeff * (/ kap * r)) with (/ kap * (epsdot_scl_nzeff * r)) by ring. rewrite ltb_scal by assumption.
    assert (EI : forall z, 1 / (/ kap * z) = kap * (1 / z)) by (intros z; unfold Rdiv; rewrite Rinv_mult, Rinv_inv; ring). rewrite !EI.
    destruct (Rltb n (epsdot_scl_nzeff * r)); [reflexivity|]. rewrite <- min_scal by assumption. f_equal. ring.
  Qed.
  Lemma dti_u : pb_dt_ri p' = / kap * pb_dt_ri p.
  Proof. unfold p, p', prob_o, prob_n, snglProb, mkProb. cbn [pb_dt_ri]. rops. unfold Rdiv. rewrite Rinv_mult. ring. Qed.
  Lemma rot_u : pb_rotincr_scale_inv p' = pb_rotincr_scale_inv p.
  Proof.
    change (pb_dt_ri p' * pb_epsdot_scale_inv p' = pb_dt_ri p * pb_epsdot_scale_inv p). rewrite eps_u, dti_u.
    transitivity (kap * / kap * (pb_dt_ri p * pb_epsdot_scale_inv p)); [ring|]. rewrite Rinv_r by lra. ring.
  Qed.
  Lemma kin_u : kin_units lam kap (pb_kin p) (pb_kin p') (pb_kin_vals p) (pb_kin_vals p').
  Proof.
    unfold p, p', prob_o, prob_n, snglProb, mkProb. cbn [pb_kin pb_kin_vals mat mat' mat_of m_kin]. rewrite tk_u. destruct KO as (_ & _ & K & _).
    apply (K _ _ _ _ VO).
  Qed.
  Lemma hdn_u : pb_hdn_scale p' = lam * pb_hdn_scale p.
  Proof.
    unfold p, p', prob_o, prob_n, snglProb, mkProb. cbn [pb_hdn_scale mat mat' mat_of m_kin]. rewrite tk_u. destruct KO as (_ & _ & K & _).
    apply (K _ _ _ _ VO).
  Qed.
  Lemma aV_u : pb_a_V p' = pb_a_V p /\ pb_a_V_ri p' = pb_a_V_ri p /\ pb_detV_ri p' = pb_detV_ri p.
  Proof.
    unfold p, p', prob_o, prob_n, snglProb, mkProb. cbn [pb_a_V pb_a_V_ri pb_detV_ri]. rewrite (V_in 1) by (cbn; tauto). repeat split.
  Qed.
  Lemma en_u : pb_e_vecd_n p' = pb_e_vecd_n p.
  Proof. unfold p, p', prob_o, prob_n, snglProb, mkProb. cbn [pb_e_vecd_n]. apply H_low; unfold iHistLbE; lia. Qed.
  Lemma q_u : pb_Cn_quat p' = pb_Cn_quat p. Proof. exact quat_u. Qed.
  Lemma pd_u : pb_d_vecd_sm p' = sc (/ kap) (pb_d_vecd_sm p). Proof. exact d_in. Qed.
  Lemma pw_u : pb_w_veccp_sm p' = sc (/ kap) (pb_w_veccp_sm p). Proof. exact w_in. Qed.
  Lemma pv_u : pb_eVref p' = lam * pb_eVref p. Proof. exact (proj1 (proj2 upd_u)). Qed.
  Lemma pp_u : pb_p_EOS p' = lam * pb_p_EOS p. Proof. exact (proj1 upd_u). Qed.

  Lemma pair_RJ_u : computeRJ p' = computeRJ p.
  Proof.
    destruct aV_u as (A1 & A2 & A3).
    exact (u_RJ lam kap p p' Hl Hk eq_refl EL kin_u eq_refl dti_u pv_u pp_u A1 A2 eps_u rot_u en_u q_u pd_u pw_u).
  Qed.
  Lemma pair_state y : stateFromX p' y = stateFromX p y. Proof. exact (u_state p p' en_u q_u y). Qed.
  Lemma pair_C e : elastNEtoC p' e = sc lam (elastNEtoC p e).
  Proof. destruct aV_u as (A1 & A2 & A3). exact (u_C lam p p' EL pv_u pp_u A1 A2 A3 e). Qed.
  Lemma pair_gdot y : ev_gdot (evalEv p' y) = sc (/ kap) (ev_gdot (evalEv p y)).
  Proof. destruct aV_u as (A1 & A2 & A3). exact (v_gdot lam kap p p' eq_refl EL kin_u pv_u pp_u A1 A2 en_u y). Qed.
  Lemma pair_shr y : ev_shrateEff (evalEv p' y) = / kap * ev_shrateEff (evalEv p y).
  Proof. destruct aV_u as (A1 & A2 & A3). exact (v_shr lam kap p p' Hk eq_refl EL kin_u pv_u pp_u A1 A2 en_u y). Qed.
  Lemma pair_dis y : ev_disRate (evalEv p' y) = lam / kap * ev_disRate (evalEv p y).
  Proof. destruct aV_u as (A1 & A2 & A3). exact (v_dis lam kap p p' eq_refl EL kin_u pv_u pp_u A1 A2 A3 en_u y). Qed.
  Lemma pair_rhs y : mtan_rhs_T (evalEv p' y) = mtan_rhs_T (evalEv p y).
  Proof. unfold mtan_rhs_T. rewrite (v_qr p p' q_u y). reflexivity. Qed.
  Lemma pair_jac0 y r q : (r < 8)%nat -> (q < 8)%nat ->
    get2 8 (jacobian0 p' (evalEv p' y)) r q = (if Nat.ltb r 5 then / kap else 1) * get2 8 (jacobian0 p (evalEv p y)) r q.
  Proof. destruct aV_u as (A1 & A2 & A3). exact (u_jac0 lam kap p p' Hl Hk eq_refl EL kin_u eq_refl dti_u pv_u pp_u A1 A2 en_u q_u pd_u pw_u y r q). Qed.
  Lemma pair_SD y sol sol' lu lu' mv mv' bulk : lu 8%nat (jacobian0 p (evalEv p y)) (mtan_rhs_T (evalEv p y)) 5%nat = Some sol ->
    lu' 8%nat (jacobian0 p' (evalEv p' y)) (mtan_rhs_T (evalEv p' y)) 5%nat = Some sol' ->
    (forall j r, (j < 5)%nat -> (r < 8)%nat -> get2 8 sol' j r = kap * get2 8 sol j r) ->
    mtan_vecds lu p y = Some mv -> mtan_vecds lu' p' y = Some mv' ->
    mtanSD_of p' (lam * bulk) mv' = sc lam (mtanSD_of p bulk mv).
  Proof.
    destruct aV_u as (A1 & A2 & A3). intros L1 L2 LS M1 M2.
    exact (u_SD lam kap p p' Hk EL dti_u pv_u pp_u A1 A2 A3 en_u q_u pd_u pw_u y sol sol' lu lu' mv mv' L1 L2 LS M1 M2 bulk).
  Qed.
End Pair.
