(** Strength updates of successful calls. *)
From Coq Require Import List ZArith Bool Lia Reals Lra String.
From Verif Require Import Num Arr NumR Util SlipGeom Eos Hard KinVoce KinKMBalD Elast Evptn MatModel Cases SpecTensor
  P_Tensor P_Eos P_Sngl P_Sngl2 P_Sngl3 P_Batch P_Batch2 P_Batch3 P_Api P_Builtin SpecApi P_Hist SpecKin P_KinV P_Hard P_Call SpecKinApi.
Import ListNotations.
Local Open Scope R_scope.

Section C.
  Variables (hs : Solver R) (c : MClass R) (b : BCall) (i : nat) (pars : list R).
  Hypothesis G : good hs c b.
  Hypothesis Hi : (i < b_n b)%nat.
  Hypothesis U : in_use c (b_s b) pars.
  Let s := b_s b. Let m := b_m b. Let m1 := b_m1 b.
  Let kp := sub pars (3 + c_sgNP c + c_elNP c) (c_kinNP c).
  Lemma kp_get k : (k < c_kinNP c)%nat -> get kp k = kin_par c pars k.
  Proof. intros H. unfold kp. rewrite get_sub by assumption. reflexivity. Qed.
  Lemma rates_eq : old_rates c b i = slip_rates c s m i.
  Proof. reflexivity. Qed.
  Lemma rates_len : List.length (slip_rates c s m i) = c_nslip c.
  Proof. unfold slip_rates. now rewrite map_length, seq_length. Qed.

  (** linear Voce *)
  Lemma call_voce : c = cls_FCC_A hs \/ c = cls_BCC_B hs -> 0 < kin_par c pars 7 -> accurate hs ->
    Rabs (Fi (voce_rate_at c pars (shear_of c s m i)) (b_dt b) (strength s m i) (strength s m1 i)) <= / 10 ^ 10 * Rmax (strength s m i) 1.
  Proof.
    intros EC HG HA. destruct (call_hard hs c b i pars G Hi U) as (kin & hi & n & E1 & E2).
    assert (E : c_kinSet c = kinVoce hs false 12) by (destruct EC as [ -> | -> ]; reflexivity).
    rewrite E in E1. fold kp in E1. apply (f_equal (option_map fst)) in E1. cbn [kinVoce option_map fst] in E1.
    assert (EK : kin = voce_kinetics hs (voce_setParams false kp) 12) by (clear - E1; congruence). clear E1 hi.
    rewrite EK in E2. cbn [voce_kinetics k_updateH] in E2. unfold voce_updateH in E2. rewrite rates_eq in E2.
    assert (NP : c_kinNP c = 9%nat) by (destruct EC as [ -> | -> ]; reflexivity).
    assert (NS : c_nslip c = 12%nat) by (destruct EC as [ -> | -> ]; reflexivity).
    rewrite (voce_evol (voce_setParams false kp) 12 (slip_rates c s m i)) in E2.
    2:{ rewrite rates_len. exact NS. }
    2:{ unfold voce_setParams. cbn [v_gamss0]. rewrite kp_get by lia. exact HG. }
    destruct (updateH1 _ _ _ _) as [[h nf]|] eqn:EU; [|discriminate]. 
    assert (EH : h = strength s m1 i).
    { apply (f_equal (option_map fst)) in E2. cbn [option_map fst] in E2. clear - E2. unfold strength, s, m1. congruence. }
    subst h. pose proof (updateH1_spec _ _ _ _ _ _ EU HA) as B. cbn [get nth] in B.
    refine (eq_ind _ (fun x => Rabs x <= _) B _ _). unfold Fi. rewrite voce_sdot by reflexivity. cbn [fst].
    unfold voce_setParams. cbn [v_h0 v_tausi v_taus0 v_gamss0 v_xms]. rewrite !kp_get by lia. reflexivity.
  Qed.

  (** nonlinear Voce *)
  Lemma call_voce_nl : c = cls_FCC_AH hs \/ c = cls_BCC_BH hs -> 0 < kin_par c pars 8 -> accurate hs ->
    let sat := voce_sat_at true c pars (shear_of c s m i) in kin_par c pars 4 < sat -> strength s m1 i < sat ->
    Rabs (Fi (voce_nl_rate_at c pars (shear_of c s m i)) (b_dt b) (strength s m i) (strength s m1 i)) <= / 10 ^ 10 * Rmax (strength s m i) 1.
  Proof.
    intros EC HG HA sat HT HS. destruct (call_hard hs c b i pars G Hi U) as (kin & hi & n & E1 & E2).
    assert (E : c_kinSet c = kinVoce hs true 12) by (destruct EC as [ -> | -> ]; reflexivity).
    rewrite E in E1. fold kp in E1. apply (f_equal (option_map fst)) in E1. cbn [kinVoce option_map fst] in E1.
    assert (EK : kin = voce_kinetics hs (voce_setParams true kp) 12) by (clear - E1; congruence). clear E1 hi.
    rewrite EK in E2. cbn [voce_kinetics k_updateH] in E2. unfold voce_updateH in E2. rewrite rates_eq in E2.
    assert (NP : c_kinNP c = 10%nat) by (destruct EC as [ -> | -> ]; reflexivity).
    assert (NS : c_nslip c = 12%nat) by (destruct EC as [ -> | -> ]; reflexivity).
    rewrite (voce_evol (voce_setParams true kp) 12 (slip_rates c s m i)) in E2.
    2:{ rewrite rates_len. exact NS. }
    2:{ unfold voce_setParams. cbn [v_gamss0]. rewrite kp_get by lia. exact HG. }
    destruct (updateH1 _ _ _ _) as [[h nf]|] eqn:EU; [|discriminate]. 
    assert (EH : h = strength s m1 i).
    { apply (f_equal (option_map fst)) in E2. cbn [option_map fst] in E2. clear - E2. unfold strength, s, m1. congruence. }
    subst h. pose proof (updateH1_spec _ _ _ _ _ _ EU HA) as B. cbn [get nth] in B.
    assert (ES : voce_sat (v_taus0 (voce_setParams true kp)) (v_gamss0 (voce_setParams true kp)) (v_xms (voce_setParams true kp)) (shear_sum (slip_rates c s m i)) = sat).
    { unfold voce_setParams. cbn [v_taus0 v_gamss0 v_xms]. rewrite !kp_get by lia. reflexivity. }
    rewrite ES in B.
    refine (eq_ind _ (fun x => Rabs x <= _) B _ _). unfold Fi. rewrite voce_sdot_nl; [|reflexivity|reflexivity| |exact HS].
    2:{ unfold voce_setParams. cbn [v_tausi]. rewrite kp_get by lia. exact HT. }
    cbn [fst]. unfold voce_setParams. cbn [v_h0 v_tausi v_xmprime]. rewrite !kp_get by lia. reflexivity.
  Qed.

  (** dislocation density *)
  Definition km_class : Prop := c = cls_FCC_B hs \/ c = cls_BCC_A hs \/ c = cls_HCP_A hs.
  Lemma km_class_kin : km_class -> exists ga p1 q1 per, c_kinSet c = kinKM hs ga p1 q1 per (km_groups c) (c_nslip c) /\
    c_kinNP c = km_nParams (km_groups c).
  Proof. intros [ -> | [ -> | -> ]]; do 4 eexists; split; reflexivity. Qed.
  Lemma call_km : km_class -> 0 < strength s m1 i /\
    (0 < kin_par c pars (11 + 3 * km_groups c) -> accurate hs ->
     let lo := ln (km_old c pars (strength s m i)) in
     Rabs (Fi (fun l => km_rate_at c pars (shear_of c s m i) (exp l)) (b_dt b) lo (ln (strength s m1 i))) <= / 10 ^ 10 * Rmax lo 1).
  Proof.
    intros KC. destruct (km_class_kin KC) as (ga & p1 & q1 & per & E & NP).
    destruct (call_hard hs c b i pars G Hi U) as (kin & hi & n & E1 & E2).
    rewrite E in E1. fold kp in E1. unfold kinKM in E1. set (n0 := km_groups c) in *.
    set (k := km_setParams ga p1 q1 per n0 kp) in *. destruct (_ && _); [|discriminate].
    apply (f_equal (option_map fst)) in E1. cbn [option_map fst] in E1.
    assert (EK : kin = km_kinetics hs k (c_nslip c)) by (clear - E1; congruence). clear E1 hi.
    rewrite EK in E2. cbn [km_kinetics k_updateH] in E2. unfold km_updateH in E2. rewrite rates_eq in E2.
    destruct (updateH1 _ _ _ _) as [[l nf]|] eqn:EU; [|discriminate].
    assert (EH : strength s m1 i = exp l).
    { apply (f_equal (option_map fst)) in E2. cbn [option_map fst] in E2. clear - E2. unfold strength, s, m1. 
      assert (X : [exp l] = [val (b_s b) (b_m1 b) AH i 13]) by (apply (f_equal (fun o => match o with Some x => x | None => [] end)) in E2; exact E2). congruence. }
    split; [rewrite EH; apply exp_pos|]. intros HG HA lo.
    assert (NP' : c_kinNP c = (13 + 3 * n0)%nat) by (rewrite NP; unfold km_nParams; lia).
    rewrite (km_evol k (c_nslip c) (slip_rates c s m i)) in EU; [|apply rates_len|].
    2:{ unfold k, km_setParams. cbn [km_gamma_o]. rewrite kp_get by lia. replace (2 + n0 + 6 + n0 + n0 + 3)%nat with (11 + 3 * n0)%nat by lia. exact HG. }
    assert (EL : nlog (nmax (get [val (b_s b) (b_m b) AH i 13] 0) (km_hdn_min k)) = lo).
    { unfold lo, km_old. change (@nlog R RNum) with ln. change (@nmax R RNum) with Rmax. cbn [get nth]. f_equal. f_equal.
      unfold k, km_setParams. cbn [km_hdn_min]. rewrite kp_get by lia. replace (2 + n0 + 6 + n0 + n0 + 4)%nat with (12 + 3 * n0)%nat by lia.
      change (@nmul R RNum) with Rmult. f_equal. cbn. lra. }
    rewrite EL in EU. pose proof (updateH1_spec _ _ _ _ _ _ EU HA) as B.
    rewrite EH, ln_exp. refine (eq_ind _ (fun x => Rabs x <= _) B _ _). unfold Fi. rewrite km_sdot. cbn [fst].
    unfold km_rate_at. fold n0. unfold k, km_setParams. cbn [km_k1 km_k2o km_gamma_o km_ninv]. rewrite !kp_get by lia.
    replace (2 + n0 + 6 + n0 + n0)%nat with (8 + 3 * n0)%nat by lia. 
    replace (8 + 3 * n0 + 1)%nat with (1 + (8 + 3 * n0))%nat by lia. replace (8 + 3 * n0 + 2)%nat with (2 + (8 + 3 * n0))%nat by lia.
    replace (8 + 3 * n0 + 3)%nat with (3 + (8 + 3 * n0))%nat by lia. reflexivity.
  Qed.
End C.
