(** Parts of the built-in models as the step equations need them; the equations solved by a successful call (C45). *)
From Coq Require Import List ZArith Bool Lia PeanoNat Reals Lra String.
From Verif Require Import Num Arr NumR Util SlipGeom Eos Hard KinVoce KinKMBalD Elast Evptn MatModel Cases SpecTensor
  SpecElast SpecSlip P_Tensor P_Elast P_Eos P_Sngl P_Sngl2 P_Sngl3 P_Batch P_Batch2 P_Batch3 P_Batch4 P_Api P_Builtin SpecApi P_Hist SpecStress P_Stress
  SpecKin SpecKinApi SpecStep P_KinV P_Kin4 P_Call P_Slip P_SlipH P_Demo P_Step.
Import ListNotations.
Local Open Scope R_scope.

Lemma systems_data hs c pars md sd sg : systems hs c pars md sd -> List.length pars = mm_nParams c -> c_sgSet c (sub pars 3 (c_sgNP c)) = Some sg ->
  schmid_data (sg_P sg) (sg_Q sg) (c_nslip c) md sd /\ legal_systems (c_nslip c) md sd.
Proof.
  intros [HC|HC|HC H3] HL HS.
  - destruct geom_fcc as (g & Hg & _ & H1 & H2).
    assert (E : c_sgSet c (sub pars 3 (c_sgNP c)) = slipGeomFCC) by (destruct HC as [ -> | [ -> | -> ]]; reflexivity).
    assert (N : c_nslip c = 12%nat) by (destruct HC as [ -> | [ -> | -> ]]; reflexivity).
    rewrite E, Hg in HS. apply some_inj in HS. subst g. rewrite N. split; assumption.
  - destruct (geom_bcc 12) as (g & Hg & _ & H1 & H2); [left; reflexivity|].
    assert (E : c_sgSet c (sub pars 3 (c_sgNP c)) = slipGeomBCC 12) by (destruct HC as [ -> | [ -> | -> ]]; reflexivity).
    assert (N : c_nslip c = 12%nat) by (destruct HC as [ -> | [ -> | -> ]]; reflexivity).
    rewrite E, Hg in HS. apply some_inj in HS. subst g. rewrite N. split; assumption.
  - destruct (geom_hcp (nth 3 pars 0) H3) as (g & Hg & _ & H1 & H2).
    assert (E : c_sgSet c (sub pars 3 (c_sgNP c)) = slipGeomHCP (nth 3 pars 0)).
    { rewrite HC. cbn [cls_HCP_A c_sgSet c_sgNP]. rewrite get_sub by lia. reflexivity. }
    assert (N : c_nslip c = 24%nat) by (rewrite HC; reflexivity).
    rewrite E, Hg in HS. apply some_inj in HS. subst g. rewrite N. split; assumption.
Qed.

Lemma kin_pars_sub c pars : List.length pars = mm_nParams c -> sub pars (3 + c_sgNP c + c_elNP c) (c_kinNP c) = kin_pars c pars.
Proof. intros HL. rewrite sub_map by (rewrite HL; unfold mm_nParams; lia). reflexivity. Qed.
Lemma kin_pars_nth c pars k : (k < c_kinNP c)%nat -> nth k (kin_pars c pars) 0 = kin_par c pars k.
Proof. intros H. change (nth k (kin_pars c pars) 0) with (get (tab (c_kinNP c) (kin_par c pars)) k). now apply get_tab. Qed.

Lemma law_data hs c pars T h law ref pr kin hi : slip_law hs c pars T h law ref -> List.length pars = mm_nParams c ->
  c_kinSet c (sub pars (3 + c_sgNP c + c_elNP c) (c_kinNP c)) = Some (kin, hi) -> k_valsOk kin pr T [h] = true ->
  0 < ref /\ k_getFixedRefRate kin (fst (k_getVals kin pr T [h])) = ref /\
  (forall tau, fst (fst (k_evalGdots kin tau (fst (k_getVals kin pr T [h])))) = tab (c_nslip c) (fun k => law k (get tau k))).
Proof.
  intros HLaw HL HK. rewrite kin_pars_sub in HK by assumption.
  assert (KM : forall ga p1 q1 per n, c_kinSet c = kinKM hs ga p1 q1 per n (c_nslip c) -> (0 < n)%nat -> (per = true -> c_nslip c = n) ->
     (forall v, (v < n)%nat -> km_params_ok ga p1 n (kin_pars c pars) h T v) -> (q1 = true -> nth (4 + n) (kin_pars c pars) 0 = 1) ->
     0 < km_ref n (kin_pars c pars) h /\ k_getFixedRefRate kin (fst (k_getVals kin pr T [h])) = km_ref n (kin_pars c pars) h /\
     (forall tau, fst (fst (k_evalGdots kin tau (fst (k_getVals kin pr T [h])))) =
        tab (c_nslip c) (fun k => km_law (km_spec ga p1 n (kin_pars c pars) h T (if per then k else 0%nat)) (get tau k)))).
  { intros ga p1 q1 per n EK Hn Hper PO Q1. rewrite EK in HK. unfold kinKM in HK. set (k := km_setParams ga p1 q1 per n (kin_pars c pars)) in *.
    destruct (_ && _); [|discriminate]. apply (f_equal (option_map fst)) in HK. cbn [option_map fst] in HK. apply some_inj in HK. subst kin.
    cbn [km_kinetics k_getFixedRefRate k_getVals k_evalGdots].
    pose proof (PO 0%nat Hn) as (R0 & R1 & R2 & R3 & R4 & R5 & R6 & R7 & R8 & R9 & _).
    split; [|split].
    - unfold km_ref. pose proof (sqrt_lt_R0 _ R0). apply Rplus_lt_0_compat; [apply Rdiv_lt_0_compat|apply Rmult_lt_0_compat]; assumption.
    - unfold km_getFixedRefRate, km_getVals, km_ref, k, km_setParams. cbn [fst app get nth km_gam_wo km_gam_ro]. rops. unfold get. cbn [nth].
      rewrite Rmult_assoc, sqrt_sqrt by lra. repeat (f_equal; try lia).
    - intros tau. unfold km_evalGdots. cbn [fst]. apply tab_ext. intros iS HiS. change (km_perSS k) with per.
      assert (HV : ((if per then iS else 0) < n)%nat) by (destruct per; [rewrite <- (Hper eq_refl); exact HiS|exact Hn]).
      exact (km_eval_law ga p1 q1 per n (kin_pars c pars) pr T h _ HV (PO _ HV) Q1 (get tau iS)). }
  intros HV. destruct HLaw as [HC HG|HC PO|HC PO|HC PO Q1].
  - assert (EK : exists nl, c_kinSet c = kinVoce hs nl 12 /\ (3 <= c_kinNP c)%nat /\ c_nslip c = 12%nat).
    { destruct HC as [ -> | [ -> | [ -> | -> ]]]; [exists false|exists true|exists false|exists true]; (split; [reflexivity|split; [|reflexivity]]); cbn; lia. }
    destruct EK as (nl & EK & NP & NS). rewrite EK in HK. apply (f_equal (option_map fst)) in HK. cbn [kinVoce option_map fst] in HK. apply some_inj in HK. subst kin.
    cbn [voce_kinetics k_valsOk k_getFixedRefRate k_getVals k_evalGdots] in *. unfold voce_valsOk, voce_getVals in *. cbn [get nth fst] in *.
    apply Rltb_true in HV. change (@zero R RNum) with 0 in HV.
    destruct (voce_set nl (kin_pars c pars)) as (A & B & C & D & E). rewrite <- !kin_pars_nth by lia.
    rewrite <- kin_pars_nth in HG by lia.
    split; [assumption|split; [exact A|]].
    intros tau. unfold voce_evalGdots. cbn [fst get nth]. rewrite NS. apply tab_ext. intros iS HiS.
    apply (gdot_law _ _ _ A B C D E h); [assumption|lra].
  - refine (KM false false false false 1%nat _ _ _ _ _); [rewrite HC; reflexivity|lia|discriminate| |discriminate].
    intros v Hv. assert (v = 0%nat) by lia. subst v. exact PO.
  - refine (KM true false false false 1%nat _ _ _ _ _); [rewrite HC; reflexivity|lia|discriminate| |discriminate].
    intros v Hv. assert (v = 0%nat) by lia. subst v. exact PO.
  - refine (KM true true true true 24%nat _ _ _ PO _); [rewrite HC; reflexivity|lia|rewrite HC; reflexivity|intros _; exact Q1].
Qed.

(** the stress the slip systems see *)
Lemma kirchhoff_law (p : Prob R) e c pars hs : builtin hs c -> List.length pars = mm_nParams c -> pb_el p = el_of c pars ->
  0 < pb_detV p -> pb_a_V p = Rpow (pb_detV p) (1/3) -> pb_a_V_ri p = 1 / pb_a_V p -> List.length e = 5%nat ->
  let E := add3 (scal3 (/ Rpower (pb_detV p) (1 / 3)) (ten5 e)) (scal3 (ln (pb_detV p) / 3) I3) in
  let S := scal3 (pb_detV p) (latStress c pars (pb_detV p) (pb_eVref p) E) in
  is_sym S /\ exists x, elastNEtoT p e = vec5 S ++ [x].
Proof.
  intros HB HL Hel Hv Ha Har Le E S.
  set (v := pb_detV p) in *. rewrite Rpow_pos in Ha by assumption.
  assert (HE : is_sym E).
  { unfold E. destruct (ten5_dev e) as [S' _]. set (B := ten5 e) in *. clearbody B. unfold is_sym in *. destruct B. unfold tr3 in *. cbn in *.
    injection S' as ? ? ? ? ? ?. subst. reflexivity. }
  assert (HT : trace E = ln v).
  { unfold E. destruct (ten5_dev e) as [_ T]. set (B := ten5 e) in *. clearbody B. clear - T. destruct B. spec.
    transitivity (/ Rpower v (1/3) * (a00 + a11 + a22) + ln v); [field|rewrite T; ring]. 
    unfold Rpower. apply Rgt_not_eq, exp_pos. }
  assert (H6 : vecsVxa 5 (pb_a_V_ri p) e ++ [sqr3 * nlog (pb_a_V p)]%num = vec6 E).
  { unfold E. assert (EX : scal3 (ln v / 3) I3 = scal3 (s3 / 3 * ln v) (basis 5)) by (clear; specR; meq; field_s).
    rewrite EX. rewrite vec6_split.
    - rewrite Har, Ha. destruct e as [|? [|? [|? [|? [|? [|]]]]]]; try discriminate Le.
      assert (EL : (sqr3 * nlog (Rpower v (1 / 3)))%num = s3 / 3 * ln v).
      { cbn [nmul nlog RNum]. change sqr3 with s3. unfold Rpower. rewrite ln_exp. field. }
      rewrite EL. f_equal. set (k := Rpower v (1/3)) in *. assert (Hk : 0 < k) by (unfold k, Rpower; apply exp_pos). clearbody k.
      unfold vecsVxa. clear - Hk. unfold ten5. specR. rarr. specR. meq; field_s; lra.
    - destruct (ten5_dev e) as [S' T]. set (B := ten5 e) in *. set (k := / Rpower v (1/3)). clearbody B k. clear - S' T.
      split; [unfold is_sym in *; destruct B; unfold tr3 in *; cbn in *; injection S' as ? ? ? ? ? ?; subst; reflexivity|].
      destruct B. spec. transitivity (k * (a00 + a11 + a22)); [ring|rewrite T; ring]. }
  assert (ES : S = add3 (p_hooke c pars E) (scal3 (- (exp (trace E) * p_ghex c pars * pb_eVref p)) (basis 1))).
  { unfold S, latStress. rewrite HT, exp_ln by assumption. set (H := p_hooke c pars E). set (g := p_ghex c pars). set (ev := pb_eVref p). clearbody H g ev v. clear - Hv.
    destruct H. specR. meq; field_s; lra. }
  split.
  - rewrite ES. pose proof (p_hooke_sym c pars E HE) as HP. set (B := p_hooke c pars E) in *. clearbody B.
    unfold is_sym in *. destruct B. unfold tr3 in *. cbn in *. injection HP as ? ? ? ? ? ?. subst. reflexivity.
  - unfold elastNEtoT. rewrite H6, Hel.
    destruct (el_law hs c pars E (pb_p_EOS p) (pb_eVref p) HB HL HE) as [x EX]. exists x. rewrite EX, ES. reflexivity.
Qed.

Lemma resolve_law (S : M3) x P Q n md sd k : is_sym S -> schmid_data P Q n md sd -> legal_systems n md sd -> (k < n)%nat ->
  get (vecsVaTM 5 n (vec5 S ++ [x]) P) k = inner S (outer (sd k) (md k)).
Proof.
  intros HS (_ & _ & HD) (HO & _) Hk. unfold vecsVaTM. rewrite get_tab by assumption. destruct (HD k Hk) as [HP _]. destruct (HO k Hk) as (_ & _ & H0).
  transitivity (sum 5 (fun j => inner S (basis j) * inner (symp (outer (sd k) (md k))) (basis j))).
  - apply sum_ext. intros j Hj. rewrite get_app1 by (cbn; lia). rewrite vec5_get by assumption. cbn [nmul RNum]. f_equal.
    unfold get2, get. cbn [nundef RNum]. now apply HP.
  - rewrite expand_dev.
    + set (X := outer (sd k) (md k)). clearbody X. symc S HS. destruct X. unfold symp. spec. field.
    + set (x1 := sd k) in *. set (x2 := md k) in *. clearbody x1 x2. split; [clear; destruct x1, x2; unfold is_sym, symp; spec; meq; ring|].
      transitivity (dotv x2 x1); [clear; destruct x1, x2; unfold symp; spec; field|exact H0].
Qed.

Lemma svec_vec5 (d : list R) : trace (sym6 (get d)) = 0 -> svecToVecd d = vec5 (sym6 (get d)).
Proof.
  unfold sym6, svecToVecd. intros H. cbn [trace a00 a11 a22] in H. rops. specR. assert (E : get d 0 = - get d 1 - get d 2) by lra. rewrite E.
  set (d1 := get d 1). set (d2 := get d 2). set (d5 := get d 5). set (d4 := get d 4). set (d3 := get d 3). clearbody d1 d2 d3 d4 d5. clear.
  meq; field_s.
Qed.
Lemma normalize_unit4 q : List.length q = 4%nat -> vecsVNormalize 4 q = unit4 q.
Proof.
  intros L. unfold vecsVNormalize, vecNorm. change (@nmul R RNum) with Rmult. rewrite norm2_sum4 by assumption. unfold unit4.
  set (z := norm2 q). clearbody z. explode q. rewrite vecsVsa4. cbn [map]. cbn [nsqrt ndiv nZ RNum]. unfold Rdiv. meq; ring.
Qed.
Lemma turn_emap xi : rotq (emap_to_quat (ofV3 xi)) = turn xi.
Proof.
  rewrite emap_rot. unfold turn, emap_axis, Rltb. destruct (Rlt_dec (/ 10 ^ 90) (norm3 xi)); reflexivity.
Qed.
Lemma norm_vec5 D : is_dev D -> vecNorm 5 (vec5 D) = norm3t D.
Proof.
  intros [H1 H2]. unfold vecNorm, norm3t. f_equal. rewrite <- (vec5_inner D D H1 (conj H1 H2)). reflexivity.
Qed.
Lemma scale_law (ref dt : R) D : 0 < ref -> 0 < dt ->
  (if Rltb (norm3t D) (epsdot_scl_nzeff * ref) then 1 / ref else Rmin (1 / norm3t D) (nlit 1 6 * dt)) = / rate_scale ref dt D /\ 0 < rate_scale ref dt D.
Proof.
  intros Hr Hd. unfold rate_scale, Rltb. unfold epsdot_scl_nzeff. rewrite lit_eps.
  destruct (Rlt_dec _ _) as [H|H]; [split; [unfold Rdiv; ring|assumption]|].
  assert (HN : 0 < norm3t D). { pose proof (pow10i_pos 8). assert (0 < / 10 ^ 8 * ref) by now apply Rmult_lt_0_compat. lra. }
  assert (E6 : nlit 1 6 = 10 ^ 6) by (cbn; lra). rewrite E6. set (N := norm3t D) in *. set (M := 10 ^ 6 * dt).
  assert (HM : 0 < M) by (unfold M; apply Rmult_lt_0_compat; [apply pow10_pos|assumption]). clearbody N M. clear - HN HM.
  assert (0 < / N) by now apply Rinv_0_lt_compat. assert (0 < / M) by now apply Rinv_0_lt_compat.
  split; [|unfold Rmax; destruct Rle_dec; assumption].
  unfold Rdiv. rewrite Rmult_1_l. unfold Rmin, Rmax. destruct (Rle_dec (/ N) M) as [A|A], (Rle_dec N (/ M)) as [B|B]; try reflexivity.
  - rewrite Rinv_inv. apply Rinv_le_contravar in B; [|assumption]. rewrite Rinv_inv in B. lra.
  - now rewrite Rinv_inv.
  - apply Rnot_le_lt in A, B. apply Rinv_lt_contravar in B; [|now apply Rmult_lt_0_compat]. rewrite Rinv_inv in B. lra.
Qed.

Section CS.
  Variables (hs : Solver R) (c : MClass R) (b : BCall) (i : nat) (pars : list R).
  Hypothesis G : good hs c b.
  Hypothesis Hi : (i < b_n b)%nat.
  Hypothesis U : in_use c (b_s b) pars.
  Let s := b_s b. Let m := b_m b. Let m1 := b_m1 b.
  Variables (md sd : nat -> V3) (law : nat -> R -> R) (ref : R).
  Hypothesis HSys : systems hs c pars md sd.
  Hypothesis HLaw : slip_law hs c pars (tKel s m1 i) (strength s m1 i) law ref.
  Hypothesis Hv : 0 < vNew s m i.

  (** the rates of any evaluation whose elastic strain is the returned one *)
  Lemma call_step : exists (p : Prob R) (r : SolveOut R) (sg : SlipGeom R) (v : Ev R),
    r = b_solver b 8%nat (computeRJ p) (nth 2 pars 0) 200%nat (tab 8 (fun _ => 0)) /\ so_converged r = true /\
    pb_dt p = b_dt b /\ pb_dt_ri p = 1 / b_dt b /\ pb_a_V p = Rpower (vNew s m i) (1 / 3) /\ pb_a_V_ri p = 1 / pb_a_V p /\
    pb_sg p = sg /\ sg_nslip sg = c_nslip c /\ schmid_data (sg_P sg) (sg_Q sg) (c_nslip c) md sd /\
    pb_d_vecd_sm p = svecToVecd (in_cell c b i AD) /\ pb_w_veccp_sm p = ofV3 (spin s m i) /\
    pb_Cn_quat p = vecsVNormalize 4 (quat s m i) /\ List.length (pb_e_vecd_n p) = 5%nat /\ ten5 (pb_e_vecd_n p) = dev_strain s m i /\
    ten5 (ev_e_f (evalEv p (so_x r))) = dev_strain s m1 i /\
    rotq (quat s m1 i) = rotq (ev_C_quat (evalEv p (so_x r))) /\
    0 < ref /\ k_getFixedRefRate (pb_kin p) (pb_kin_vals p) = ref /\
    ev_gdot (evalEv p (so_x r)) = tab (c_nslip c) (fun k => law k (tau_after c pars b i (sd k) (md k))) /\
    (pb_epsdot_scale_inv p = if Rltb (vecNorm 5 (pb_d_vecd_sm p)) (epsdot_scl_nzeff * ref) then 1 / ref else Rmin (1 / vecNorm 5 (pb_d_vecd_sm p)) (nlit 1 6 * b_dt b)) /\
    pb_rotincr_scale_inv p = pb_dt_ri p * pb_epsdot_scale_inv p /\
    v = evalEv p (if b_mtan b then so_x r else so_xlast r) /\
    (forall k, (k < c_nslip c)%nat -> val s m1 AH i (14 + k) = get (ev_gdot v) k) /\
    val s m1 AH i 0 = ev_shrateEff v /\
    val s m1 AH i 1 = val s m AH i 1 + ev_shrateEff v * b_dt b /\
    val s m1 AH i 2 = (if Rltb idp_tiny_sqrt (vecd_Deff (svecToVecd (in_cell c b i AD))) then ev_disRate v / vecd_Deff (svecToVecd (in_cell c b i AD)) else pb_hdn_scale p) /\
    pb_detV_ri p = 1 / vNew s m i /\ pb_hdn_scale p = snd (k_getVals (pb_kin p) (pb_p_EOS p) (tKel s m1 i) [strength s m1 i]) /\
    (forall k, (k < c_nslip c)%nat -> get (ev_taua (evalEv p (so_x r))) k = tau_after c pars b i (sd k) (md k)).
  Proof.
    destruct (call_parts hs c b i pars G Hi U) as (sg & kin & hi & h_u & v & nf & gm & E1 & E2 & N1 & N2 & K & HL & S & S' & Rs). cbv zeta in *.
    pose proof G as (HB & _).
    set (p := snglProb (mat_of c pars sg kin) (b_dt b) (in_cell c b i AD) (in_cell c b i AW) (in_cell c b i AV) (P_in c b i) h_u) in *.
    set (r := b_solver b 8%nat (computeRJ p) (nth 2 pars 0) 200%nat (tab 8 (fun _ => 0))) in *.
    destruct (systems_data hs c pars md sd sg HSys HL E1) as [SD SL].
    pose proof (builtin_nH hs c b pars G U) as NH.
    assert (EH : h_u = [strength s m1 i]).
    { pose proof (r_H _ _ _ _ _ _ _ _ _ _ _ _ _ _ Rs) as X. cbn [mat_of m_kin] in X. rewrite N2, NH in X. change iHistLbH with 13%nat in X.
      rewrite (hist_out_sub hs c b i G Hi (mat_of c pars sg kin)) in X; try assumption; [|lia]. rewrite <- X. reflexivity. }
    assert (ET : pb_tK p = tKel s m1 i).
    { pose proof (r_tkelv _ _ _ _ _ _ _ _ _ _ _ _ _ _ Rs) as X. transitivity (pt_tkelv (P_out c b i)); [symmetry; exact X|].
      unfold P_out, pt_of, pt_at. cbn [pt_tkelv]. apply (vout hs c b i G Hi AT 0). cbn [per_point]. lia. }
    pose proof (r_valsOk _ _ _ _ _ _ _ _ _ _ _ _ _ _ Rs) as VO. cbn [mat_of m_kin] in VO.
    change (snglTkelv (mat_of c pars sg kin) (in_cell c b i AV) (pt_eInt (P_in c b i))) with (pb_tK p) in VO.
    change (u_press (snglUpd (mat_of c pars sg kin) (in_cell c b i AV) (pt_eInt (P_in c b i)) (pt_stress (P_in c b i)))) with (pb_p_EOS p) in VO.
    rewrite EH, ET in VO.
    destruct (law_data hs c pars _ _ law ref (pb_p_EOS p) kin hi HLaw HL E2 VO) as (R0 & R1 & R2).
    assert (EV : pb_kin_vals p = fst (k_getVals kin (pb_p_EOS p) (tKel s m1 i) [strength s m1 i])).
    { rewrite <- EH, <- ET. reflexivity. }
    assert (EHS : pb_hdn_scale p = snd (k_getVals kin (pb_p_EOS p) (tKel s m1 i) [strength s m1 i])).
    { rewrite <- EH, <- ET. reflexivity. }
    assert (EDV : pb_detV p = vNew s m i).
    { change (pb_detV p) with (get (in_cell c b i AV) 1). apply (in_val hs c b i G Hi). cbn [per_point]. lia. }
    assert (EA : pb_a_V p = Rpow (pb_detV p) (1 / 3)) by reflexivity.
    assert (Eev : pb_eVref p = eInt s m i - delv s m i * pres s m i).
    { unfold p, snglProb, mkProb, snglUpd, updateSimple. cbn [pb_eVref u_eNew].
      unfold P_in, pt_of, pt_at. cbn [pt_eInt pt_stress].
      change (cell (mm_strides (b_s b)) (c_nH c) (c_nslip c) (b_mtan b) (b_m b)) with (cell_of c s (b_mtan b) m).
      change (in_cell c b i) with (fun a => cell_of c s (b_mtan b) m a i). cbv beta.
      assert (VI : forall a k, (k < per_point (c_nH c) (c_nslip c) (b_mtan b) a)%nat -> get (cell_of c s (b_mtan b) m a i) k = val s m a i k)
        by (intros; now apply (vin hs c b i G Hi)).
      rewrite !VI by (cbn [per_point]; lia). reflexivity. }
    pose proof (r_E _ _ _ _ _ _ _ _ _ _ _ _ _ _ Rs) as RE. change iHistLbE with 4%nat in RE.
    rewrite (hist_out_sub hs c b i G Hi (mat_of c pars sg kin)) in RE; try assumption; [|lia].
    change (fst (stateFromX p (so_x r))) with (ev_e_f (evalEv p (so_x r))) in RE.
    pose proof (r_Q _ _ _ _ _ _ _ _ _ _ _ _ _ _ Rs) as RQ.
    assert (EU : forall k, (k < c_nslip c)%nat -> get (ev_taua (evalEv p (so_x r))) k = tau_after c pars b i (sd k) (md k)).
    { intros k Hk.
      change (ev_taua (evalEv p (so_x r))) with (vecsVaTM 5 (sg_nslip sg) (elastNEtoT p (ev_e_f (evalEv p (so_x r)))) (sg_P sg)). rewrite N1.
      assert (Hv' : 0 < pb_detV p) by now rewrite EDV.
      destruct (kirchhoff_law p (ev_e_f (evalEv p (so_x r))) c pars hs HB HL eq_refl Hv' EA eq_refl eq_refl) as [SS [x EX]].
      rewrite EX. rewrite (resolve_law _ x _ _ _ md sd k SS SD SL Hk). unfold tau_after, resolved. rewrite <- RE, EDV, Eev. reflexivity. }
    assert (EG : ev_gdot (evalEv p (so_x r)) = tab (c_nslip c) (fun k => law k (tau_after c pars b i (sd k) (md k)))).
    { rewrite ev_gdot_evalGdots. change (pb_kin p) with kin. rewrite EV, R2. apply tab_ext. intros k Hk. f_equal. now apply EU. }
    assert (MT : pt_mtan (P_in c b i) = None <-> b_mtan b = false).
    { unfold P_in, pt_of, pt_at. cbn [pt_mtan]. destruct (b_mtan b); split; intros; congruence. }
    assert (EVV : v = evalEv p (if b_mtan b then so_x r else so_xlast r)).
    { pose proof (r_v _ _ _ _ _ _ _ _ _ _ _ _ _ _ Rs) as X. rewrite X. f_equal. destruct (pt_mtan (P_in c b i)) eqn:EM.
      - destruct (b_mtan b) eqn:EB; [reflexivity|]. destruct MT as [_ MT]. specialize (MT eq_refl). discriminate.
      - destruct MT as [MT _]. now rewrite MT. }
    assert (Lq : List.length (snd (stateFromX p (so_x r))) = 4%nat) by reflexivity.
    exists p, r, sg, v.
    repeat match goal with |- _ /\ _ => apply conj end; try reflexivity; try assumption.
    - exact (r_conv _ _ _ _ _ _ _ _ _ _ _ _ _ _ Rs).
    - rewrite EA, EDV. now rewrite Rpow_pos.
    - change (pb_w_veccp_sm p) with (in_cell c b i AW). unfold spin, s, m.
      pose proof (P_Batch4.cell_len c (b_mtan b) s (b_n b) m AW i (proj1 (proj2 (proj2 G))) Hi) as LW. cbn [per_point] in LW.
      rewrite <- !(in_val hs c b i G Hi AW) by (cbn [per_point]; lia).
      change (cell_of c s (b_mtan b) m AW i) with (in_cell c b i AW) in LW. destruct (in_cell c b i AW) as [|? [|? [|? [|]]]]; try discriminate LW. reflexivity.
    - change (pb_Cn_quat p) with (vecsVNormalize 4 (quat_of (pt_hist (P_in c b i)))). f_equal. exact (quat_in hs c b i G Hi).
    - change (pb_e_vecd_n p) with (sub (pt_hist (P_in c b i)) 4 5). rewrite (hist_in_sub hs c b i G Hi (mat_of c pars sg kin)); try assumption; [reflexivity|lia].
    - change (pb_e_vecd_n p) with (sub (pt_hist (P_in c b i)) 4 5). rewrite (hist_in_sub hs c b i G Hi (mat_of c pars sg kin)); try assumption; [reflexivity|lia].
    - rewrite <- RE. reflexivity.
    - pose proof (quat_out hs c b i G Hi) as QO. change (quat (b_s b) (b_m1 b) i) with (quat s m1 i) in QO. rewrite <- QO. unfold quat_of. unfold rotq.
      change (pt_hist (pt_of c (b_s b) (b_mtan b) (b_m1 b) i)) with (pt_hist (P_out c b i)).
      rewrite RQ, quat_final_tensor by assumption. reflexivity.
    - change (pb_kin p) with kin. rewrite EV. exact R1.
    - rewrite <- R1, <- EV. reflexivity.
    - intros k Hk. pose proof (r_G _ _ _ _ _ _ _ _ _ _ _ _ _ _ Rs) as X. cbn [mat_of m_kin m_sg] in X. rewrite N2, NH, N1 in X. change (iHistLbGdot 1) with 14%nat in X.
      rewrite (hist_out_sub hs c b i G Hi (mat_of c pars sg kin)) in X; try assumption; [|lia]. rewrite <- X, get_tab by assumption. reflexivity.
    - pose proof (r_shrateEff _ _ _ _ _ _ _ _ _ _ _ _ _ _ Rs) as X. rewrite <- X. symmetry. apply (hist_out_val hs c b i G Hi). lia.
    - pose proof (r_shrEff _ _ _ _ _ _ _ _ _ _ _ _ _ _ Rs) as X. change iHistA_shrEff with 1%nat in X. rewrite (hist_out_val hs c b i G Hi), (hist_in hs c b i G Hi) in X by lia. exact X.
    - pose proof (r_flow _ _ _ _ _ _ _ _ _ _ _ _ _ _ Rs) as X. rewrite <- X. symmetry. apply (hist_out_val hs c b i G Hi). lia.
    - change (pb_detV_ri p) with (1 / pb_detV p). now rewrite EDV.
  Qed.
End CS.
