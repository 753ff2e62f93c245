(** The equations and the Jacobian that a call hands to the solver (C20). *)
From Coq Require Import List ZArith Bool Lia PeanoNat Reals Lra String.
From Coquelicot Require Import Coquelicot.
From Verif Require Import Num Arr NumR Util SlipGeom Eos Hard KinVoce KinKMBalD Elast Evptn MatModel Cases SpecTensor
  SpecElast SpecSlip P_Tensor P_Elast P_Eos P_Sngl P_Sngl2 P_Sngl3 P_Batch P_Batch2 P_Batch3 P_Batch4 P_Api P_Builtin SpecApi P_Hist SpecStress P_Stress
  P_Slip P_SlipH Prop_Slip SpecKin SpecKinApi P_KinV P_KinKM P_Kin4 P_Call P_Kin3 P_Demo Prop_Kin SpecStep P_Step P_Step2 P_Step3 P_Deriv P_Jac P_Jac2 SpecJac.
Import ListNotations.
Local Open Scope R_scope.

Lemma smooth_slip hs c pars T h law ref ok : smooth_law hs c pars T h law ref ok -> slip_law hs c pars T h law ref.
Proof. intros [H1 H2 H3|H1 H2|H1 H2|H1 H2 H3]; [apply law_V|apply law_F|apply law_B|apply law_H]; assumption. Qed.

(** slopes of the slip laws *)
Lemma dlaw_data hs c pars T h law ref ok pr kin hi : smooth_law hs c pars T h law ref ok -> List.length pars = mm_nParams c ->
  c_kinSet c (sub pars (3 + c_sgNP c + c_elNP c) (c_kinNP c)) = Some (kin, hi) -> k_valsOk kin pr T [h] = true ->
  forall tau k, (k < c_nslip c)%nat -> ok k (get tau k) ->
  D (law k) (get tau k) (get (snd (fst (k_evalGdots kin tau (fst (k_getVals kin pr T [h]))))) k).
Proof.
  intros HLaw HL HK. rewrite kin_pars_sub in HK by assumption.
  assert (KM : forall ga p1 q1 per n, c_kinSet c = kinKM hs ga p1 q1 per n (c_nslip c) -> (0 < n)%nat -> (per = true -> c_nslip c = n) ->
     (forall v, (v < n)%nat -> km_params_ok ga p1 n (kin_pars c pars) h T v) -> (q1 = true -> nth (4 + n) (kin_pars c pars) 0 = 1) ->
     forall tau k, (k < c_nslip c)%nat -> km_smooth (km_spec ga p1 n (kin_pars c pars) h T (if per then k else 0%nat)) (get tau k) ->
     D (km_law (km_spec ga p1 n (kin_pars c pars) h T (if per then k else 0%nat))) (get tau k) (get (snd (fst (k_evalGdots kin tau (fst (k_getVals kin pr T [h]))))) k)).
  { intros ga p1 q1 per n EK Hn Hper PO Q1. rewrite EK in HK. unfold kinKM in HK. set (kk := km_setParams ga p1 q1 per n (kin_pars c pars)) in *.
    destruct (_ && _); [|discriminate]. apply (f_equal (option_map fst)) in HK. cbn [option_map fst] in HK. apply some_inj in HK. subst kin.
    cbn [km_kinetics k_getVals k_evalGdots]. intros tau k Hk HS. unfold km_evalGdots. cbn [fst snd]. rewrite get_tab by assumption. change (km_perSS kk) with per.
    assert (HV : ((if per then k else 0) < n)%nat) by (destruct per; [rewrite <- (Hper eq_refl); exact Hk|exact Hn]).
    set (v := if per then k else 0%nat) in *. clearbody v.
    apply (D_ext (fun t => rate (km_eval ga p1 q1 per n (kin_pars c pars) pr T h v t))).
    { intros t. exact (km_eval_law ga p1 q1 per n (kin_pars c pars) pr T h v HV (PO _ HV) Q1 t). }
    destruct HS as [HS|[HS|[HS HB]]].
    - exact (C16_km_dtau_ends ga p1 q1 per n (kin_pars c pars) pr T h v (get tau k) HV (PO _ HV) Q1 (or_introl HS)).
    - exact (C16_km_dtau_ends ga p1 q1 per n (kin_pars c pars) pr T h v (get tau k) HV (PO _ HV) Q1 (or_intror HS)).
    - exact (C16_km_dtau_unbalanced ga p1 q1 per n (kin_pars c pars) pr T h v (get tau k) HV (PO _ HV) Q1 HS HB). }
  intros HV. destruct HLaw as [HC HG X|HC PO|HC PO|HC PO Q1].
  - assert (EK : exists nl, c_kinSet c = kinVoce hs nl 12 /\ (3 <= c_kinNP c)%nat /\ c_nslip c = 12%nat).
    { destruct HC as [ -> | [ -> | [ -> | -> ]]]; [exists false|exists true|exists false|exists true]; (split; [reflexivity|split; [|reflexivity]]); cbn; lia. }
    destruct EK as (nl & EK & NP & NS). rewrite EK in HK. apply (f_equal (option_map fst)) in HK. cbn [kinVoce option_map fst] in HK. apply some_inj in HK. subst kin.
    cbn [voce_kinetics k_valsOk k_getVals k_evalGdots] in *. unfold voce_valsOk in HV. cbn [get nth fst] in HV.
    apply Rltb_true in HV. change (@zero R RNum) with 0 in HV.
    destruct (voce_set nl (kin_pars c pars)) as (A & B & C & D' & E). rewrite <- !kin_pars_nth by lia.
    rewrite <- kin_pars_nth in HG by lia.
    intros tau k Hk HS. unfold voce_evalGdots, voce_getVals. cbn [fst snd]. rewrite NS in Hk. rewrite get_tab by assumption.
    destruct HS as (Y & Z). rewrite <- kin_pars_nth in X by lia.
    apply (D_ext (fun t => rate (voce_evalGdot (voce_setParams nl (kin_pars c pars)) h t))).
    { intros t. apply (gdot_law _ _ _ A B C D' E h); [assumption|lra]. }
    exact (C16_voce_dtau nl (kin_pars c pars) h (get tau k) HV (Rlt_le _ _ HG) X Y Z).
  - intros tau k Hk HS. refine (KM false false false false 1%nat _ _ _ _ _ tau k Hk HS); [rewrite HC; reflexivity|lia|discriminate| |discriminate].
    intros v Hv. assert (v = 0%nat) by lia. subst v. exact PO.
  - intros tau k Hk HS. refine (KM true false false false 1%nat _ _ _ _ _ tau k Hk HS); [rewrite HC; reflexivity|lia|discriminate| |discriminate].
    intros v Hv. assert (v = 0%nat) by lia. subst v. exact PO.
  - intros tau k Hk HS. refine (KM true true true true 24%nat _ _ _ PO _ tau k Hk HS); [rewrite HC; reflexivity|lia|rewrite HC; reflexivity|intros _; exact Q1].
Qed.

Lemma e_scale_R : e_scale = 5 / 10000 :> R.
Proof. reflexivity. Qed.
Lemma r_scale_R : r_scale = 1 / 100 :> R.
Proof. reflexivity. Qed.

(** when a call with tangent succeeds *)
Lemma sngl_succeeds_t (solver : Solver R) lu m dt tol d w vr pt old h_u nh gmod mv :
  k_updateH (m_kin m) (sub (pt_hist pt) iHistLbH (k_nH (m_kin m))) dt
     (sub (pt_hist pt) (iHistLbGdot (k_nH (m_kin m))) (sg_nslip (m_sg m))) = Some (h_u, nh) ->
  k_valsOk (m_kin m) (u_press (snglUpd m vr (pt_eInt pt) (pt_stress pt))) (snglTkelv m vr (pt_eInt pt)) h_u = true ->
  so_converged (solver 8%nat (computeRJ (snglProb m dt d w vr pt h_u)) tol 200%nat (tab 8 (fun _ => nZ 0))) = true ->
  mtan_vecds lu (snglProb m dt d w vr pt h_u) (so_x (solver 8%nat (computeRJ (snglProb m dt d w vr pt h_u)) tol 200%nat (tab 8 (fun _ => nZ 0)))) = Some mv ->
  el_getGmod (m_el m) = Some gmod ->
  fst (getResponseSngl solver lu m dt tol d w vr {| pt_eInt := pt_eInt pt; pt_stress := pt_stress pt; pt_hist := pt_hist pt;
    pt_tkelv := pt_tkelv pt; pt_sdd := pt_sdd pt; pt_mtan := Some old |}) = Done.
Proof.
  intros H1 H2 H3 H4 H5. unfold getResponseSngl. cbv zeta. cbn [pt_eInt pt_stress pt_hist pt_tkelv pt_sdd pt_mtan].
  rewrite H1, H2. cbn [negb].
  change (snglProb m dt d w vr {| pt_eInt := pt_eInt pt; pt_stress := pt_stress pt; pt_hist := pt_hist pt; pt_tkelv := pt_tkelv pt; pt_sdd := pt_sdd pt; pt_mtan := Some old |} h_u)
    with (snglProb m dt d w vr pt h_u).
  rewrite H3. cbn [negb]. rewrite H4. destruct stateFromX. rewrite H5. reflexivity.
Qed.

(** the problem of a step that a call passes to the solver *)
Definition is_prob (c : MClass R) (b : BCall) (i : nat) (pars : list R) (p : Prob R) : Prop := exists sg kin hi h_u nh,
  c_sgSet c (sub pars 3 (c_sgNP c)) = Some sg /\ c_kinSet c (sub pars (3 + c_sgNP c + c_elNP c) (c_kinNP c)) = Some (kin, hi) /\
  k_updateH kin (sub (pt_hist (P_in c b i)) iHistLbH (k_nH kin)) (b_dt b) (sub (pt_hist (P_in c b i)) (iHistLbGdot (k_nH kin)) (sg_nslip sg)) = Some (h_u, nh) /\
  p = snglProb (mat_of c pars sg kin) (b_dt b) (in_cell c b i AD) (in_cell c b i AW) (in_cell c b i AV) (P_in c b i) h_u.

Section CJ.
  Variables (hs : Solver R) (c : MClass R) (b : BCall) (i : nat) (pars : list R).
  Hypothesis G : good hs c b.
  Hypothesis Hi : (i < b_n b)%nat.
  Hypothesis U : in_use c (b_s b) pars.
  Let s := b_s b. Let m := b_m b. Let m1 := b_m1 b.
  Variables (md sd : nat -> V3) (law : nat -> R -> R) (ref : R) (ok : nat -> R -> Prop).
  Hypothesis HSys : systems hs c pars md sd.
  Hypothesis HLaw : smooth_law hs c pars (tKel s m1 i) (strength s m1 i) law ref ok.
  Hypothesis Hv : 0 < vNew s m i.

  Lemma call_prob : exists p : Prob R,
    let r := b_solver b 8%nat (computeRJ p) (nth 2 pars 0) 200%nat (tab 8 (fun _ => 0)) in
    is_prob c b i pars p /\ so_converged r = true /\
    pb_dt p = b_dt b /\ pb_dt_ri p = 1 / b_dt b /\ pb_a_V p = Rpower (vNew s m i) (1 / 3) /\ pb_a_V_ri p = 1 / pb_a_V p /\
    sg_nslip (pb_sg p) = c_nslip c /\ schmid_data (sg_P (pb_sg p)) (sg_Q (pb_sg p)) (c_nslip c) md sd /\
    pb_d_vecd_sm p = svecToVecd (in_cell c b i AD) /\ pb_w_veccp_sm p = ofV3 (spin s m i) /\
    pb_Cn_quat p = vecsVNormalize 4 (quat s m i) /\ List.length (pb_e_vecd_n p) = 5%nat /\ ten5 (pb_e_vecd_n p) = dev_strain s m i /\
    ten5 (ev_e_f (evalEv p (so_x r))) = dev_strain s m1 i /\
    rotq (quat s m1 i) = rotq (ev_C_quat (evalEv p (so_x r))) /\
    0 < ref /\ k_getFixedRefRate (pb_kin p) (pb_kin_vals p) = ref /\
    (pb_epsdot_scale_inv p = if Rltb (vecNorm 5 (pb_d_vecd_sm p)) (epsdot_scl_nzeff * ref) then 1 / ref else Rmin (1 / vecNorm 5 (pb_d_vecd_sm p)) (nlit 1 6 * b_dt b)) /\
    pb_rotincr_scale_inv p = pb_dt_ri p * pb_epsdot_scale_inv p /\
    (forall x, ten5 (ev_e_f (evalEv p x)) = trial_strain (dev_strain s m i) x) /\
    (forall x, toV3 (ev_xi (evalEv p x)) = trial_rot x) /\
    (forall x k, (k < c_nslip c)%nat -> get (ev_taua (evalEv p x)) k = trial_tau c pars b i md sd x k) /\
    (forall tau, fst (fst (k_evalGdots (pb_kin p) tau (pb_kin_vals p))) = tab (c_nslip c) (fun k => law k (get tau k))) /\
    (forall tau k, (k < c_nslip c)%nat -> ok k (get tau k) ->
      D (law k) (get tau k) (get (snd (fst (k_evalGdots (pb_kin p) tau (pb_kin_vals p)))) k)) /\
    pb_el p = el_of c pars /\ pb_detV p = vNew s m i /\ pb_a_V p = Rpow (pb_detV p) (1 / 3) /\ pb_detV_ri p = 1 / pb_detV p /\
    pb_eVref p = eInt s m i - delv s m i * pres s m i /\
    pb_p_EOS p = spec_p false (p_bulk c pars) (p_gamma c pars) (vNew s m i) (eInt s m i - delv s m i * pres s m i) /\
    (b_mtan b = true -> exists mv, mtan_vecds (b_lu b) p (so_x r) = Some mv /\
      forall k, (k < 36)%nat -> val s m1 AM i k = get (mtanSD_of p (val s m1 AB i 0) mv) k) /\
    (forall lu m', b_mtan b = false -> mtan_vecds lu p (so_x r) <> None -> (forall a, a <> AM -> m' a = m a) ->
      exists mat tol, mm_ready s = Some (mat, tol) /\
        fst (getResponseSngl (b_solver b) lu mat (b_dt b) tol (cell_of c s true m' AD i) (cell_of c s true m' AW i) (cell_of c s true m' AV i) (pt_of c s true m' i)) = Done).
  Proof.
    pose proof (smooth_slip _ _ _ _ _ _ _ _ HLaw) as HLaw'.
    destruct (call_parts hs c b i pars G Hi U) as (sg & kin & hi & h_u & v & nf & gm & E1 & E2 & N1 & N2 & K & HL & S & S' & Rs). cbv zeta in *.
    pose proof G as (HB & _).
    set (p := snglProb (mat_of c pars sg kin) (b_dt b) (in_cell c b i AD) (in_cell c b i AW) (in_cell c b i AV) (P_in c b i) h_u) in *.
    set (r := b_solver b 8%nat (computeRJ p) (nth 2 pars 0) 200%nat (tab 8 (fun _ => 0))) in *.
    destruct (systems_data hs c pars md sd sg HSys HL E1) as [SD SL].
    pose proof (builtin_nH hs c b pars G U) as NH.
    assert (EH : h_u = [strength s m1 i]).
    { pose proof (r_H _ _ _ _ _ _ _ _ _ _ _ _ _ _ Rs) as X. cbn [mat_of m_kin] in X. rewrite N2, NH in X. change iHistLbH with 13%nat in X.
      rewrite (hist_out_sub hs c b i G Hi (mat_of c pars sg kin)) in X; try assumption; [|lia]. rewrite <- X. reflexivity. }
    assert (ET : pb_tK p = tKel s m1 i).
    { pose proof (r_tkelv _ _ _ _ _ _ _ _ _ _ _ _ _ _ Rs) as X. transitivity (pt_tkelv (P_out c b i)); [symmetry; exact X|].
      unfold P_out, pt_of, pt_at. cbn [pt_tkelv]. apply (vout hs c b i G Hi AT 0). cbn [per_point]. lia. }
    pose proof (r_valsOk _ _ _ _ _ _ _ _ _ _ _ _ _ _ Rs) as VO. cbn [mat_of m_kin] in VO.
    change (snglTkelv (mat_of c pars sg kin) (in_cell c b i AV) (pt_eInt (P_in c b i))) with (pb_tK p) in VO.
    change (u_press (snglUpd (mat_of c pars sg kin) (in_cell c b i AV) (pt_eInt (P_in c b i)) (pt_stress (P_in c b i)))) with (pb_p_EOS p) in VO.
    rewrite EH, ET in VO.
    destruct (law_data hs c pars _ _ law ref (pb_p_EOS p) kin hi HLaw' HL E2 VO) as (R0 & R1 & R2).
    pose proof (dlaw_data hs c pars _ _ law ref ok (pb_p_EOS p) kin hi HLaw HL E2 VO) as R3.
    assert (EV : pb_kin_vals p = fst (k_getVals kin (pb_p_EOS p) (tKel s m1 i) [strength s m1 i])).
    { rewrite <- EH, <- ET. reflexivity. }
    assert (EDV : pb_detV p = vNew s m i).
    { change (pb_detV p) with (get (in_cell c b i AV) 1). apply (in_val hs c b i G Hi). cbn [per_point]. lia. }
    assert (EA : pb_a_V p = Rpow (pb_detV p) (1 / 3)) by reflexivity.
    assert (Eev : pb_eVref p = eInt s m i - delv s m i * pres s m i).
    { unfold p, snglProb, mkProb, snglUpd, updateSimple. cbn [pb_eVref u_eNew].
      unfold P_in, pt_of, pt_at. cbn [pt_eInt pt_stress].
      change (cell (mm_strides (b_s b)) (c_nH c) (c_nslip c) (b_mtan b) (b_m b)) with (cell_of c s (b_mtan b) m).
      change (in_cell c b i) with (fun a => cell_of c s (b_mtan b) m a i). cbv beta.
      assert (VI : forall a k, (k < per_point (c_nH c) (c_nslip c) (b_mtan b) a)%nat -> get (cell_of c s (b_mtan b) m a i) k = val s m a i k)
        by (intros; now apply (vin hs c b i G Hi)).
      rewrite !VI by (cbn [per_point]; lia). reflexivity. }
    pose proof (r_E _ _ _ _ _ _ _ _ _ _ _ _ _ _ Rs) as RE. change iHistLbE with 4%nat in RE.
    rewrite (hist_out_sub hs c b i G Hi (mat_of c pars sg kin)) in RE; try assumption; [|lia].
    change (fst (stateFromX p (so_x r))) with (ev_e_f (evalEv p (so_x r))) in RE.
    pose proof (r_Q _ _ _ _ _ _ _ _ _ _ _ _ _ _ Rs) as RQ.
    assert (EN : List.length (pb_e_vecd_n p) = 5%nat /\ ten5 (pb_e_vecd_n p) = dev_strain s m i).
    { change (pb_e_vecd_n p) with (sub (pt_hist (P_in c b i)) 4 5). rewrite (hist_in_sub hs c b i G Hi (mat_of c pars sg kin)); try assumption; [|lia]. split; reflexivity. }
    destruct EN as [L5 EN].
    assert (TS : forall x, ten5 (ev_e_f (evalEv p x)) = trial_strain (dev_strain s m i) x).
    { intros x. unfold trial_strain. rewrite <- EN. rewrite <- e_scale_R.
      assert (EF : ev_e_f (evalEv p x) = tab 5 (fun k => get (pb_e_vecd_n p) k + e_scale * nth k x 0)).
      { change (ev_e_f (evalEv p x)) with (vecsVapb 5 (vecsVxa 5 e_scale (x_e x)) (pb_e_vecd_n p)). unfold vecsVapb, vecsVxa, x_e. apply tab_ext. intros k Hk.
        rewrite get_tab by assumption. rewrite get_sub by assumption. unfold get. cbn [Nat.add nadd nmul nundef RNum]. ring. }
      rewrite EF. clear EF. set (e0 := pb_e_vecd_n p) in *. clearbody e0. explode e0. generalize (e_scale : R). intros es.
      cbn [map]. unfold tab. cbn [seq map get nth]. unfold ten5. specR. cbn [nth]. meq; ring. }
    assert (EU : forall x k, (k < c_nslip c)%nat -> get (ev_taua (evalEv p x)) k = trial_tau c pars b i md sd x k).
    { intros x k Hk.
      change (ev_taua (evalEv p x)) with (vecsVaTM 5 (sg_nslip sg) (elastNEtoT p (ev_e_f (evalEv p x))) (sg_P sg)). rewrite N1.
      assert (Hv' : 0 < pb_detV p) by now rewrite EDV.
      destruct (kirchhoff_law p (ev_e_f (evalEv p x)) c pars hs HB HL eq_refl Hv' EA eq_refl eq_refl) as [SS [y EX]].
      rewrite EX. rewrite (resolve_law _ y _ _ _ md sd k SS SD SL Hk). unfold trial_tau, resolved. fold s m. rewrite <- TS, EDV, Eev. reflexivity. }
    exists p. cbv zeta. fold r.
    repeat match goal with |- _ /\ _ => apply conj end; try reflexivity; try assumption.
    - destruct (r_updH _ _ _ _ _ _ _ _ _ _ _ _ _ _ Rs) as (nh & UH). exists sg, kin, hi, h_u, nh. exact (conj E1 (conj E2 (conj UH eq_refl))).
    - exact (r_conv _ _ _ _ _ _ _ _ _ _ _ _ _ _ Rs).
    - rewrite EA, EDV. now rewrite Rpow_pos.
    - change (pb_w_veccp_sm p) with (in_cell c b i AW). unfold spin, s, m.
      pose proof (P_Batch4.cell_len c (b_mtan b) s (b_n b) m AW i (proj1 (proj2 (proj2 G))) Hi) as LW. cbn [per_point] in LW.
      rewrite <- !(in_val hs c b i G Hi AW) by (cbn [per_point]; lia).
      change (cell_of c s (b_mtan b) m AW i) with (in_cell c b i AW) in LW. destruct (in_cell c b i AW) as [|? [|? [|? [|]]]]; try discriminate LW. reflexivity.
    - change (pb_Cn_quat p) with (vecsVNormalize 4 (quat_of (pt_hist (P_in c b i)))). f_equal. exact (quat_in hs c b i G Hi).
    - rewrite <- RE. reflexivity.
    - pose proof (quat_out hs c b i G Hi) as QO. change (quat (b_s b) (b_m1 b) i) with (quat s m1 i) in QO. rewrite <- QO. unfold quat_of. unfold rotq.
      change (pt_hist (pt_of c (b_s b) (b_mtan b) (b_m1 b) i)) with (pt_hist (P_out c b i)).
      rewrite RQ, quat_final_tensor by reflexivity. reflexivity.
    - change (pb_kin p) with kin. rewrite EV. exact R1.
    - rewrite <- R1, <- EV. reflexivity.
    - intros x. change (ev_xi (evalEv p x)) with (vecsVxa 3 r_scale (x_r x)). unfold trial_rot, scalv, toV3. rewrite <- r_scale_R. cbn [v0 v1 v2].
      change (nth ?k (vecsVxa 3 r_scale (x_r x)) 0) with (get (vecsVxa 3 r_scale (x_r x)) k). unfold vecsVxa, x_r. rewrite !get_tab, !get_sub by lia. reflexivity.
    - intros tau. change (pb_kin p) with kin. rewrite EV. apply R2.
    - intros tau k. change (pb_kin p) with kin. rewrite EV. apply R3.
    - rewrite <- Eev. change (pb_p_EOS p) with (u_press (snglUpd (mat_of c pars sg kin) (in_cell c b i AV) (pt_eInt (P_in c b i)) (pt_stress (P_in c b i)))).
      change (pb_eVref p) with (u_eNew (snglUpd (mat_of c pars sg kin) (in_cell c b i AV) (pt_eInt (P_in c b i)) (pt_stress (P_in c b i)))).
      rewrite <- EDV. change (pb_detV p) with (get (in_cell c b i AV) 1).
      assert (Hv0 : get (in_cell c b i AV) 1 <> 0) by (change (get (in_cell c b i AV) 1) with (pb_detV p); rewrite EDV; lra).
      destruct (eos_update false (nth 0 pars 0) (p_bulk c pars) (p_cv pars) (p_gamma c pars) (p_ec0 c pars) _ (get (in_cell c b i AV) 3) (get (pt_eInt (P_in c b i)) 0) (get (pt_stress (P_in c b i)) 6) Hv0)
        as (_ & U2 & _ & _ & _ & _ & _). exact U2.
    - intros HMt. pose proof (r_mtan _ _ _ _ _ _ _ _ _ _ _ _ _ _ Rs) as RM. pose proof (r_sdd _ _ _ _ _ _ _ _ _ _ _ _ _ _ Rs) as RD.
      assert (VO2 : forall a k, (k < per_point (c_nH c) (c_nslip c) (b_mtan b) a)%nat -> get (cell_of c s (b_mtan b) m1 a i) k = val s m1 a i k)
        by (intros; now apply (vout hs c b i G Hi)).
      unfold P_in, P_out, pt_of, pt_at in RM. cbn [pt_mtan] in RM. rewrite HMt in RM.
      destruct RM as (mv & M1 & M2). exists mv. split; [exact M1|]. intros k Hk.
      assert (B0 : u_bulkNew (snglUpd (mat_of c pars sg kin) (in_cell c b i AV) (pt_eInt (P_in c b i)) (pt_stress (P_in c b i))) = val s m1 AB i 0).
      { rewrite <- VO2 by (cbn [per_point]; lia). unfold P_out, pt_of, pt_at in RD. cbn [pt_sdd] in RD.
        change (cell (mm_strides (b_s b)) (c_nH c) (c_nslip c) (b_mtan b) (b_m1 b) AB i) with (cell_of c s (b_mtan b) m1 AB i) in RD. rewrite RD. reflexivity. }
      rewrite <- VO2 by (cbn [per_point]; rewrite HMt; lia). rewrite <- B0. apply some_inj in M2. rewrite HMt.
      exact (f_equal (fun l => get l k) M2).
    - intros lu m' Hm HLU Em.
      destruct (in_use_all hs c s pars HB U) as (_ & _ & _ & sg' & kin' & hi' & E1' & E2' & HM).
      rewrite E1 in E1'. apply some_inj in E1'. subst sg'. rewrite E2 in E2'.
      assert (EK : kin' = kin) by (apply (f_equal (option_map fst)) in E2'; cbn [option_map fst] in E2'; clear - E2'; congruence).
      subst kin'. clear E2' hi'.
      exists (mat_of c pars sg kin), (nth 2 pars 0). split; [exact HM|].
      assert (CE : forall a', a' <> AM -> cell_of c s true m' a' i = in_cell c b i a').
      { intros a' Ha'. unfold in_cell, cell_of, cell. rewrite Em by assumption. rewrite Hm. destruct a'; try congruence; reflexivity. }
      rewrite !CE by discriminate.
      assert (EP : pt_of c s true m' i = {| pt_eInt := pt_eInt (P_in c b i); pt_stress := pt_stress (P_in c b i); pt_hist := pt_hist (P_in c b i);
          pt_tkelv := pt_tkelv (P_in c b i); pt_sdd := pt_sdd (P_in c b i); pt_mtan := Some (cell_of c s true m' AM i) |}).
      { unfold P_in, pt_of, pt_at. cbn [pt_eInt pt_stress pt_hist pt_tkelv pt_sdd].
        change (cell (mm_strides s) (c_nH c) (c_nslip c)) with (cell_of c s). rewrite !CE by discriminate. reflexivity. }
      rewrite EP. clear EP CE.
      destruct (r_updH _ _ _ _ _ _ _ _ _ _ _ _ _ _ Rs) as (nh & UH).
      destruct (mtan_vecds lu p (so_x r)) as [mv|] eqn:EM; [|congruence].
      apply (sngl_succeeds_t (b_solver b) lu (mat_of c pars sg kin) (b_dt b) (nth 2 pars 0) _ _ _ (P_in c b i) _ h_u nh gm mv UH
        (r_valsOk _ _ _ _ _ _ _ _ _ _ _ _ _ _ Rs) (r_conv _ _ _ _ _ _ _ _ _ _ _ _ _ _ Rs) EM (r_gmod _ _ _ _ _ _ _ _ _ _ _ _ _ _ Rs)).
  Qed.

  Lemma call_jac_full : 0 < b_dt b -> SpecTensor.norm2 (quat s m i) <> 0 -> trace (devRate s m i) = 0 ->
    exists (p : Prob R) (C0 : M3), is_prob c b i pars p /\ let f := computeRJ p in rotates (unit4 (quat s m i)) C0 /\
    (let r := b_solver b 8%nat f (nth 2 pars 0) 200%nat [0; 0; 0; 0; 0; 0; 0; 0] in
     so_converged r = true /\ dev_strain s m1 i = trial_strain (dev_strain s m i) (so_x r) /\ rotates (quat s m1 i) (trial_turn C0 (so_x r))) /\
    (forall x, fst (f x) = trial_eqs c pars b i md sd law ref C0 x) /\
    (forall x, / 10 ^ 9 <= norm3 (trial_rot x) -> (forall k, (k < c_nslip c)%nat -> ok k (trial_tau c pars b i md sd x k)) -> jac_exact 8 f x).
  Proof.
    intros Hdt Hq HT.
    destruct call_prob as (p & IP & Cv & Edt & Edri & Ea & Eari & Ens & SD & Ed & Ew & EC & L5 & EE0 & EE1 & EQ & R0 & R1 & Escl & Erot & TS & TR & TT & TL & TD & _).
    set (r := b_solver b 8%nat (computeRJ p) (nth 2 pars 0) 200%nat (tab 8 (fun _ => 0))) in *.
    assert (ED : sym6 (get (in_cell c b i AD)) = devRate s m i).
    { unfold devRate, sym6. rewrite !(in_val hs c b i G Hi AD) by (cbn [per_point]; lia). reflexivity. }
    assert (HD : is_dev (devRate s m i)) by (split; [reflexivity|exact HT]).
    rewrite svec_vec5 in Ed by (rewrite ED; exact HT). rewrite ED in Ed.
    destruct (P_Sngl2.normalize_unit (quat s m i) eq_refl Hq) as [NQ LQ]. rewrite <- EC in NQ, LQ.
    assert (Ha0 : pb_a_V p <> 0) by (rewrite Ea; unfold Rpower; apply Rgt_not_eq, exp_pos).
    assert (Hdt0 : pb_dt p <> 0) by (rewrite Edt; lra).
    rewrite <- Edt in Edri. pose proof (norm_vec5 _ HD) as NV.
    rewrite Ed, NV in Escl.
    destruct (scale_law ref (b_dt b) (devRate s m i) R0 Hdt) as [SL SP]. rewrite SL in Escl. clear SL.
    assert (ER : pb_rotincr_scale_inv p = / (b_dt b * rate_scale ref (b_dt b) (devRate s m i))).
    { rewrite Erot, Escl, Edri, Edt. field. split; lra. }
    assert (CC : forall x, rotq (ev_C_quat (evalEv p x)) = mul3 (rotq (pb_Cn_quat p)) (turn (trial_rot x))).
    { intros x. rewrite (ev_C_comp p (conj LQ NQ) x), turn_emap, TR. reflexivity. }
    assert (SS : forall x f, slip_sum (c_nslip c) (get (ev_gdot (evalEv p x))) f = slip_sum (c_nslip c) (trial_rate c pars b i md sd law x) f).
    { intros x f. apply slip_sum_ext. intros k Hk. rewrite ev_gdot_evalGdots, TL, get_tab by assumption. unfold trial_rate. now rewrite TT. }
    exists p, (rotq (pb_Cn_quat p)). split; [exact IP|]. intros f.
    refine (conj _ (conj _ (conj _ _))); unfold f; clear f.
    - rewrite EC, normalize_unit4 by reflexivity. apply rotq_rotates. reflexivity.
    - change [0; 0; 0; 0; 0; 0; 0; 0] with (tab 8 (fun _ => 0)). cbv zeta. fold r. refine (conj Cv (conj _ _)).
      + rewrite <- EE1. apply TS.
      + unfold trial_turn. rewrite <- CC, <- EQ. apply rotq_rotates. reflexivity.
    - intros x. cbn [computeRJ fst].
      pose proof (res_strain p (devRate s m i) (c_nslip c) sd md HD Ed Ens SD (conj LQ NQ) L5 Edri Hdt0 Eari x) as RS.
      pose proof (res_spin p (devRate s m i) (spin s m i) (c_nslip c) sd md Ed Ew Ens SD (conj LQ NQ) L5 Edri Hdt0 Eari Ha0 x) as RW.
      cbv zeta in RS, RW. rewrite EE0, TS, CC in RS, RW.
      rewrite (list_tab (residual p x) 8) by reflexivity. unfold tab. cbn [seq map].
      rewrite !RS by lia. destruct RW as (W0 & W1 & W2). rewrite W0, W1, W2. rewrite Escl, ER.
      unfold trial_eqs, trial_strain_gap, trial_spin_gap, trial_turn. fold s m. cbn [map app].
      unfold strain_gap, spin_gap in *. rewrite SS. rewrite TR, Edt, Ea.
      set (K := rate_scale ref (b_dt b) (devRate s m i)). clearbody K. unfold Rdiv.
      meq; rewrite Rmult_comm; try reflexivity; rewrite (SS x (fun k => skwp (outer (sd k) (md k)))); reflexivity.
    - intros x Hrot Hok y t v Ey Ly Dy j Hj. cbn [computeRJ fst snd].
      assert (HX : dl 8 y t v) by (intros k Hk; exact (Dy k Hk)).
      assert (Ld : List.length (pb_d_vecd_sm p) = 5%nat) by (rewrite Ed; reflexivity).
      assert (HDc : dl 5 (fun _ => pb_d_vecd_sm p) t (tab 5 (fun _ => 0))) by apply dl_const.
      assert (WD : with_d p (pb_d_vecd_sm p) = p) by (destruct p; reflexivity).
      pose proof (D_res0 p (fun _ => pb_d_vecd_sm p) y t (tab 5 (fun _ => 0)) v law HX HDc (fun _ => Ld) (tab_length 5 _) (conj LQ NQ)) as DR.
      cbv beta zeta in DR. rewrite WD in DR.
      assert (Lw : List.length (pb_w_veccp_sm p) = 3%nat) by (rewrite Ew; reflexivity).
      specialize (DR Lw).
      assert (H1 : forall tau k, List.length tau = sg_nslip (pb_sg p) -> (k < sg_nslip (pb_sg p))%nat ->
          get (fst (fst (k_evalGdots (pb_kin p) tau (pb_kin_vals p)))) k = law k (get tau k)).
      { intros tau k _ Hk. rewrite Ens in Hk. rewrite TL, get_tab by assumption. reflexivity. }
      assert (H2 : forall k, (k < sg_nslip (pb_sg p))%nat -> D (law k) (get (ev_taua (evalEv p (y t))) k) (get (ev_dgdot_dtau (evalEv p (y t))) k)).
      { intros k Hk. rewrite Ens in Hk. change (ev_dgdot_dtau (evalEv p (y t))) with (snd (fst (k_evalGdots (pb_kin p) (ev_taua (evalEv p (y t))) (pb_kin_vals p)))).
        apply TD; [exact Hk|]. rewrite TT by exact Hk. rewrite Ey. now apply Hok. }
      assert (H3 : / 10 ^ 9 <= norm3 (toV3 (ev_xi (evalEv p (y t))))) by (rewrite TR, Ey; exact Hrot).
      specialize (DR H1 H2 H3 j Hj).
      set (sj := if Nat.ltb j 5 then pb_epsdot_scale_inv p else pb_rotincr_scale_inv p).
      assert (DE : D (fun u => nth j (residual p (y u)) 0) t (sj * (sum 8 (fun j0 => get2 8 (jacobian0 p (evalEv p (y t))) j j0 * (sc j0 * get v j0))))).
      { apply (D_ext (fun u => sj * res0 p (y u) j)).
        - intros u. symmetry. apply (residual_res0 p (y u) j Hj).
        - apply D_scal. eapply D_eq; [exact DR|]. destruct (Nat.ltb j 5); [|ring]. rewrite (sum_zero 5); [ring|]. intros k Hk. rewrite get_tab by assumption. ring. }
      eapply D_eq; [exact DE|]. rewrite sum_fold. rewrite <- (sum_fold 8 (fun k => nth (j * 8 + k) (jacobian p x) 0 * nth k v 0)), <- sum_fold.
      rewrite <- sum_scal_l. apply sum_ext. intros k Hk. change (nth (j * 8 + k) (jacobian p x) 0) with (get2 8 (jacobian p x) j k). rewrite jac0_get by assumption.
      fold sj. rewrite Ey. change (nth k v 0) with (get v k). ring.
  Qed.
  Lemma call_jac : 0 < b_dt b -> SpecTensor.norm2 (quat s m i) <> 0 -> trace (devRate s m i) = 0 ->
    exists (f : list R -> list R * list R) (C0 : M3), rotates (unit4 (quat s m i)) C0 /\
    (let r := b_solver b 8%nat f (nth 2 pars 0) 200%nat [0; 0; 0; 0; 0; 0; 0; 0] in
     so_converged r = true /\ dev_strain s m1 i = trial_strain (dev_strain s m i) (so_x r) /\ rotates (quat s m1 i) (trial_turn C0 (so_x r))) /\
    (forall x, fst (f x) = trial_eqs c pars b i md sd law ref C0 x) /\
    (forall x, / 10 ^ 9 <= norm3 (trial_rot x) -> (forall k, (k < c_nslip c)%nat -> ok k (trial_tau c pars b i md sd x k)) -> jac_exact 8 f x).
  Proof.
    intros Hdt Hq HT. destruct (call_jac_full Hdt Hq HT) as (p & C0 & _ & H). exists (computeRJ p), C0. exact H.
  Qed.
End CJ.
