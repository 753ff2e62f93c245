(** Doubles: the slip rates stored by the Voce models are finite. *)
From Coq Require Import List ZArith Bool Lia PeanoNat Reals Lra Psatz.
From Flocq Require Import Core IEEE754.BinarySingleNaN.
From Verif Require Import Num Arr NumR Util SlipGeom Eos Hard KinVoce Elast Evptn MatModel Cases Const
  P_Sngl P_Batch P_Batch2 P_Batch3 P_Api P_Builtin SpecApi P_Gen NumD SpecTensor SpecSlip SpecDblGeom P_Slip P_Dbl P_Dbl2 P_Dbl3 P_Dbl4 P_Dbl5 P_Dbl6 P_Dbl7 P_Dbl8 P_Dbl9 P_Dbl10 SpecDbl SpecDblFin P_Dbl13 P_Dbl14 P_Dbl15 P_Dbl16 P_Dbl17.
Import ListNotations.
Local Open Scope R_scope.

Lemma unit_le (u : V3) : dotv u u = 1 -> Rabs (v0 u) <= 1 /\ Rabs (v1 u) <= 1 /\ Rabs (v2 u) <= 1.
Proof.
  unfold dotv. intros H. assert (Q : forall x, x * x <= 1 -> Rabs x <= 1). { intros x Hx. apply abs_le. nra. }
  pose proof (Rle_0_sqr (v0 u)). pose proof (Rle_0_sqr (v1 u)). pose proof (Rle_0_sqr (v2 u)). unfold Rsqr in *. repeat split; apply Q; lra.
Qed.
Lemma prod_le x y : Rabs x <= 1 -> Rabs y <= 1 -> Rabs (x * y) <= 1.
Proof. intros A B. rewrite Rabs_mult. pose proof (Rabs_pos x). pose proof (Rabs_pos y). nra. Qed.
Lemma basis_le k : (k < 5)%nat -> let B := basis k in Rabs (a00 B) <= 1 /\ Rabs (a01 B) <= 1 /\ Rabs (a02 B) <= 1 /\ Rabs (a10 B) <= 1 /\ Rabs (a11 B) <= 1 /\ Rabs (a12 B) <= 1 /\
  Rabs (a20 B) <= 1 /\ Rabs (a21 B) <= 1 /\ Rabs (a22 B) <= 1.
Proof.
  intros Hk. cbv zeta.
  assert (I2 : 0 < / sqrt 2 <= 1). { split; [apply Rinv_0_lt_compat, sqrt_lt_R0; lra|]. rewrite <- Rinv_1. apply Rinv_le_contravar; [lra|]. rewrite <- sqrt_1 at 1. apply sqrt_le_1_alt. lra. }
  assert (I6 : 0 < / sqrt 6 <= / 2). { split; [apply Rinv_0_lt_compat, sqrt_lt_R0; lra|]. apply Rinv_le_contravar; [lra|]. rewrite <- (sqrt_Rsqr 2) at 1 by lra. apply sqrt_le_1_alt. unfold Rsqr. lra. }
  set (s2 := / sqrt 2) in *. set (s6 := / sqrt 6) in *.
  destruct k as [|[|[|[|[|k]]]]]; [| | | | |lia]; cbn [basis scal3 a00 a01 a02 a10 a11 a12 a20 a21 a22]; fold s2; fold s6; clearbody s2 s6; repeat split; apply abs_le; lra.
Qed.
Lemma inner_le A B : (Rabs (a00 A) <= 1 /\ Rabs (a01 A) <= 1 /\ Rabs (a02 A) <= 1 /\ Rabs (a10 A) <= 1 /\ Rabs (a11 A) <= 1 /\ Rabs (a12 A) <= 1 /\ Rabs (a20 A) <= 1 /\ Rabs (a21 A) <= 1 /\ Rabs (a22 A) <= 1) ->
  (Rabs (a00 B) <= 1 /\ Rabs (a01 B) <= 1 /\ Rabs (a02 B) <= 1 /\ Rabs (a10 B) <= 1 /\ Rabs (a11 B) <= 1 /\ Rabs (a12 B) <= 1 /\ Rabs (a20 B) <= 1 /\ Rabs (a21 B) <= 1 /\ Rabs (a22 B) <= 1) ->
  Rabs (inner A B) <= 9.
Proof.
  intros (A1 & A2 & A3 & A4 & A5 & A6 & A7 & A8 & A9) (B1 & B2 & B3 & B4 & B5 & B6 & B7 & B8 & B9). unfold inner.
  pose proof (prod_le _ _ A1 B1) as P1. pose proof (prod_le _ _ A2 B2) as P2. pose proof (prod_le _ _ A3 B3) as P3. pose proof (prod_le _ _ A4 B4) as P4. pose proof (prod_le _ _ A5 B5) as P5.
  pose proof (prod_le _ _ A6 B6) as P6. pose proof (prod_le _ _ A7 B7) as P7. pose proof (prod_le _ _ A8 B8) as P8. pose proof (prod_le _ _ A9 B9) as P9.
  apply abs_le in P1, P2, P3, P4, P5, P6, P7, P8, P9. apply abs_le. lra.
Qed.
Lemma schmid_mag e P Q n m s : e <= 1 -> schmid_near e P Q n m s -> legal_systems n m s ->
  forall i k, (i < n)%nat -> (k < 5)%nat -> mag (nth (k * n + i) P B754_nan) 4.
Proof.
  intros HE (_ & _ & H) (U & _) i k Hi Hk. destruct (H i Hi) as [HP _]. destruct (HP k Hk) as [F W]. split; [exact F|]. change (bpow radix2 4) with 16.
  destruct (U i Hi) as (U1 & U2 & _). apply unit_le in U1, U2. destruct U1 as (M1 & M2 & M3). destruct U2 as (S1 & S2 & S3).
  assert (I : Rabs (inner (symp (outer (s i) (m i))) (basis k)) <= 9).
  { apply inner_le; [|now apply basis_le]. unfold symp, scal3, add3, tr3, outer. cbn [a00 a01 a02 a10 a11 a12 a20 a21 a22].
    pose proof (prod_le _ _ S1 M1) as P1. pose proof (prod_le _ _ S1 M2) as P2. pose proof (prod_le _ _ S1 M3) as P3. pose proof (prod_le _ _ S2 M1) as P4. pose proof (prod_le _ _ S2 M2) as P5.
    pose proof (prod_le _ _ S2 M3) as P6. pose proof (prod_le _ _ S3 M1) as P7. pose proof (prod_le _ _ S3 M2) as P8. pose proof (prod_le _ _ S3 M3) as P9.
    apply abs_le in P1, P2, P3, P4, P5, P6, P7, P8, P9. repeat split; apply abs_le; lra. }
  set (X := inner _ _) in *. clearbody X. apply abs_le in I, W. apply abs_le. lra.
Qed.

Section L.
  Variable L : Libm.
  Let DN : Num dbl := DNum L.
  #[local] Existing Instance DN.
  Hypothesis TR : trig_ok L.
  Hypothesis LM : libm_ok L.

  Lemma T_mag p e v : el_mag (pb_el p) -> pb_detV p = v -> fin v -> bpow radix2 (- (10)) <= B2R v <= bpow radix2 10 ->
    pb_a_V p = npow v onethird -> pb_a_V_ri p = (nZ 1 / npow v onethird)%num ->
    mag (pb_p_EOS p) 310 -> mag (pb_eVref p) 205 -> (forall k, (k < 5)%nat -> mag (get e k) 335) ->
    forall i, (i < 6)%nat -> mag (get (elastNEtoT p e) i) 580.
  Proof.
    intros EL EV FV BV EA EAR HP HV HE i Hi.
    destruct (aV_mag L LM v FV BV) as [FA BA]. change (lm_pow L v onethird) with (npow v onethird) in FA, BA.
    pose proof (log_mag L LM _ FA BA) as LG. change (lm_log L (npow v onethird)) with (nlog (npow v onethird)) in LG.
    set (a := npow v onethird) in *. clearbody a.
    assert (AR : mag (nZ 1 / a)%num 14).
    { apply (mag_div _ _ 3 (- (11))); [apply mag_Z2D; lia|exact FA|apply Rle_trans with (1 := proj1 BA); apply Rle_abs|unfold okz; lia]. }
    rewrite <- EAR in AR. rewrite <- EA in LG.
    unfold elastNEtoT. cbv zeta. apply (eval_mag L LM); try assumption; [reflexivity| |].
    - intros k Hk. rewrite get_app1 by (exact Hk). unfold vecsVxa. rewrite get_tab by exact Hk.
      pose proof (HE k Hk) as HEk. cbn [nmul DN DNum]. mgt.
    - change (mag (sqr3 * nlog (pb_a_V p))%num 6). eapply mag_le; [eapply mag_mul; [apply mag_sqr3|exact LG|unfold okz; lia]|lia].
  Qed.

  Lemma voce_parts hs c s pars : voce_class L hs c -> in_use c s pars ->
    exists nl mat tol, mm_ready s = Some (mat, tol) /\ c_nH c = 1%nat /\ c_nslip c = 12%nat /\ sg_nslip (m_sg mat) = 12%nat /\
      m_kin mat = voce_kinetics hs (voce_setParams nl (sub pars 6 (c_kinNP c))) 12 /\ (9 <= c_kinNP c)%nat /\
      (forall i k, (i < 12)%nat -> (k < 5)%nat -> mag (nth (k * 12 + i) (sg_P (m_sg mat)) B754_nan) 4).
  Proof.
    intros HC HU. destruct HU as [s0 o pars' st s1 ops HR HI HF].
    destruct (init_done _ _ _ _ _ _ HI) as ((HL & _) & a & (P1 & P2 & P3 & P4) & _ & ES).
    assert (RD : mm_ready (fst (mm_run c s1 ops)) = Some ({| m_sg := pa_sg a; m_kin := pa_kin a; m_el := pa_el a; m_eos := parts_eos c pars' a |}, get pars' 2)).
    { destruct (run_harmless c ops s1 HF) as (E & _). rewrite E, ES. reflexivity. }
    assert (T1 : / 10 ^ 14 <= 1) by (rewrite <- Rinv_1; apply Rinv_le_contravar; [lra|]; apply pow_R1_Rle; lra).
    assert (FC : c_sgSet c (sub pars' 3 (c_sgNP c)) = slipGeomFCC -> sg_nslip (pa_sg a) = 12%nat /\ forall i k, (i < 12)%nat -> (k < 5)%nat -> mag (nth (k * 12 + i) (sg_P (pa_sg a)) B754_nan) 4).
    { intros E. rewrite E in P1. destruct (dgeom_fcc L) as (g & G1 & G2 & G3). change (DNum L) with DN in G1. rewrite P1 in G1. assert (EG : pa_sg a = g) by congruence. rewrite EG. split; [exact G2|].
      destruct geom_fcc as (_ & _ & _ & _ & LG). apply (schmid_mag _ _ _ _ _ _ T1 G3 LG). }
    assert (BC : c_sgSet c (sub pars' 3 (c_sgNP c)) = slipGeomBCC 12 -> sg_nslip (pa_sg a) = 12%nat /\ forall i k, (i < 12)%nat -> (k < 5)%nat -> mag (nth (k * 12 + i) (sg_P (pa_sg a)) B754_nan) 4).
    { intros E. rewrite E in P1. destruct (dgeom_bcc L 12 ltac:(auto)) as (g & G1 & G2 & G3). change (DNum L) with DN in G1. rewrite P1 in G1. assert (EG : pa_sg a = g) by congruence. rewrite EG. split; [exact G2|].
      destruct (geom_bcc 12 ltac:(auto)) as (_ & _ & _ & _ & LG). apply (schmid_mag _ _ _ _ _ _ T1 G3 LG). }
    clear P1 HI ES HR.
    assert (KV : forall nl, c_sgNP c = 0%nat -> c_elNP c = 3%nat -> c_kinSet c = kinVoce hs nl 12 -> pa_kin a = voce_kinetics hs (voce_setParams nl (sub pars' 6 (c_kinNP c))) 12).
    { intros nl E1 E2 E3. rewrite E1, E2, E3 in P3. unfold kinVoce in P3. cbv zeta in P3. apply (f_equal (fun z => match z with Some q => fst q | None => pa_kin a end)) in P3. cbn [fst] in P3. symmetry. exact P3. }
    assert (H4 : exists nl, c_nH c = 1%nat /\ c_nslip c = 12%nat /\ (9 <= c_kinNP c)%nat /\ pa_kin a = voce_kinetics hs (voce_setParams nl (sub pars' 6 (c_kinNP c))) 12 /\
      sg_nslip (pa_sg a) = 12%nat /\ forall i k, (i < 12)%nat -> (k < 5)%nat -> mag (nth (k * 12 + i) (sg_P (pa_sg a)) B754_nan) 4).
    { destruct HC as [EC|[EC|[EC|EC]]].
      - exists false. split; [rewrite EC; reflexivity|]. split; [rewrite EC; reflexivity|]. split; [rewrite EC; cbn; lia|]. split; [apply KV; rewrite EC; reflexivity|]. apply FC. rewrite EC. reflexivity.
      - exists true. split; [rewrite EC; reflexivity|]. split; [rewrite EC; reflexivity|]. split; [rewrite EC; cbn; lia|]. split; [apply KV; rewrite EC; reflexivity|]. apply FC. rewrite EC. reflexivity.
      - exists false. split; [rewrite EC; reflexivity|]. split; [rewrite EC; reflexivity|]. split; [rewrite EC; cbn; lia|]. split; [apply KV; rewrite EC; reflexivity|]. apply BC. rewrite EC. reflexivity.
      - exists true. split; [rewrite EC; reflexivity|]. split; [rewrite EC; reflexivity|]. split; [rewrite EC; cbn; lia|]. split; [apply KV; rewrite EC; reflexivity|]. apply BC. rewrite EC. reflexivity. }
    destruct H4 as (nl & A1 & A2 & A3 & A4 & A5 & A6). exists nl. do 2 eexists. split; [exact RD|]. cbn [m_sg m_kin]. exact (conj A1 (conj A2 (conj A5 (conj A4 (conj A3 A6))))).
  Qed.

  Lemma xl_mag solver : moderate_last solver -> forall f tol it x0 k, let r := solver 8%nat f tol it x0 in so_converged r = true -> (k < 8)%nat -> mag (get (so_xlast r) k) 333.
  Proof.
    intros HM f tol it x0 k. cbv zeta. intros HC Hk. destruct (HM _ _ _ _ _ HC) as [HL HF].
    assert (IN : In (get (so_xlast (solver 8%nat f tol it x0)) k) (so_xlast (solver 8%nat f tol it x0))) by (apply nth_In; rewrite HL; exact Hk).
    rewrite Forall_forall in HF. destruct (HF _ IN) as [A B]. split; [exact A|]. exact (Rle_trans _ _ _ B pow100_333).
  Qed.

  Lemma dcall_rates hs c b i pars : dgood L hs c b -> (i < d_n b)%nat -> voce_class L hs c -> in_use c (d_s b) pars ->
    moderate_params c pars -> moderate_rates pars -> moderate_point b i -> moderate_answers (d_solver b) -> moderate_last (d_solver b) ->
    let o := dval (d_s b) (d_m1 b) in
    is_finite (o AH i 13%nat) = true -> / 10 ^ 30 <= B2R (o AH i 13%nat) ->
    moderate (dval (d_s b) (d_m b) AH i 1) ->
    (forall k, (k < 12)%nat -> fin (o AH i (14 + k)%nat)) /\ fin (o AH i 0%nat) /\ fin (o AH i 1%nat).
  Proof.
    intros G Hi HC HU MP MR MI HA HL. cbv zeta. intros Fh Bh Ma.
    destruct (use_mag L hs c (d_s b) pars (proj1 G) HU MP) as (mat' & tol' & HM' & EL & EO).
    destruct (voce_parts hs c (d_s b) pars HC HU) as (nl & mat2 & tol2 & HM2 & N1 & N2 & N3 & KE & KP & PM).
    change (DNum L) with DN in HM'. rewrite HM2 in HM'. assert (EM : mat' = mat2) by congruence. subst mat'. clear HM'.
    destruct (dres L hs c b i G Hi) as (mat & tol & h_u & p & r & v & nf & gm & HM & _ & HP & HR & Rs).
    change (DNum L) with DN in HM. rewrite HM2 in HM. assert (EM : mat2 = mat) by congruence. subst mat2. clear HM HM2.
    set (ptn := pt_of c (d_s b) (d_mtan b) (d_m b) i) in *. set (pto := pt_of c (d_s b) (d_mtan b) (d_m1 b) i) in *.
    set (cD := cell_of c (d_s b) (d_mtan b) (d_m b) AD i) in *. set (cW := cell_of c (d_s b) (d_mtan b) (d_m b) AW i) in *. set (cV := cell_of c (d_s b) (d_mtan b) (d_m b) AV i) in *.
    pose proof (g_conv _ _ _ _ _ _ _ _ _ _ _ _ _ _ Rs) as CV. pose proof (g_v _ _ _ _ _ _ _ _ _ _ _ _ _ _ Rs) as GV.
    pose proof (g_H _ _ _ _ _ _ _ _ _ _ _ _ _ _ Rs) as GH. pose proof (g_G _ _ _ _ _ _ _ _ _ _ _ _ _ _ Rs) as GG.
    pose proof (g_shrateEff _ _ _ _ _ _ _ _ _ _ _ _ _ _ Rs) as GS. pose proof (g_shrEff _ _ _ _ _ _ _ _ _ _ _ _ _ _ Rs) as GA. clear Rs.
    pose proof (fun a k => dv_in L hs c b i G Hi a k) as VI. pose proof (fun a k => dv_out L hs c b i G Hi a k) as VO. cbv beta in VI, VO.
    assert (VH : forall k, (k < 26)%nat -> get (pt_hist pto) k = dval (d_s b) (d_m1 b) AH i k).
    { intros k Hk. apply (VO AH). cbn [per_point]. rewrite N1, N2. cbn. lia. }
    assert (Iv : forall k, (k < 2)%nat -> fin (get cV k) /\ bpow radix2 (- (10)) <= B2R (get cV k) <= bpow radix2 10).
    { intros k Hk. unfold cV. rewrite (VI AV) by (cbn; lia). destruct (mp_v _ _ MI k Hk) as [A B]. split; [exact A|now apply vol_range]. }
    assert (Iw : mag (get cV 3) 100). { unfold cV. rewrite (VI AV) by (cbn; lia). apply moderate_mag. apply (mp_dv _ _ MI). }
    assert (Ie : mag (get (pt_eInt ptn) 0) 100). { unfold ptn, pt_of, pt_at. cbn [pt_eInt]. change (mag (get (cell_of c (d_s b) (d_mtan b) (d_m b) AE i) 0) 100). rewrite (VI AE) by (cbn; lia). apply moderate_mag. apply (mp_e _ _ MI). }
    assert (Is : forall k, (k < 7)%nat -> mag (get (pt_stress ptn) k) 100).
    { intros k Hk. unfold ptn, pt_of, pt_at. cbn [pt_stress]. change (mag (get (cell_of c (d_s b) (d_mtan b) (d_m b) AS i) k) 100). rewrite (VI AS) by (cbn; lia). apply moderate_mag. now apply (mp_s _ _ MI). }
    assert (Ih : forall k, (k < 5)%nat -> mag (get (sub (pt_hist ptn) iHistLbE 5) k) 100).
    { intros k Hk. rewrite get_sub by exact Hk. rewrite (dhist_in L hs c b i G Hi) by (unfold iHistLbE; lia). apply moderate_mag. now apply (mp_el _ _ MI). }
    assert (Ia : mag (get (pt_hist ptn) 1) 100). { unfold ptn. rewrite (dhist_in L hs c b i G Hi) by lia. now apply moderate_mag. }
    destruct (Iv 1%nat ltac:(lia)) as [Fv1 Bv1].
    destruct (upd_mag L (m_eos mat) (get cV 1) (get cV 3) (get (pt_eInt ptn) 0) (get (pt_stress ptn) 6) EO Fv1 Bv1 Iw Ie (Is 6%nat ltac:(lia))) as (UE & UP & UB).
    cbv zeta in UE, UP, UB. change (DNum L) with DN in UE, UP, UB.
    change (updateSimple (m_eos mat) (get cV 1) (get cV 3) (get (pt_eInt ptn) 0) (get (pt_stress ptn) 6)) with (snglUpd mat cV (pt_eInt ptn) (pt_stress ptn)) in UE, UP, UB.
    set (u := snglUpd mat cV (pt_eInt ptn) (pt_stress ptn)) in *.
    (* the hardness *)
    rewrite KE in GH, GG. cbn [k_nH voce_kinetics] in GH, GG. rewrite N3 in GG.
    assert (HH : get h_u 0 = dval (d_s b) (d_m1 b) AH i 13%nat). { rewrite <- GH, get_sub by lia. unfold iHistLbH. cbn [Nat.add]. apply VH. lia. }
    assert (BG : bpow radix2 (-100) <= B2R (get h_u 0)).
    { rewrite HH. refine (Rle_trans _ _ _ _ Bh). change (bpow radix2 (-100)) with (/ IZR (2 ^ 100)). apply Rinv_le_contravar; [apply pow_lt; lra|]. rewrite (pow_IZR 10 30). apply IZR_le. vm_compute. discriminate. }
    rewrite <- HH in Fh.
    (* the point of the last evaluation *)
    set (xv := match pt_mtan ptn with None => so_xlast r | Some _ => so_x r end) in *.
    assert (XM : forall k, (k < 8)%nat -> mag (get xv k) 333).
    { intros k Hk. unfold xv. destruct (pt_mtan ptn); rewrite HR in CV |- *; [now apply (x_mag L (d_solver b) HA)|now apply (xl_mag (d_solver b) HL)]. }
    clearbody xv. clear HR CV.
    assert (PE : pb_e_vecd_n p = sub (pt_hist ptn) iHistLbE 5) by (rewrite HP; reflexivity).
    pose proof (state_mag L p xv XM ltac:(rewrite PE; exact Ih)) as SM. change (DNum L) with DN in SM.
    change (fst (stateFromX p xv)) with (ev_e_f (evalEv p xv)) in SM.
    assert (TM : forall k, (k < 6)%nat -> mag (get (ev_T (evalEv p xv)) k) 580).
    { apply (T_mag p _ (get cV 1)); try assumption; rewrite HP; try reflexivity; assumption. }
    assert (PK : pb_kin p = m_kin mat) by (rewrite HP; reflexivity). assert (PS : pb_sg p = m_sg mat) by (rewrite HP; reflexivity).
    assert (PV : pb_kin_vals p = [get h_u 0]). { rewrite HP. unfold snglProb. cbv zeta. cbn [pb_kin_vals]. rewrite KE. reflexivity. }
    assert (TA : forall k, (k < 12)%nat -> mag (get (ev_taua (evalEv p xv)) k) 600).
    { intros k Hk. change (ev_taua (evalEv p xv)) with (vecsVaTM 5 (sg_nslip (pb_sg p)) (ev_T (evalEv p xv)) (sg_P (pb_sg p))).
      unfold vecsVaTM. rewrite PS, N3, get_tab by exact Hk. eapply mag_le; [|instantiate (1 := (580 + 4 + Z.of_nat 5)%Z); cbn; lia].
      apply (mag_dot L 5 (fun j => get (ev_T (evalEv p xv)) j) (fun j => get2 12 (sg_P (m_sg mat)) j k)); [lia|cbn; lia|].
      intros j Hj. split; [apply TM; lia|]. apply PM; lia. }
    assert (GD : ev_gdot v = tab 12 (fun k => fst (fst (fst (voce_evalGdot (voce_setParams nl (sub pars 6 (c_kinNP c))) (get h_u 0) (get (ev_taua (evalEv p xv)) k)))))).
    { rewrite GV. change (ev_gdot (evalEv p xv)) with (fst (fst (k_evalGdots (pb_kin p) (ev_taua (evalEv p xv)) (pb_kin_vals p)))). rewrite PK, PV, KE. reflexivity. }
    destruct MR as [[Fm Bm] Mg].
    assert (MG : forall k, (k < 12)%nat -> mag (get (ev_gdot v) k) 730).
    { intros k Hk. rewrite GD, get_tab by exact Hk. apply (voce_rate_mag L LM).
      - rewrite get_sub by lia. exact Fm.
      - rewrite get_sub by lia. exact Bm.
      - rewrite get_sub by lia. apply moderate_mag. exact Mg.
      - exact Fh.
      - exact BG.
      - now apply TA. }
    assert (MS : mag (ev_shrateEff v) 742).
    { assert (E : ev_shrateEff v = vecsssumabs (sg_nslip (pb_sg p)) (ev_gdot v)) by (rewrite GV; reflexivity). rewrite E, PS, N3.
      apply (mag_sum L 12 _ 730); [lia|cbn; lia|]. intros k Hk. apply mag_abs. now apply MG. }
    split; [|split].
    - intros k Hk. rewrite <- VH by lia. assert (E : get (sub (pt_hist pto) (iHistLbGdot 1) 12) k = get (ev_gdot v) k) by (rewrite <- GG; reflexivity).
      rewrite get_sub in E by exact Hk. change (iHistLbGdot 1 + k)%nat with (14 + k)%nat in E. rewrite E. apply MG. exact Hk.
    - rewrite <- VH by lia. exact (eq_ind_r (fun z => fin z) (proj1 MS) GS).
    - rewrite <- VH by lia. refine (eq_ind_r (fun z => fin z) _ GA).
      pose proof (moderate_mag _ (mp_dt _ _ MI)) as DT. change (get (pt_hist ptn) iHistA_shrEff) with (get (pt_hist ptn) 1). cbn [nadd nmul DN DNum].
      set (w := ev_shrateEff v) in *. set (a := get (pt_hist ptn) 1) in *. set (dt := d_dt b) in *. clearbody w a dt.
      assert (X : mag (Bplus mode_NE a (Bmult mode_NE w dt)) 900) by mgt. apply X.
  Qed.
End L.
