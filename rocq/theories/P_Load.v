(** First loading of an unstrained crystal below the thresholds of slip (C73). *)
From Coq Require Import List ZArith Bool Lia PeanoNat Reals Lra String.
From Verif Require Import Num Arr NumR Util SlipGeom Eos Hard KinVoce KinKMBalD Elast Evptn MatModel Cases SpecTensor
  SpecElast SpecSlip P_Tensor P_Elast P_Eos P_Sngl P_Sngl2 P_Sngl3 P_Batch P_Batch2 P_Batch3 P_Batch4 P_Api P_Builtin SpecApi P_Hist SpecStress P_Stress
  SpecKin SpecKinApi SpecStep SpecEnergy P_KinV P_Hard P_Kin4 P_Call P_Slip P_SlipH P_Demo P_Demo2 P_Demo3 P_Step P_Step2 P_Step3 P_Energy P_Rest P_Rigid
  P_Rigid2 P_Rigid3 P_Rigid4 SpecElastic P_Elastic.
Import ListNotations.
Local Open Scope R_scope.

Lemma e_scale_val : e_scale = 5 / 10000 :> R.
Proof. unfold e_scale. cbn. lra. Qed.
Lemma turn_0 : turn (mkV 0 0 0) = I3.
Proof. unfold turn. rewrite norm3_0. destruct (Rlt_dec _ _) as [N|_]; [pose proof tiny_pos; lra|]. apply rodrigues_0. Qed.
Lemma comm_self x A : commutator (scal3 x A) A = Z3.
Proof. unfold commutator, sub3. un3. meq; ring. Qed.
Lemma scal_cancel a t B : 0 < a -> scal3 (/ a) (scal3 (a * t) B) = scal3 t B.
Proof. intros P. un3. meq; field; lra. Qed.
Lemma scal_rate a t B : t <> 0 -> scal3 (/ t) (scal3 (a * t) B) = scal3 a B.
Proof. intros P. un3. meq; field; assumption. Qed.
Lemma scal_gap a B : 0 < a -> sub3 (scal3 (/ a) (scal3 a B)) B = Z3.
Proof. intros P. un3. meq; field; lra. Qed.
Lemma comm_scal x y A : commutator (scal3 x A) (scal3 y A) = Z3.
Proof. unfold commutator, sub3. un3. meq; ring. Qed.
Lemma map5 f : map f (seq 0 5) ++ [0; 0; 0] = [f 0%nat; f 1%nat; f 2%nat; f 3%nat; f 4%nat; 0; 0; 0 : R].
Proof. reflexivity. Qed.

Lemma load_list y A : is_dev A -> ten5 (map (fun k => y * inner A (basis k)) (seq 0 5)) = scal3 y A.
Proof.
  intros [S T]. transitivity (scal3 y (ten5 (vec5 A))).
  - unfold vec5. cbn [map seq]. generalize (inner A (basis 0)), (inner A (basis 1)), (inner A (basis 2)), (inner A (basis 3)), (inner A (basis 4)). clear. intros.
    unfold ten5, basis. cbn [nth]. set (u := / sqrt 2). set (w := / sqrt 6). clearbody u w. spec3. meq; ring.
  - f_equal. rewrite ten5_vec5 by exact S. clear - T. unfold dev3. rewrite T. un3. meq; field.
Qed.

Section Load.
  Variables (p : Prob R) (hs : Solver R) (c : MClass R) (pars : list R) (D : M3) (md sd : nat -> V3) (law : nat -> R -> R).
  Hypothesis HB : builtin hs c.
  Hypothesis HL : List.length pars = mm_nParams c.
  Hypothesis Hel : pb_el p = el_of c pars.
  Hypothesis Hv : 0 < pb_detV p.
  Hypothesis Ha : pb_a_V p = Rpow (pb_detV p) (1 / 3).
  Hypothesis Har : pb_a_V_ri p = 1 / pb_a_V p.
  Hypothesis Hdt : pb_dt_ri p = 1 / pb_dt p.
  Hypothesis Hdt0 : pb_dt p <> 0.
  Hypothesis Hn : sg_nslip (pb_sg p) = c_nslip c.
  Hypothesis SD : schmid_data (sg_P (pb_sg p)) (sg_Q (pb_sg p)) (c_nslip c) md sd.
  Hypothesis SL : legal_systems (c_nslip c) md sd.
  Hypothesis HG : forall tau, fst (fst (k_evalGdots (pb_kin p) tau (pb_kin_vals p))) = tab (c_nslip c) (fun k => law k (get tau k)).
  Hypothesis HQ : List.length (pb_Cn_quat p) = 4%nat /\ SpecTensor.norm2 (pb_Cn_quat p) = 1.
  Hypothesis HE : pb_e_vecd_n p = [0; 0; 0; 0; 0].
  Hypothesis HD : is_dev D.
  Hypothesis Hd : pb_d_vecd_sm p = vec5 D.
  Hypothesis Hw : pb_w_veccp_sm p = ofV3 (mkV 0 0 0).
  Let C0 := rotq (pb_Cn_quat p).
  Let B := cong (tr3 C0) D.
  Let a := Rpower (pb_detV p) (1 / 3).
  Let x := load_x (pb_dt p) (pb_detV p) C0 D.
  Hypothesis HZ : forall k, (k < c_nslip c)%nat -> law k (resolved c pars (pb_detV p) (pb_eVref p) (load_strain (pb_dt p) (pb_detV p) C0 D) (sd k) (md k)) = 0.

  Lemma load_C0 : is_rot C0. Proof. exact (rotq_rot _ (proj1 HQ) (proj2 HQ)). Qed.
  Lemma load_B : is_dev B. Proof. apply cong_dev; [apply orth_tr, load_C0|exact HD]. Qed.
  Lemma load_e : ev_e_f (evalEv p x) = map (fun k => a * pb_dt p * inner B (basis k)) (seq 0 5).
  Proof.
    unfold evalEv. cbn [ev_e_f]. rewrite HE. unfold x, load_x. rewrite map5. fold B a. generalize (fun k => inner B (basis k)). intros f.
    unfold x_e, vecsVapb, vecsVxa, tab, sub. cbn [map seq skipn firstn get nth]. rewrite e_scale_val. unfold get. cbn [nth]. rops. clear. clearbody a. meq; field.
  Qed.
  Lemma load_ten : ten5 (ev_e_f (evalEv p x)) = scal3 (a * pb_dt p) B.
  Proof.
    rewrite load_e. exact (load_list (a * pb_dt p) B load_B).
  Qed.
  Lemma load_xi : toV3 (ev_xi (evalEv p x)) = mkV 0 0 0.
  Proof.
    unfold evalEv. cbn [ev_xi]. unfold x, load_x. rewrite map5. unfold x_r, vecsVxa, tab, sub. cbn [map seq skipn firstn get nth toV3]. rops.
    unfold toV3, get. cbn [nth]. meq; ring.
  Qed.
  Lemma load_C : rotq (ev_C_quat (evalEv p x)) = C0.
  Proof. pose proof (ev_C_comp p HQ x) as CC. rewrite load_xi, turn_emap, turn_0 in CC. rewrite CC. apply SpecTensor.mul3_1r. Qed.
  Lemma load_gdot k : (k < c_nslip c)%nat -> get (ev_gdot (evalEv p x)) k = 0.
  Proof.
    intros Hk. rewrite ev_gdot_evalGdots, HG, get_tab by assumption. rewrite <- (HZ k Hk). f_equal.
    change (ev_taua (evalEv p x)) with (vecsVaTM 5 (sg_nslip (pb_sg p)) (elastNEtoT p (ev_e_f (evalEv p x))) (sg_P (pb_sg p))). rewrite Hn.
    destruct (kirchhoff_law p (ev_e_f (evalEv p x)) c pars hs HB HL Hel Hv Ha Har eq_refl) as [SS [y EX]]. rewrite EX.
    rewrite (resolve_law _ y _ _ _ md sd k SS SD SL Hk). clear EX SS. unfold resolved. f_equal. f_equal. f_equal. unfold load_strain. f_equal.
    rewrite load_ten. exact (scal_cancel a (pb_dt p) B (exp_pos _)).
  Qed.
  Lemma load_zero j : (j < 8)%nat -> get (residual p x) j = 0.
  Proof.
    intros Hj.
    assert (HaP : pb_a_V p = a) by (rewrite Ha, Rpow_pos by assumption; reflexivity).
    assert (P : 0 < a) by apply exp_pos. assert (Ha0 : pb_a_V p <> 0) by lra.
    assert (L5 : List.length (pb_e_vecd_n p) = 5%nat) by now rewrite HE.
    pose proof (res_strain p D (c_nslip c) sd md HD Hd Hn SD HQ L5 Hdt Hdt0 Har x) as RS.
    pose proof (res_spin p D (mkV 0 0 0) (c_nslip c) sd md Hd Hw Hn SD HQ L5 Hdt Hdt0 Har Ha0 x) as RW.
    rewrite load_ten, HE, ten5_0, load_xi, load_C, HaP in RW. rewrite load_ten, HE, ten5_0, load_C, HaP in RS.
    assert (ER : erate (pb_dt p) Z3 (scal3 (a * pb_dt p) B) = scal3 a B).
    { unfold erate. rewrite sub3_Z. now apply scal_rate. }
    destruct (Nat.lt_ge_cases j 5) as [H5|H5].
    - rewrite RS by assumption. unfold strain_gap. rewrite slip_zero by apply load_gdot. rewrite ER, add3_Z. fold B.
      assert (EZ : sub3 (scal3 (/ a) (scal3 a B)) B = Z3) by now apply scal_gap.
      rewrite EZ, inner_Zl. apply Rmult_0_r.
    - assert (EG : spin_gap (pb_dt p) a Z3 (scal3 (a * pb_dt p) B) C0 (mkV 0 0 0) (mkV 0 0 0) (c_nslip c) sd md (get (ev_gdot (evalEv p x))) = Z3).
      { unfold spin_gap. rewrite slip_zero by apply load_gdot. rewrite ER.
        assert (EC : commutator (scal3 a B) (scal3 (a * pb_dt p) B) = Z3) by apply comm_scal.
        rewrite EC, scal3_Z, sub3_Z.
        assert (AZ : axial (mkV 0 0 0) = Z3) by (unfold axial, Z3; cbn; meq; ring). rewrite AZ, cong_Z, add3_Z, scal3_Z, sub3_Z. reflexivity. }
      rewrite EG in RW. destruct RW as (W5 & W6 & W7). assert (Q : j = 5%nat \/ j = 6%nat \/ j = 7%nat) by lia.
      destruct Q as [-> | [-> | -> ]]; [rewrite W5|rewrite W6|rewrite W7]; apply Rmult_0_r.
  Qed.
End Load.

Section Point.
  Variables (hs : Solver R) (c : MClass R) (s : MM R) (pars : list R).
  Hypothesis HB : builtin hs c.
  Hypothesis HL : List.length pars = mm_nParams c.
  Variables (mtan : bool) (n : nat) (dt : R) (m : Mem R) (i : nat).
  Hypothesis HO : batch_ok c s mtan n m.
  Hypothesis Hi : (i < n)%nat.
  Variables (md sd : nat -> V3).
  Hypothesis HSys : systems hs c pars md sd.
  Hypothesis HKh : keeps_solution hs.
  Hypothesis Hdt : 0 < dt.
  Variable C : M3.
  Hypothesis HR : first_load hs c pars s m i dt md sd C.
  Variables (sg : SlipGeom R) (kin : Kinetics R) (hi : list (HistEntry R)).
  Hypothesis E1 : c_sgSet c (sub pars 3 (c_sgNP c)) = Some sg.
  Hypothesis E2 : c_kinSet c (sub pars (3 + c_sgNP c + c_elNP c) (c_kinNP c)) = Some (kin, hi).
  Let mat := mat_of c pars sg kin.
  Let h := [kept c pars (strength s m i)].
  Let p := snglProb mat dt (cell_of c s mtan m AD i) (cell_of c s mtan m AW i) (cell_of c s mtan m AV i) (pt_of c s mtan m i) h.
  Let pr := u_press (snglUpd mat (cell_of c s mtan m AV i) (pt_eInt (pt_of c s mtan m i)) (pt_stress (pt_of c s mtan m i))).
  Let tK := snglTkelv mat (cell_of c s mtan m AV i) (pt_eInt (pt_of c s mtan m i)).
  Let x0 : list R := load_x dt (vNew s m i) C (devRate s m i).
  Lemma load_point : (exists nh, k_updateH kin [strength s m i] dt (slip_rates c s m i) = Some (h, nh)) /\ k_valsOk kin pr tK h = true /\
    (forall j, (j < 8)%nat -> nth j (residual p x0) 0 = 0) /\
    ev_e_f (evalEv p x0) = map (fun k => Rpower (vNew s m i) (1 / 3) * dt * inner (cong (tr3 C) (devRate s m i)) (basis k)) (seq 0 5) /\ (forall k, (k < c_nslip c)%nat -> get (ev_gdot (evalEv p x0)) k = 0) /\
    rotq (ev_C_quat (evalEv p x0)) = rotq (unit4 (quat s m i)) /\
    pb_Cn_quat p = unit4 (quat s m i).
  Proof.
    destruct (builtin_parts hs c HB) as (Z1 & Z2 & _).
    pose proof (Z1 _ _ E1) as Hns. destruct (Z2 _ _ _ E2) as [HnH _].
    assert (NH : c_nH c = 1%nat) by (destruct HB as [ -> | [ -> | [ -> | [ -> | [ -> | [ -> | -> ]]]]]]; reflexivity). rewrite NH in HnH.
    destruct HR as (HD & HE & HG & Hv & HQ & Hh & HS0 & HC & law & ref & thr & HLaw & HTh & HN). cbv zeta in *.
    assert (VI : forall a k, (k < per_point (c_nH c) (c_nslip c) mtan a)%nat -> get (cell_of c s mtan m a i) k = val s m a i k)
      by (intros a k Hk; apply (cell_val c s mtan n m a i k); [apply HO|assumption|assumption]).
    destruct (rest_hard hs c pars _ (strength s m i) law ref kin hi dt (slip_rates c s m i) HLaw HL E2 HKh Hh) as ((nh & F1) & F2 & _).
    { unfold slip_rates. now rewrite map_length, seq_length. }
    { intros k Hk. change (slip_rates c s m i) with (tab (c_nslip c) (fun k => val s m AH i (14 + k))). rewrite get_tab by assumption. now apply HG. }
    split; [exists nh; exact F1|].
    assert (ET : tK = (eInt s m i - p_ec0 c pars) / p_cv pars).
    { unfold tK, snglTkelv, mat, mat_of, p_eos. cbn [m_eos]. unfold pt_of, pt_at. cbn [pt_eInt].
      change (cell (mm_strides s) (c_nH c) (c_nslip c) mtan m AE i) with (cell_of c s mtan m AE i).
      rewrite (VI AE 0%nat) by (cbn [per_point]; lia). fold (eInt s m i). unfold evalPT, eos_setParams. rarr. cbn. unfold Rdiv. ring. }
    rewrite ET. split; [apply F2|].
    assert (L4 : List.length (quat s m i) = 4%nat) by reflexivity.
    destruct (systems_data hs c pars md sd sg HSys HL E1) as [SD SL].
    destruct (law_data hs c pars _ _ law ref pr kin hi HLaw HL E2 (F2 pr)) as (R0 & R1 & R2).
    assert (LH : List.length (pt_hist (pt_of c s mtan m i)) = (14 + c_nslip c)%nat).
    { pose proof (P_Batch4.cell_len c mtan s n m AH i HO Hi) as L. cbn [per_point] in L. unfold numHist, iHistLbH in L. rewrite NH in L. exact L. }
    assert (VH : forall k, (k < 14 + c_nslip c)%nat -> get (pt_hist (pt_of c s mtan m i)) k = val s m AH i k).
    { intros k Hk. unfold pt_of, pt_at. cbn [pt_hist]. apply (VI AH k). cbn. unfold numHist, iHistLbH. lia. }
    assert (EQ : pb_Cn_quat p = unit4 (quat s m i)).
    { rewrite <- normalize_unit4 by assumption. change (pb_Cn_quat p) with (vecsVNormalize 4 (sub (pt_hist (pt_of c s mtan m i)) 9 4)). f_equal.
      apply list_get_ext; [rewrite sub_length by (rewrite LH; lia); reflexivity|]. intros k Hk.
      rewrite sub_length in Hk by (rewrite LH; lia). rewrite get_sub by lia. rewrite VH by lia. do 4 (destruct k as [|k]; [reflexivity|]); lia. }
    assert (EDV : pb_detV p = vNew s m i).
    { change (pb_detV p) with (get (cell_of c s mtan m AV i) 1). apply VI. cbn [per_point]. lia. }
    assert (Eev : pb_eVref p = eInt s m i - delv s m i * pres s m i).
    { unfold p, snglProb, mkProb, snglUpd, updateSimple. cbn [pb_eVref u_eNew].
      unfold pt_of, pt_at. cbn [pt_eInt pt_stress].
      change (cell (mm_strides s) (c_nH c) (c_nslip c) mtan m) with (cell_of c s mtan m).
      rewrite !VI by (cbn [per_point]; lia). reflexivity. }
    assert (HQ1 : List.length (pb_Cn_quat p) = 4%nat /\ SpecTensor.norm2 (pb_Cn_quat p) = 1) by (rewrite EQ; now apply unit4_unit).
    assert (HV1 : 0 < pb_detV p) by now rewrite EDV.
    assert (HG1 : forall tau, fst (fst (k_evalGdots (pb_kin p) tau (pb_kin_vals p))) = tab (c_nslip c) (fun k => law k (get tau k))).
    { intros tau. change (pb_kin p) with kin. change (pb_kin_vals p) with (fst (k_getVals kin pr tK h)). rewrite ET. apply R2. }
    assert (HZ1 : forall k, law k 0 = 0) by (intros k; exact (law_zero hs c pars _ _ law ref HLaw k)).
    assert (HE1 : pb_e_vecd_n p = [0; 0; 0; 0; 0]).
    { change (pb_e_vecd_n p) with (sub (pt_hist (pt_of c s mtan m i)) 4 5). apply zero5; [rewrite sub_length by (rewrite LH; lia); reflexivity|].
      rewrite <- HE. unfold dev_strain. f_equal.
      apply list_get_ext; [rewrite sub_length by (rewrite LH; lia); reflexivity|]. intros k Hk.
      rewrite sub_length in Hk by (rewrite LH; lia). rewrite get_sub by lia. rewrite VH by lia. do 5 (destruct k as [|k]; [reflexivity|]); lia. }
    assert (DD : is_dev (devRate s m i)) by (split; [reflexivity|exact HD]).
    assert (HD1 : pb_d_vecd_sm p = vec5 (devRate s m i)).
    { change (pb_d_vecd_sm p) with (svecToVecd (cell_of c s mtan m AD i)).
      assert (ED : sym6 (get (cell_of c s mtan m AD i)) = devRate s m i).
      { unfold devRate, sym6. rewrite !VI by (cbn [per_point]; lia). reflexivity. }
      rewrite svec_vec5 by (rewrite ED; exact HD). now rewrite ED. }
    assert (HW1 : pb_w_veccp_sm p = ofV3 (mkV 0 0 0)).
    { change (pb_w_veccp_sm p) with (cell_of c s mtan m AW i).
      pose proof (P_Batch4.cell_len c mtan s n m AW i HO Hi) as LW. cbn [per_point] in LW.
      rewrite <- HS0. unfold spin. rewrite <- !VI by (cbn [per_point]; lia).
      destruct (cell_of c s mtan m AW i) as [|? [|? [|? [|]]]]; try discriminate LW. reflexivity. }
    assert (HD0 : pb_dt p <> 0) by (change (pb_dt p) with dt; lra).
    assert (EC : C = rotq (pb_Cn_quat p)) by (rewrite EQ; apply rotates_rotq; [apply (unit4_unit _ L4 HQ)|exact HC]).
    assert (EX0 : x0 = load_x (pb_dt p) (pb_detV p) (rotq (pb_Cn_quat p)) (devRate s m i)) by (unfold x0; rewrite EDV, EC; reflexivity).
    assert (HZ2 : forall k, (k < c_nslip c)%nat ->
      law k (resolved c pars (pb_detV p) (pb_eVref p) (load_strain (pb_dt p) (pb_detV p) (rotq (pb_Cn_quat p)) (devRate s m i)) (sd k) (md k)) = 0).
    { intros k Hk. rewrite EDV, Eev, <- EC. exact (threshold_law hs c pars _ _ law ref thr HLaw HTh (kept_pos _ _ _ Hh) k _ Hk (HN k Hk)). }
    assert (X0 : x0 = load_x (pb_dt p) (pb_detV p) (rotq (pb_Cn_quat p)) (devRate s m i)) by exact EX0. rewrite X0. clear X0.
    split; [|split; [|split; [|split]]].
    - intros j Hj. exact (load_zero p hs c pars (devRate s m i) md sd law HB HL eq_refl HV1 eq_refl eq_refl eq_refl HD0 Hns SD SL HG1 HQ1 HE1 DD HD1 HW1 HZ2 j Hj).
    - rewrite (load_e p (devRate s m i) HE1). rewrite EDV, EC. reflexivity.
    - intros k Hk. exact (load_gdot p hs c pars (devRate s m i) md sd law HB HL eq_refl HV1 eq_refl eq_refl Hns SD SL HG1 HQ1 HE1 DD HZ2 k Hk).
    - rewrite (load_C p (devRate s m i) HQ1). now rewrite EQ.
    - exact EQ.
  Qed.
End Point.

Section Calls.
  Variables (hs : Solver R) (c : MClass R) (s : MM R) (pars : list R).
  Hypothesis HB : builtin hs c.
  Hypothesis U : in_use c s pars.
  Hypothesis HC : mm_complete s = true.
  Variables (bs : Solver R) (lu : LUSolver R) (n : nat) (dt : R) (m : Mem R).
  Hypothesis HO : batch_ok c s false n m.
  Variables (md sd : nat -> V3).
  Hypothesis HSys : systems hs c pars md sd.
  Hypothesis HPD : pos_def (p_hooke c pars).
  Hypothesis HKh : keeps_solution hs.
  Hypothesis Hdt : 0 < dt.
  Hypothesis Htol : 0 <= nth 2 pars 0.
  Variable C : nat -> M3.
  Hypothesis HR : forall i, (i < n)%nat -> first_load hs c pars s m i dt md sd (C i).
  Hypothesis HF : forall i, (i < n)%nat -> finds bs (load_x dt (vNew s m i) (C i) (devRate s m i)).

  Lemma load_good : good hs c (call_of c s bs lu false n dt m).
  Proof.
    destruct (in_use_all hs c s pars HB U) as (_ & HL & _ & sg & kin & hi & E1 & E2 & _).
    destruct (gmod_pd hs c pars HB HL HPD) as [g Hg].
    destruct (builtin_parts hs c HB) as (Z1 & Z2 & _).
    pose proof (Z1 _ _ E1) as Hns. destruct (Z2 _ _ _ E2) as [HnH _].
    assert (NH : c_nH c = 1%nat) by (destruct HB as [ -> | [ -> | [ -> | [ -> | [ -> | [ -> | -> ]]]]]]; reflexivity). rewrite NH in HnH.
    apply (good_intro hs c s pars HB U HC bs lu n dt m HO sg kin hi E1 E2 Hns HnH g Hg).
    intros i Hi. destruct (load_point hs c s pars HB HL false n dt m i HO Hi md sd HSys HKh Hdt (C i) (HR i Hi) sg kin hi E1 E2) as ((nh & F1) & F2 & F3 & _).
    exists [kept c pars (strength s m i)], nh. split; [exact F1|]. split; [exact F2|]. apply (HF i Hi); [exact Htol|exact F3].
  Qed.
End Calls.

Section Eff.
  Variables (hs : Solver R) (c : MClass R) (b : BCall) (i : nat) (pars : list R).
  Hypothesis G : good hs c b.
  Hypothesis Hi : (i < b_n b)%nat.
  Hypothesis U : in_use c (b_s b) pars.
  Let s := b_s b. Let m := b_m b. Let m1 := b_m1 b.
  Variables (md sd : nat -> V3).
  Hypothesis HSys : systems hs c pars md sd.
  Hypothesis HKh : keeps_solution hs.
  Hypothesis Hdt : 0 < b_dt b.
  Hypothesis Htol : 0 <= nth 2 pars 0.
  Variable C : M3.
  Hypothesis HR : first_load hs c pars s m i (b_dt b) md sd C.
  Let xs := load_x (b_dt b) (vNew s m i) C (devRate s m i).
  Hypothesis HX : finds (b_solver b) xs.

  Lemma load_state : strength s m1 i = kept c pars (strength s m i) /\ dev_strain s m1 i = scal3 (Rpower (vNew s m i) (1 / 3) * b_dt b) (cong (tr3 C) (devRate s m i)) /\
    (forall k, (k < c_nslip c)%nat -> val s m1 AH i (14 + k) = 0) /\ val s m1 AH i 0 = 0 /\ val s m1 AH i 1 = val s m AH i 1 /\
    quat s m1 i = unit4 (quat s m i).
  Proof.
    destruct (call_parts hs c b i pars G Hi U) as (sg & kin & hi & h_u & v & nf & gm & E1 & E2 & N1 & N2 & K & HL & S & S' & Rs). cbv zeta in *.
    pose proof G as (HB & _ & HO & _).
    pose proof (builtin_nH hs c b pars G U) as NH.
    assert (EH : h_u = [strength s m1 i]).
    { pose proof (r_H _ _ _ _ _ _ _ _ _ _ _ _ _ _ Rs) as X. cbn [mat_of m_kin] in X. rewrite N2, NH in X. change iHistLbH with 13%nat in X.
      rewrite (hist_out_sub hs c b i G Hi (mat_of c pars sg kin)) in X; try assumption; [|lia]. rewrite <- X. reflexivity. }
    destruct (load_point hs c s pars HB HL (b_mtan b) (b_n b) (b_dt b) m i HO Hi md sd HSys HKh Hdt C HR sg kin hi E1 E2)
      as ((nh & F1) & F2 & F3 & F4 & F5 & F6 & F7).
    destruct (call_hard hs c b i pars G Hi U) as (kin' & hi' & n' & E2' & E3').
    rewrite E2 in E2'. apply (f_equal (option_map fst)) in E2'. cbn [option_map fst] in E2'. apply some_inj in E2'. subst kin'.
    change (old_rates c b i) with (slip_rates c s m i) in E3'. change (val (b_s b) (b_m b) AH i 13) with (strength s m i) in E3'. rewrite F1 in E3'.
    assert (EK : strength s m1 i = kept c pars (strength s m i)).
    { apply (f_equal (option_map fst)) in E3'. cbn [option_map fst] in E3'. apply some_inj in E3'. change (val (b_s b) (b_m1 b) AH i 13) with (strength s m1 i) in E3'. congruence. }
    rewrite EK in EH. subst h_u.
    set (p := snglProb (mat_of c pars sg kin) (b_dt b) (in_cell c b i AD) (in_cell c b i AW) (in_cell c b i AV) (P_in c b i) [kept c pars (strength s m i)]) in *.
    set (r := b_solver b 8%nat (computeRJ p) (nth 2 pars 0) 200%nat (tab 8 (fun _ => 0))) in *.
    destruct (HX (computeRJ p) (nth 2 pars 0) 200%nat (tab 8 (fun _ => 0)) Htol F3) as (_ & X1 & X2). change (so_x r = xs) in X1. change (so_xlast r = xs) in X2.
    assert (EVV : v = evalEv p xs).
    { pose proof (r_v _ _ _ _ _ _ _ _ _ _ _ _ _ _ Rs) as X. rewrite X. rewrite X1, X2. destruct (pt_mtan (P_in c b i)); reflexivity. }
    assert (EG : forall k, (k < c_nslip c)%nat -> get (ev_gdot v) k = 0) by (intros k Hk; rewrite EVV; now apply F5).
    assert (ES : ev_shrateEff v = 0).
    { rewrite EVV. change (ev_shrateEff (evalEv p xs)) with (vecsssumabs (sg_nslip sg) (ev_gdot (evalEv p xs))).
      rewrite N1. unfold vecsssumabs. rewrite (sum_ext _ _ (fun _ => 0)).
      - clear. induction (c_nslip c); [reflexivity|]. rewrite sum_S, IHn. rops. ring.
      - intros k Hk. rewrite F5 by assumption. apply Rabs_R0. }
    assert (Lq : List.length (snd (stateFromX p (so_x r))) = 4%nat) by reflexivity.
    split; [exact EK|]. split; [|split; [|split; [|split]]].
    - pose proof (r_E _ _ _ _ _ _ _ _ _ _ _ _ _ _ Rs) as RE. change iHistLbE with 4%nat in RE.
      change (fst (stateFromX p (so_x r))) with (ev_e_f (evalEv p (so_x r))) in RE. rewrite X1 in RE.
      rewrite (hist_out_sub hs c b i G Hi (mat_of c pars sg kin)) in RE; try assumption; [|lia].
      assert (F4' : ev_e_f (evalEv p xs) = map (fun k => Rpower (vNew s m i) (1 / 3) * b_dt b * inner (cong (tr3 C) (devRate s m i)) (basis k)) (seq 0 5)) by exact F4.
      assert (RE' : map (fun k => val s m1 AH i (4 + k)) [0; 1; 2; 3; 4]%nat = map (fun k => Rpower (vNew s m i) (1 / 3) * b_dt b * inner (cong (tr3 C) (devRate s m i)) (basis k)) (seq 0 5))
        by (rewrite <- F4'; exact RE).
      unfold dev_strain. rewrite RE'. apply load_list.
      destruct HR as (HD0 & _ & _ & _ & HQ & _ & _ & HC & _). apply rotates_rotq in HC; [|exact (proj1 (unit4_unit (quat s m i) eq_refl HQ))]. rewrite HC.
      destruct (unit4_unit (quat s m i) eq_refl HQ) as [U1 U2]. apply cong_dev; [apply orth_tr, (rotq_rot _ U1 U2)|]. split; [reflexivity|exact HD0].
    - intros k Hk. pose proof (r_G _ _ _ _ _ _ _ _ _ _ _ _ _ _ Rs) as X. cbn [mat_of m_kin m_sg] in X. rewrite N2, NH, N1 in X. change (iHistLbGdot 1) with 14%nat in X.
      rewrite (hist_out_sub hs c b i G Hi (mat_of c pars sg kin)) in X; try assumption; [|lia]. rewrite <- (EG k Hk), <- X, get_tab by assumption. reflexivity.
    - pose proof (r_shrateEff _ _ _ _ _ _ _ _ _ _ _ _ _ _ Rs) as X. rewrite <- ES, <- X. symmetry. apply (hist_out_val hs c b i G Hi). lia.
    - pose proof (r_shrEff _ _ _ _ _ _ _ _ _ _ _ _ _ _ Rs) as X. change iHistA_shrEff with 1%nat in X.
      rewrite (hist_out_val hs c b i G Hi), (hist_in hs c b i G Hi) in X by lia. rewrite ES in X. unfold s, m, m1. rewrite X. ring.
    - pose proof (quat_out hs c b i G Hi) as QO. change (quat (b_s b) (b_m1 b) i) with (quat s m1 i) in QO.
      assert (EQ : rotq (sub (pt_hist (P_out c b i)) iHistLbQ 4) = rotq (ev_C_quat (evalEv p xs))).
      { rewrite (r_Q _ _ _ _ _ _ _ _ _ _ _ _ _ _ Rs). unfold rotq. rewrite quat_final_tensor by assumption. rewrite X1. reflexivity. }
      assert (E : rotq (quat s m1 i) = rotq (unit4 (quat s m i))).
      { rewrite <- QO. unfold quat_of. change (pt_hist (pt_of c (b_s b) (b_mtan b) (b_m1 b) i)) with (pt_hist (P_out c b i)). etransitivity; [exact EQ|exact F6]. }
      destruct HR as (_ & _ & _ & _ & HQ & _).
      destruct (unit4_unit (quat s m i) eq_refl HQ) as [U1 U2].
      apply rotq_unique; try reflexivity; try assumption.
      + exact (call_quat hs c b i G Hi HQ).
      + destruct (call_dot hs c b i G Hi HQ) as [D _]. fold s m m1 in D.
        assert (P : 0 < sqrt (SpecTensor.norm2 (quat s m i))).
        { apply sqrt_lt_R0. assert (0 <= SpecTensor.norm2 (quat s m i)); [|lra]. clear. unfold SpecTensor.norm2, quat. cbn. nra. }
        set (y := sqrt (SpecTensor.norm2 (quat s m i))) in *.
        assert (EQ4 : dot4 (quat s m1 i) (unit4 (quat s m i)) = dot4 (quat s m1 i) (quat s m i) / y).
        { unfold dot4, unit4. fold y. unfold quat. cbn [map nth]. field. lra. }
        rewrite EQ4. apply Rmult_le_pos; [assumption|left; now apply Rinv_0_lt_compat].
  Qed.
  Lemma load_stress : devStress s m1 i = cong C (dev3 (latStress c pars (vNew s m i) (eInt s m i - delv s m i * pres s m i) (load_strain (b_dt b) (vNew s m i) C (devRate s m i)))).
  Proof.
    destruct load_state as (_ & HE & _ & _ & _ & HQ'). pose proof HR as (_ & _ & _ & Hv & Hq & _ & _ & HC & _).
    destruct (call_hooke hs c b i pars G Hi U Hv Hq) as [_ HH].
    assert (HC1 : rotates (quat s m1 i) C) by (rewrite HQ'; exact HC). destruct (HH C (or_introl HC1)) as [RC DS]. fold s m m1 in DS. rewrite DS.
    f_equal. f_equal. f_equal. change (latStrain s m1 i (vNew s m i)) with (add3 (scal3 (/ Rpower (vNew s m i) (1 / 3)) (dev_strain s m1 i)) (scal3 (ln (vNew s m i) / 3) I3)).
    rewrite HE. unfold load_strain. f_equal. assert (P : 0 < Rpower (vNew s m i) (1 / 3)) by apply exp_pos.
    now apply scal_cancel.
  Qed.
End Eff.
