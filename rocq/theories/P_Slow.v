(** Slow deformation of a stress-free crystal is within the tolerance of doing nothing (C50). *)
From Coq Require Import List ZArith Bool Lia PeanoNat Reals Lra String.
From Verif Require Import Num Arr NumR Util SlipGeom Eos Hard KinVoce KinKMBalD Elast Evptn MatModel Cases SpecTensor
  SpecElast SpecSlip P_Tensor P_Elast P_Eos P_Sngl P_Sngl2 P_Sngl3 P_Batch P_Batch2 P_Batch3 P_Batch4 P_Api P_Builtin SpecApi P_Hist SpecStress P_Stress
  SpecKin SpecKinApi SpecStep SpecEnergy P_KinV P_Hard P_Kin4 P_Call P_Slip P_SlipH P_Demo P_Demo2 P_Demo3 P_Step P_Step2 P_Step3 P_Energy P_Rest P_Rigid P_Rigid2 P_Rigid3 P_Rigid4 P_Demo4 SpecSlow.
Import ListNotations.
Local Open Scope R_scope.

Lemma settles_keeps bs : settles bs -> keeps_solution bs.
Proof. intros H n rj tol it x0 Ht HZ. apply H. intros j Hj. rewrite HZ by assumption. now rewrite Rabs_R0. Qed.
Lemma checked_settles : settles checked.
Proof.
  intros n rj tol it x0 H. unfold checked, offer. cbn [so_converged so_x so_xlast]. split; [|split; reflexivity].
  apply forallb_forall. intros j Hj. apply in_seq in Hj. apply Rleb_true. apply H. lia.
Qed.

(** |A . B| <= |A| |B| *)
Lemma inner_bound A B : inner A B * inner A B <= inner A A * inner B B.
Proof.
  assert (Q : forall t, 0 <= inner A A - 2 * t * inner A B + t * t * inner B B).
  { intros t. assert (E : inner A A - 2 * t * inner A B + t * t * inner B B = inner (sub3 A (scal3 t B)) (sub3 A (scal3 t B))).
    { clear. unfold sub3. spec3. ring. }
    rewrite E. apply inner_nn. }
  assert (P : 0 <= inner B B) by apply inner_nn.
  destruct (Req_dec (inner B B) 0) as [Z|Z].
  - rewrite Z in *. assert (inner A B = 0); [|nra].
    destruct (Rtotal_order (inner A B) 0) as [N|[N|N]]; [exfalso|exact N|exfalso].
    + pose proof (Q ((inner A A + 1) / (2 * inner A B))) as W. replace (2 * _ * inner A B) with (inner A A + 1) in W by (field; lra). lra.
    + pose proof (Q ((inner A A + 1) / (2 * inner A B))) as W. replace (2 * _ * inner A B) with (inner A A + 1) in W by (field; lra). lra.
  - assert (0 < inner B B) by lra. pose proof (Q (inner A B / inner B B)) as W.
    replace (inner A A - _ + _) with (inner A A - inner A B * inner A B / inner B B) in W by (field; lra).
    assert (inner A B * inner A B / inner B B * inner B B <= inner A A * inner B B) by (apply Rmult_le_compat_r; lra).
    replace (inner A B * inner A B / inner B B * inner B B) with (inner A B * inner A B) in * by (field; lra). assumption.
Qed.
Lemma comp_bound A k : (k < 5)%nat -> Rabs (inner A (basis k)) <= norm3t A.
Proof.
  intros Hk. pose proof (inner_bound A (basis k)) as B. rewrite (basis_orthonormal k k) in B by lia. unfold kron in B. rewrite Nat.eqb_refl in B.
  unfold norm3t. rewrite <- sqrt_Rsqr_abs. apply sqrt_le_1_alt. unfold Rsqr. lra.
Qed.
Lemma norm_cong C A : is_orth C -> norm3t (cong C A) = norm3t A.
Proof. intros H. unfold norm3t. now rewrite cong_inner. Qed.

Lemma Rabs_mult_self x : Rabs x * Rabs x = x * x.
Proof. rewrite <- Rabs_mult. apply Rabs_right. nra. Qed.

Section Point.
  Variables (hs : Solver R) (c : MClass R) (s : MM R) (pars : list R).
  Hypothesis HB : builtin hs c.
  Hypothesis HL : List.length pars = mm_nParams c.
  Variables (mtan : bool) (n : nat) (dt : R) (m : Mem R) (i : nat).
  Hypothesis HO : batch_ok c s mtan n m.
  Hypothesis Hi : (i < n)%nat.
  Variables (md sd : nat -> V3).
  Hypothesis HSys : systems hs c pars md sd.
  Hypothesis HKh : keeps_solution hs.
  Hypothesis Hdt : 0 < dt.
  Hypothesis HR : slow hs c pars s m i.
  Variables (sg : SlipGeom R) (kin : Kinetics R) (hi : list (HistEntry R)).
  Hypothesis E1 : c_sgSet c (sub pars 3 (c_sgNP c)) = Some sg.
  Hypothesis E2 : c_kinSet c (sub pars (3 + c_sgNP c + c_elNP c) (c_kinNP c)) = Some (kin, hi).
  Let mat := mat_of c pars sg kin.
  Let h := [kept c pars (strength s m i)].
  Let p := snglProb mat dt (cell_of c s mtan m AD i) (cell_of c s mtan m AW i) (cell_of c s mtan m AV i) (pt_of c s mtan m i) h.
  Let pr := u_press (snglUpd mat (cell_of c s mtan m AV i) (pt_eInt (pt_of c s mtan m i)) (pt_stress (pt_of c s mtan m i))).
  Let tK := snglTkelv mat (cell_of c s mtan m AV i) (pt_eInt (pt_of c s mtan m i)).
  Let x0 : list R := tab 8 (fun _ => 0).
  Lemma slow_point : (exists nh, k_updateH kin [strength s m i] dt (slip_rates c s m i) = Some (h, nh)) /\ k_valsOk kin pr tK h = true /\
    (forall j, (j < 8)%nat -> Rabs (nth j (residual p x0) 0) <= nth 2 pars 0) /\
    ev_e_f (evalEv p x0) = [0; 0; 0; 0; 0] /\ (forall k, (k < c_nslip c)%nat -> get (ev_gdot (evalEv p x0)) k = 0) /\
    rotq (ev_C_quat (evalEv p x0)) = rotq (unit4 (quat s m i)) /\
    pb_Cn_quat p = unit4 (quat s m i).
  Proof.
    destruct (builtin_parts hs c HB) as (Z1 & Z2 & _).
    pose proof (Z1 _ _ E1) as Hns. destruct (Z2 _ _ _ E2) as [HnH _].
    assert (NH : c_nH c = 1%nat) by (destruct HB as [ -> | [ -> | [ -> | [ -> | [ -> | [ -> | -> ]]]]]]; reflexivity). rewrite NH in HnH.
    destruct HR as (HD & HE & HG & Hv & HQ & Hh & HU & HS0 & law & ref & HLaw & HN1 & HN2).
    assert (VI : forall a k, (k < per_point (c_nH c) (c_nslip c) mtan a)%nat -> get (cell_of c s mtan m a i) k = val s m a i k)
      by (intros a k Hk; apply (cell_val c s mtan n m a i k); [apply HO|assumption|assumption]).
    destruct (rest_hard hs c pars _ (strength s m i) law ref kin hi dt (slip_rates c s m i) HLaw HL E2 HKh Hh) as ((nh & F1) & F2 & _).
    { unfold slip_rates. now rewrite map_length, seq_length. }
    { intros k Hk. change (slip_rates c s m i) with (tab (c_nslip c) (fun k => val s m AH i (14 + k))). rewrite get_tab by assumption. now apply HG. }
    split; [exists nh; exact F1|].
    assert (ET : tK = (eInt s m i - p_ec0 c pars) / p_cv pars).
    { unfold tK, snglTkelv, mat, mat_of, p_eos. cbn [m_eos]. unfold pt_of, pt_at. cbn [pt_eInt].
      change (cell (mm_strides s) (c_nH c) (c_nslip c) mtan m AE i) with (cell_of c s mtan m AE i).
      rewrite (VI AE 0%nat) by (cbn [per_point]; lia). fold (eInt s m i). unfold evalPT, eos_setParams. rarr. cbn. unfold Rdiv. ring. }
    rewrite ET. split; [apply F2|].
    assert (L4 : List.length (quat s m i) = 4%nat) by reflexivity.
    destruct (systems_data hs c pars md sd sg HSys HL E1) as [SD SL].
    destruct (law_data hs c pars _ _ law ref pr kin hi HLaw HL E2 (F2 pr)) as (R0 & R1 & R2).
    assert (LH : List.length (pt_hist (pt_of c s mtan m i)) = (14 + c_nslip c)%nat).
    { pose proof (P_Batch4.cell_len c mtan s n m AH i HO Hi) as L. cbn [per_point] in L. unfold numHist, iHistLbH in L. rewrite NH in L. exact L. }
    assert (VH : forall k, (k < 14 + c_nslip c)%nat -> get (pt_hist (pt_of c s mtan m i)) k = val s m AH i k).
    { intros k Hk. unfold pt_of, pt_at. cbn [pt_hist]. apply (VI AH k). cbn. unfold numHist, iHistLbH. lia. }
    assert (EQ : pb_Cn_quat p = unit4 (quat s m i)).
    { rewrite <- normalize_unit4 by assumption. change (pb_Cn_quat p) with (vecsVNormalize 4 (sub (pt_hist (pt_of c s mtan m i)) 9 4)). f_equal.
      apply list_get_ext; [rewrite sub_length by (rewrite LH; lia); reflexivity|]. intros k Hk.
      rewrite sub_length in Hk by (rewrite LH; lia). rewrite get_sub by lia. rewrite VH by lia. do 4 (destruct k as [|k]; [reflexivity|]); lia. }
    assert (EDV : pb_detV p = vNew s m i).
    { change (pb_detV p) with (get (cell_of c s mtan m AV i) 1). apply VI. cbn [per_point]. lia. }
    assert (Eev : pb_eVref p = eInt s m i - delv s m i * pres s m i).
    { unfold p, snglProb, mkProb, snglUpd, updateSimple. cbn [pb_eVref u_eNew].
      unfold pt_of, pt_at. cbn [pt_eInt pt_stress].
      change (cell (mm_strides s) (c_nH c) (c_nslip c) mtan m) with (cell_of c s mtan m).
      rewrite !VI by (cbn [per_point]; lia). reflexivity. }
    assert (HQ1 : List.length (pb_Cn_quat p) = 4%nat /\ SpecTensor.norm2 (pb_Cn_quat p) = 1) by (rewrite EQ; now apply unit4_unit).
    assert (HV1 : 0 < pb_detV p) by now rewrite EDV.
    assert (HG1 : forall tau, fst (fst (k_evalGdots (pb_kin p) tau (pb_kin_vals p))) = tab (c_nslip c) (fun k => law k (get tau k))).
    { intros tau. change (pb_kin p) with kin. change (pb_kin_vals p) with (fst (k_getVals kin pr tK h)). rewrite ET. apply R2. }
    assert (HZ1 : forall k, law k 0 = 0) by (intros k; exact (law_zero hs c pars _ _ law ref HLaw k)).
    assert (HE1 : pb_e_vecd_n p = [0; 0; 0; 0; 0]).
    { change (pb_e_vecd_n p) with (sub (pt_hist (pt_of c s mtan m i)) 4 5). apply zero5; [rewrite sub_length by (rewrite LH; lia); reflexivity|].
      rewrite <- HE. unfold dev_strain. f_equal.
      apply list_get_ext; [rewrite sub_length by (rewrite LH; lia); reflexivity|]. intros k Hk.
      rewrite sub_length in Hk by (rewrite LH; lia). rewrite get_sub by lia. rewrite VH by lia. do 5 (destruct k as [|k]; [reflexivity|]); lia. }
    assert (DD : is_dev (devRate s m i)) by (split; [reflexivity|exact HD]).
    assert (HD1 : pb_d_vecd_sm p = vec5 (devRate s m i)).
    { change (pb_d_vecd_sm p) with (svecToVecd (cell_of c s mtan m AD i)).
      assert (ED : sym6 (get (cell_of c s mtan m AD i)) = devRate s m i).
      { unfold devRate, sym6. rewrite !VI by (cbn [per_point]; lia). reflexivity. }
      rewrite svec_vec5 by (rewrite ED; exact HD). now rewrite ED. }
    assert (HW1 : pb_w_veccp_sm p = ofV3 (mkV 0 0 0)).
    { change (pb_w_veccp_sm p) with (cell_of c s mtan m AW i).
      pose proof (P_Batch4.cell_len c mtan s n m AW i HO Hi) as LW. cbn [per_point] in LW.
      rewrite <- HS0. unfold spin. rewrite <- !VI by (cbn [per_point]; lia).
      destruct (cell_of c s mtan m AW i) as [|? [|? [|? [|]]]]; try discriminate LW. reflexivity. }
    assert (HU1 : unloaded c pars (pb_detV p) (pb_eVref p)) by (rewrite EDV, Eev; exact HU).
    assert (EX0 : rigid_x (pb_dt p) (rotq (pb_Cn_quat p)) (mkV 0 0 0) = x0).
    { unfold rigid_x, x0. set (B := tr3 _). clearbody B. clear. unfold scalv, tab. cbn [seq map]. un3. cbn [v0 v1 v2]. meq; ring. }
    assert (HD0 : pb_dt p <> 0) by (change (pb_dt p) with dt; lra).
    assert (XI0 : scalv (pb_dt p) (mulv (tr3 (rotq (pb_Cn_quat p))) (mkV 0 0 0)) = mkV 0 0 0).
    { set (B := tr3 _). clearbody B. clear. unfold scalv. un3. meq; ring. }
    assert (RE : ev_e_f (evalEv p x0) = [0; 0; 0; 0; 0]) by (rewrite <- EX0; exact (rigid_e p (mkV 0 0 0) HE1)).
    assert (RX : toV3 (ev_xi (evalEv p x0)) = mkV 0 0 0) by (rewrite <- EX0, rigid_xi; exact XI0).
    assert (RG : forall k, (k < c_nslip c)%nat -> get (ev_gdot (evalEv p x0)) k = 0).
    { intros k Hk. rewrite <- EX0. exact (rigid_gdot p hs c pars (mkV 0 0 0) md sd law HB HL eq_refl HV1 eq_refl eq_refl Hns SD SL HG1 HZ1 HE1 HU1 k Hk). }
    assert (RC : rotq (ev_C_quat (evalEv p x0)) = rotq (unit4 (quat s m i))).
    { pose proof (ev_C_comp p HQ1 x0) as CC. rewrite RX, turn_emap in CC. rewrite CC, EQ.
      assert (T : turn (mkV 0 0 0) = I3). { unfold turn. rewrite norm3_0. destruct (Rlt_dec _ _) as [N|_]; [pose proof tiny_pos; lra|]. apply rodrigues_0. }
      rewrite T. apply mul3_1r. }
    split; [|split; [exact RE|split; [exact RG|split; [exact RC|exact EQ]]]].
    assert (HaP : pb_a_V p <> 0).
    { change (pb_a_V p) with (Rpow (pb_detV p) (1 / 3)). rewrite Rpow_pos by assumption. apply Rgt_not_eq, exp_pos. }
    assert (L5 : List.length (pb_e_vecd_n p) = 5%nat) by now rewrite HE1.
    pose proof (res_strain p (devRate s m i) (c_nslip c) sd md DD HD1 Hns SD HQ1 L5 eq_refl HD0 eq_refl x0) as RS.
    pose proof (res_spin p (devRate s m i) (mkV 0 0 0) (c_nslip c) sd md HD1 HW1 Hns SD HQ1 L5 eq_refl HD0 eq_refl HaP x0) as RW.
    rewrite RE, HE1, ten5_0, RX in *.
    assert (ER : erate (pb_dt p) Z3 Z3 = Z3) by (unfold erate; rewrite sub3_Z; apply scal3_Z).
    assert (SI : pb_epsdot_scale_inv p = / ref).
    { change (pb_epsdot_scale_inv p) with (let rr := k_getFixedRefRate kin (fst (k_getVals kin pr tK h)) in
        let eff := vecNorm 5 (pb_d_vecd_sm p) in if Rltb eff (epsdot_scl_nzeff * rr) then 1 / rr else Rmin (1 / eff) (nlit 1 6 * dt)).
      cbv zeta. rewrite ET. unfold h. rewrite R1, HD1, norm_vec5 by exact DD.
      destruct (scale_law ref dt (devRate s m i) R0 Hdt) as [SLw _]. rewrite SLw. unfold rate_scale. destruct (Rlt_dec _ _) as [_|N]; [reflexivity|contradiction]. }
    intros j Hj. destruct (Nat.lt_ge_cases j 5) as [H5|H5].
    - change (nth j (residual p x0) 0) with (get (residual p x0) j). rewrite RS by assumption. unfold strain_gap. rewrite slip_zero by exact RG.
      rewrite ER, scal3_Z, add3_Z, SI. unfold sub3. rewrite add3_Zl, inner_scal_l.
      rewrite Rabs_mult, (Rabs_right (/ ref)) by (left; now apply Rinv_0_lt_compat).
      rewrite Rabs_mult, (Rabs_left (-1)) by lra. replace (- -1) with 1 by ring. rewrite Rmult_1_l.
      assert (OC : is_orth (tr3 (rotq (ev_C_quat (evalEv p x0))))).
      { rewrite RC. destruct (unit4_unit _ L4 HQ) as [U1 U2]. exact (proj1 (rot_tr _ (rotq_rot _ U1 U2))). }
      pose proof (comp_bound (cong (tr3 (rotq (ev_C_quat (evalEv p x0)))) (devRate s m i)) j H5) as CB. rewrite norm_cong in CB by exact OC.
      assert (PI : 0 < / ref) by now apply Rinv_0_lt_compat.
      apply Rle_trans with (/ ref * (nth 2 pars 0 * ref)); [apply Rmult_le_compat_l; [lra|]; eapply Rle_trans; [exact CB|exact HN2]|].
      right. field. lra.
    - assert (EG : spin_gap (pb_dt p) (pb_a_V p) Z3 Z3 (rotq (ev_C_quat (evalEv p x0))) (mkV 0 0 0) (mkV 0 0 0) (c_nslip c) sd md (get (ev_gdot (evalEv p x0))) = Z3).
      { unfold spin_gap. rewrite slip_zero by exact RG. rewrite ER.
        assert (EC : commutator Z3 Z3 = Z3) by (unfold commutator; rewrite mul3_Z, sub3_Z; reflexivity). rewrite EC, scal3_Z, sub3_Z.
        assert (AZ : axial (mkV 0 0 0) = Z3) by (unfold axial, Z3; cbn; meq; ring). rewrite AZ, cong_Z, add3_Z, scal3_Z, sub3_Z. reflexivity. }
      rewrite EG in RW. destruct RW as (W5 & W6 & W7). assert (TP : 0 <= nth 2 pars 0).
      { assert (0 <= norm3t (devRate s m i)) by apply sqrt_pos. apply Rmult_le_reg_r with ref; lra. }
      assert (Q : j = 5%nat \/ j = 6%nat \/ j = 7%nat) by lia. change (nth j (residual p x0) 0) with (get (residual p x0) j).
      destruct Q as [-> | [-> | -> ]]; [rewrite W5|rewrite W6|rewrite W7]; cbn [Z3 a21 a02 a10]; rewrite Rmult_0_r, Rabs_R0; exact TP.
  Qed.
End Point.

Section Calls.
  Variables (hs : Solver R) (c : MClass R) (s : MM R) (pars : list R).
  Hypothesis HB : builtin hs c.
  Hypothesis U : in_use c s pars.
  Hypothesis HC : mm_complete s = true.
  Variables (bs : Solver R) (lu : LUSolver R) (n : nat) (dt : R) (m : Mem R).
  Hypothesis HO : batch_ok c s false n m.
  Variables (md sd : nat -> V3).
  Hypothesis HSys : systems hs c pars md sd.
  Hypothesis HPD : pos_def (p_hooke c pars).
  Hypothesis HKh : keeps_solution hs.
  Hypothesis Hdt : 0 < dt.
  Hypothesis HR : forall i, (i < n)%nat -> slow hs c pars s m i.
  Hypothesis HF : settles bs.

  Lemma slow_good : good hs c (call_of c s bs lu false n dt m).
  Proof.
    destruct (in_use_all hs c s pars HB U) as (_ & HL & _ & sg & kin & hi & E1 & E2 & _).
    destruct (gmod_pd hs c pars HB HL HPD) as [g Hg].
    destruct (builtin_parts hs c HB) as (Z1 & Z2 & _).
    pose proof (Z1 _ _ E1) as Hns. destruct (Z2 _ _ _ E2) as [HnH _].
    assert (NH : c_nH c = 1%nat) by (destruct HB as [ -> | [ -> | [ -> | [ -> | [ -> | [ -> | -> ]]]]]]; reflexivity). rewrite NH in HnH.
    apply (good_intro hs c s pars HB U HC bs lu n dt m HO sg kin hi E1 E2 Hns HnH g Hg).
    intros i Hi. destruct (slow_point hs c s pars HB HL false n dt m i HO Hi md sd HSys HKh Hdt (HR i Hi) sg kin hi E1 E2) as ((nh & F1) & F2 & F3 & _).
    exists [kept c pars (strength s m i)], nh. split; [exact F1|]. split; [exact F2|]. apply HF. exact F3.
  Qed.
End Calls.

Section Eff.
  Variables (hs : Solver R) (c : MClass R) (b : BCall) (i : nat) (pars : list R).
  Hypothesis G : good hs c b.
  Hypothesis Hi : (i < b_n b)%nat.
  Hypothesis U : in_use c (b_s b) pars.
  Let s := b_s b. Let m := b_m b. Let m1 := b_m1 b.
  Variables (md sd : nat -> V3).
  Hypothesis HSys : systems hs c pars md sd.
  Hypothesis HKh : keeps_solution hs.
  Hypothesis Hdt : 0 < b_dt b.
  Hypothesis HR : slow hs c pars s m i.
  Hypothesis HX : settles (b_solver b).

  Lemma slow_state : strength s m1 i = kept c pars (strength s m i) /\ (forall k, (k < 5)%nat -> val s m1 AH i (4 + k) = 0) /\
    (forall k, (k < c_nslip c)%nat -> val s m1 AH i (14 + k) = 0) /\ val s m1 AH i 0 = 0 /\ val s m1 AH i 1 = val s m AH i 1 /\
    quat s m1 i = unit4 (quat s m i).
  Proof.
    destruct (call_parts hs c b i pars G Hi U) as (sg & kin & hi & h_u & v & nf & gm & E1 & E2 & N1 & N2 & K & HL & S & S' & Rs). cbv zeta in *.
    pose proof G as (HB & _ & HO & _).
    pose proof (builtin_nH hs c b pars G U) as NH.
    assert (EH : h_u = [strength s m1 i]).
    { pose proof (r_H _ _ _ _ _ _ _ _ _ _ _ _ _ _ Rs) as X. cbn [mat_of m_kin] in X. rewrite N2, NH in X. change iHistLbH with 13%nat in X.
      rewrite (hist_out_sub hs c b i G Hi (mat_of c pars sg kin)) in X; try assumption; [|lia]. rewrite <- X. reflexivity. }
    destruct (slow_point hs c s pars HB HL (b_mtan b) (b_n b) (b_dt b) m i HO Hi md sd HSys HKh Hdt HR sg kin hi E1 E2)
      as ((nh & F1) & F2 & F3 & F4 & F5 & F6 & F7).
    destruct (call_hard hs c b i pars G Hi U) as (kin' & hi' & n' & E2' & E3').
    rewrite E2 in E2'. apply (f_equal (option_map fst)) in E2'. cbn [option_map fst] in E2'. apply some_inj in E2'. subst kin'.
    change (old_rates c b i) with (slip_rates c s m i) in E3'. change (val (b_s b) (b_m b) AH i 13) with (strength s m i) in E3'. rewrite F1 in E3'.
    assert (EK : strength s m1 i = kept c pars (strength s m i)).
    { apply (f_equal (option_map fst)) in E3'. cbn [option_map fst] in E3'. apply some_inj in E3'. change (val (b_s b) (b_m1 b) AH i 13) with (strength s m1 i) in E3'. congruence. }
    rewrite EK in EH. subst h_u.
    set (p := snglProb (mat_of c pars sg kin) (b_dt b) (in_cell c b i AD) (in_cell c b i AW) (in_cell c b i AV) (P_in c b i) [kept c pars (strength s m i)]) in *.
    set (r := b_solver b 8%nat (computeRJ p) (nth 2 pars 0) 200%nat (tab 8 (fun _ => 0))) in *.
    destruct (HX 8%nat (computeRJ p) (nth 2 pars 0) 200%nat _ F3) as (_ & X1 & X2). change (so_x r = tab 8 (fun _ => 0)) in X1. change (so_xlast r = tab 8 (fun _ => 0)) in X2.
    assert (EVV : v = evalEv p (tab 8 (fun _ => 0))).
    { pose proof (r_v _ _ _ _ _ _ _ _ _ _ _ _ _ _ Rs) as X. rewrite X. rewrite X1, X2. destruct (pt_mtan (P_in c b i)); reflexivity. }
    assert (EG : forall k, (k < c_nslip c)%nat -> get (ev_gdot v) k = 0) by (intros k Hk; rewrite EVV; now apply F5).
    assert (ES : ev_shrateEff v = 0).
    { rewrite EVV. change (ev_shrateEff (evalEv p (tab 8 (fun _ => 0)))) with (vecsssumabs (sg_nslip sg) (ev_gdot (evalEv p (tab 8 (fun _ => 0))))).
      rewrite N1. unfold vecsssumabs. rewrite (sum_ext _ _ (fun _ => 0)).
      - clear. induction (c_nslip c); [reflexivity|]. rewrite sum_S, IHn. rops. ring.
      - intros k Hk. rewrite F5 by assumption. apply Rabs_R0. }
    assert (Lq : List.length (snd (stateFromX p (so_x r))) = 4%nat) by reflexivity.
    split; [exact EK|]. split; [|split; [|split; [|split]]].
    - intros k Hk. pose proof (r_E _ _ _ _ _ _ _ _ _ _ _ _ _ _ Rs) as RE. change iHistLbE with 4%nat in RE.
      change (fst (stateFromX p (so_x r))) with (ev_e_f (evalEv p (so_x r))) in RE. rewrite X1 in RE. 
      rewrite (hist_out_sub hs c b i G Hi (mat_of c pars sg kin)) in RE; try assumption; [|lia].
      assert (RE' : get (tab 5 (fun k => val s m1 AH i (4 + k))) k = get [0;0;0;0;0] k) by (f_equal; etransitivity; [exact RE|exact F4]).
      rewrite get_tab in RE' by assumption. rewrite RE'. do 5 (destruct k as [|k]; [reflexivity|]); lia.
    - intros k Hk. pose proof (r_G _ _ _ _ _ _ _ _ _ _ _ _ _ _ Rs) as X. cbn [mat_of m_kin m_sg] in X. rewrite N2, NH, N1 in X. change (iHistLbGdot 1) with 14%nat in X.
      rewrite (hist_out_sub hs c b i G Hi (mat_of c pars sg kin)) in X; try assumption; [|lia]. rewrite <- (EG k Hk), <- X, get_tab by assumption. reflexivity.
    - pose proof (r_shrateEff _ _ _ _ _ _ _ _ _ _ _ _ _ _ Rs) as X. rewrite <- ES, <- X. symmetry. apply (hist_out_val hs c b i G Hi). lia.
    - pose proof (r_shrEff _ _ _ _ _ _ _ _ _ _ _ _ _ _ Rs) as X. change iHistA_shrEff with 1%nat in X.
      rewrite (hist_out_val hs c b i G Hi), (hist_in hs c b i G Hi) in X by lia. rewrite ES in X. unfold s, m, m1. rewrite X. ring.
    - pose proof (quat_out hs c b i G Hi) as QO. change (quat (b_s b) (b_m1 b) i) with (quat s m1 i) in QO.
      assert (EQ : rotq (sub (pt_hist (P_out c b i)) iHistLbQ 4) = rotq (ev_C_quat (evalEv p (tab 8 (fun _ => 0))))).
      { rewrite (r_Q _ _ _ _ _ _ _ _ _ _ _ _ _ _ Rs). unfold rotq. rewrite quat_final_tensor by assumption. rewrite X1. reflexivity. }
      assert (E : rotq (quat s m1 i) = rotq (unit4 (quat s m i))).
      { rewrite <- QO. unfold quat_of. change (pt_hist (pt_of c (b_s b) (b_mtan b) (b_m1 b) i)) with (pt_hist (P_out c b i)). etransitivity; [exact EQ|exact F6]. }
      destruct HR as (_ & _ & _ & _ & HQ & _).
      destruct (unit4_unit (quat s m i) eq_refl HQ) as [U1 U2].
      apply rotq_unique; try reflexivity; try assumption.
      + exact (call_quat hs c b i G Hi HQ).
      + destruct (call_dot hs c b i G Hi HQ) as [D _]. fold s m m1 in D.
        assert (P : 0 < sqrt (SpecTensor.norm2 (quat s m i))).
        { apply sqrt_lt_R0. assert (0 <= SpecTensor.norm2 (quat s m i)); [|lra]. clear. unfold SpecTensor.norm2, quat. cbn. nra. }
        set (y := sqrt (SpecTensor.norm2 (quat s m i))) in *.
        assert (EQ4 : dot4 (quat s m1 i) (unit4 (quat s m i)) = dot4 (quat s m1 i) (quat s m i) / y).
        { unfold dot4, unit4. fold y. unfold quat. cbn [map nth]. field. lra. }
        rewrite EQ4. apply Rmult_le_pos; [assumption|left; now apply Rinv_0_lt_compat].
  Qed.
  Lemma slow_zero_stress : devStress s m1 i = Z3.
  Proof.
    destruct slow_state as (_ & HE & _). destruct HR as (_ & _ & _ & Hv & Hq & _ & HU & _).
    destruct (call_hooke hs c b i pars G Hi U Hv Hq) as [[C HC] HH]. destruct (HH C (or_introl HC)) as [RC DS]. fold s m m1 in DS. rewrite DS.
    assert (EL : latStrain s m1 i (vNew s m i) = scal3 (ln (vNew s m i) / 3) I3).
    { unfold latStrain. cbn [map]. rewrite !HE by lia. rewrite ten5_0, scal3_Z, add3_Zl. reflexivity. }
    rewrite EL. unfold unloaded in HU. rewrite dev3_scal in HU. apply scal3_0 in HU; [|apply Rgt_not_eq; exact Hv].
    etransitivity; [apply f_equal; exact HU|]. apply cong_Z.
  Qed.
  (** what is returned misses the equations by all of the deformation rate *)
  Lemma slow_gap law ref bound : slip_law hs c pars (tKel s m1 i) (strength s m1 i) law ref -> b_mtan b = true \/ last_at_answer (b_solver b) ->
    step_within c pars b i md sd law bound -> norm3t (devRate s m i) <= sqrt 5 * bound.
  Proof.
    intros HLaw HM HS. destruct slow_state as (_ & HE & HG & _ & _ & HQ). pose proof HR as (HD & HE0 & _ & Hv & Hq & _).
    destruct HS as (C0 & C1 & xi & _ & H1 & _ & H2 & _). fold s m m1 in H1, H2. cbv zeta in H2.
    assert (DD : is_dev (devRate s m i)) by (split; [reflexivity|exact HD]).
    assert (G0 : forall k, (k < c_nslip c)%nat -> law k (tau_after c pars b i (sd k) (md k)) = 0).
    { intros k Hk. rewrite <- (call_rates hs c b i pars G Hi U md sd law ref HSys HLaw Hv HM k Hk). now apply HG. }
    assert (E1 : dev_strain s m1 i = Z3). { unfold dev_strain. cbn [map]. rewrite !HE by lia. apply ten5_0. }
    apply rotates_rotq in H1; [|reflexivity]. rewrite HQ in H1.
    destruct (unit4_unit (quat s m i) eq_refl Hq) as [U1 U2]. pose proof (rotq_rot _ U1 U2) as RT. rewrite <- H1 in RT. clear H1 U1 U2.
    unfold strain_gap in H2. fold s m m1 in H2. rewrite HE0, E1, slip_zero in H2 by exact G0.
    assert (ER : erate (b_dt b) Z3 Z3 = Z3) by (unfold erate; rewrite sub3_Z; apply scal3_Z). rewrite ER, scal3_Z, add3_Z in H2.
    set (A := cong (tr3 C1) (devRate s m i)) in *.
    assert (AB : forall k, (k < 5)%nat -> Rabs (inner A (basis k)) <= bound).
    { intros k Hk. specialize (H2 k Hk). unfold sub3 in H2. rewrite add3_Zl, inner_scal_l, Rabs_mult, (Rabs_left (-1)) in H2 by lra.
      replace (- -1) with 1 in H2 by ring. now rewrite Rmult_1_l in H2. }
    assert (DA : is_dev A) by (apply cong_dev; [exact (proj1 (rot_tr _ RT))|exact DD]).
    rewrite <- (norm_cong (tr3 C1) (devRate s m i) (proj1 (rot_tr _ RT))). fold A.
    assert (B0 : 0 <= bound) by (pose proof (Rabs_pos (inner A (basis 0))); pose proof (AB 0%nat ltac:(lia)); lra).
    rewrite <- (norm_vec5 A DA). clear - AB B0.
    assert (SQ : forall k, (k < 5)%nat -> inner A (basis k) * inner A (basis k) <= bound * bound).
    { intros k Hk. specialize (AB k Hk). rewrite <- Rabs_mult_self. apply Rmult_le_compat; try apply Rabs_pos; assumption. }
    unfold vecNorm. replace (sqrt 5 * bound) with (sqrt (5 * (bound * bound))) by (rewrite sqrt_mult_alt, sqrt_square by lra; reflexivity).
    change (@nsqrt R RNum) with sqrt. apply sqrt_le_1_alt.
    unfold vec5. rarr. pose proof (SQ 0%nat ltac:(lia)). pose proof (SQ 1%nat ltac:(lia)). pose proof (SQ 2%nat ltac:(lia)). pose proof (SQ 3%nat ltac:(lia)). pose proof (SQ 4%nat ltac:(lia)). lra.
  Qed.
End Eff.
