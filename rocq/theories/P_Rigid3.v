(** Calls on a material without elastic strain that does not deform succeed (C23, C24). *)
From Coq Require Import List ZArith Bool Lia PeanoNat Reals Lra String.
From Verif Require Import Num Arr NumR Util SlipGeom Eos Hard KinVoce KinKMBalD Elast Evptn MatModel Cases SpecTensor
  SpecElast SpecSlip P_Tensor P_Elast P_Eos P_Sngl P_Sngl2 P_Sngl3 P_Batch P_Batch2 P_Batch3 P_Batch4 P_Api P_Builtin SpecApi P_Hist SpecStress P_Stress
  SpecKin SpecKinApi SpecStep SpecEnergy P_KinV P_Hard P_Kin4 P_Call P_Slip P_SlipH P_Demo P_Demo2 P_Demo3 P_Step P_Step2 P_Step3 P_Energy P_Rest P_Rigid P_Rigid2.
Import ListNotations.
Local Open Scope R_scope.

Lemma voce_shear0 v n g : List.length g = n -> (forall k, (k < n)%nat -> get g k = 0) -> exists sat, voce_getEvolVals v n g = (0, sat).
Proof.
  intros L H. unfold voce_getEvolVals. rewrite (shear_vec n g L), (shear_zero n g L H). eexists. reflexivity.
Qed.
Lemma km_shear0 k n g : List.length g = n -> (forall j, (j < n)%nat -> get g j = 0) -> exists k2, km_getEvolVals k n g = (0, k2).
Proof.
  intros L H. unfold km_getEvolVals. rewrite (shear_vec n g L), (shear_zero n g L H). eexists. reflexivity.
Qed.
Lemma voce_rest hs v n h dt g : keeps_solution hs -> List.length g = n -> (forall k, (k < n)%nat -> get g k = 0) ->
  exists nh, voce_updateH hs v n [h] dt g = Some ([h], nh).
Proof.
  intros HK L H. unfold voce_updateH. destruct (voce_shear0 v n g L H) as [sat ->]. cbn [get nth].
  destruct (update_zero hs (voce_getSdot1 v (0, sat)) h dt HK (voce_sdot0 v sat h)) as [nh ->]. now exists nh.
Qed.
Lemma km_rest hs k n h dt g : keeps_solution hs -> 0 < h -> List.length g = n -> (forall j, (j < n)%nat -> get g j = 0) ->
  exists nh, km_updateH hs k n [h] dt g = Some ([Rmax h (km_hdn_min k)], nh).
Proof.
  intros HK Hh L H. unfold km_updateH. destruct (km_shear0 k n g L H) as [k2 ->]. cbn [get nth].
  change (@nlog R RNum) with ln. change (@nmax R RNum) with Rmax.
  destruct (update_zero hs (km_getSdot1 k (0, k2)) (ln (Rmax h (km_hdn_min k))) dt HK (km_sdot0 k k2 _)) as [nh ->]. exists nh.
  change (@nexp R RNum) with exp. rewrite exp_ln; [reflexivity|]. apply Rlt_le_trans with h; [assumption|apply Rmax_l].
Qed.

Lemma rest_hard hs c pars T h law ref kin hi dt g : slip_law hs c pars T (kept c pars h) law ref -> List.length pars = mm_nParams c ->
  c_kinSet c (sub pars (3 + c_sgNP c + c_elNP c) (c_kinNP c)) = Some (kin, hi) -> keeps_solution hs -> 0 < h ->
  List.length g = c_nslip c -> (forall k, (k < c_nslip c)%nat -> get g k = 0) ->
  (exists nh, k_updateH kin [h] dt g = Some ([kept c pars h], nh)) /\ (forall pr, k_valsOk kin pr T [kept c pars h] = true) /\ k_nH kin = 1%nat.
Proof.
  intros HLaw HL HK HS Hh L H. rewrite kin_pars_sub in HK by assumption.
  assert (KM : forall ga p1 q1 per n, c_kinSet c = kinKM hs ga p1 q1 per n (c_nslip c) -> n = km_groups c -> c_kinNP c = (13 + 3 * n)%nat ->
     (forall v, (v < n)%nat -> km_params_ok ga p1 n (kin_pars c pars) (kept c pars h) T v) -> (0 < n)%nat ->
     (exists nh, k_updateH kin [h] dt g = Some ([kept c pars h], nh)) /\ (forall pr, k_valsOk kin pr T [kept c pars h] = true) /\ k_nH kin = 1%nat).
  { intros ga p1 q1 per n EK EN NP PO Hn. rewrite EK in HK. unfold kinKM in HK. set (k := km_setParams ga p1 q1 per n (kin_pars c pars)) in *.
    destruct (_ && _); [|discriminate]. apply (f_equal (option_map fst)) in HK. cbn [option_map fst] in HK. apply some_inj in HK. subst kin.
    assert (EM : kept c pars h = Rmax h (km_hdn_min k)).
    { unfold kept. rewrite NP. replace (Nat.leb 14 (13 + 3 * n)) with true by (symmetry; apply Nat.leb_le; lia).
      unfold km_old. f_equal. unfold k, km_setParams. cbn [km_hdn_min]. change (@get R RNum) with (fun (l : list R) k => nth k l 0). cbv beta. rewrite kin_pars_nth by lia.
      rewrite <- EN. replace (2 + n + 6 + n + n + 4)%nat with (12 + 3 * n)%nat by lia. change (@nmul R RNum) with Rmult. f_equal. cbn. lra. }
    split; [|split; [|reflexivity]].
    - rewrite EM. cbn [km_kinetics k_updateH]. now apply km_rest.
    - intros pr. cbn [km_kinetics k_valsOk]. unfold km_valsOk. 
      change (km_withGAthermal k) with ga. change (km_nVPer k) with n. destruct ga.
      + specialize (PO 0%nat Hn). unfold km_params_ok in PO. apply Rltb_true. unfold k, km_setParams. cbn [km_tau_a].
        apply PO.
      + apply forallb_forall. intros v Hv. apply in_seq in Hv. specialize (PO v (proj2 Hv)). unfold km_params_ok in PO.
        apply Rltb_true. destruct PO as (_ & _ & _ & _ & _ & _ & _ & _ & _ & _ & [_ PO] & _). 
        refine (eq_ind _ (fun x => 0 < x) PO _ _). unfold km_getVals. cbn [fst].
        change (km_nVPer k) with n. change (get (?a ++ ?b) (2 + v)) with (get b v).
        unfold get at 1. rewrite app_nth1 by (rewrite tab_length; lia). change (nth v ?l nundef) with (get l v). rewrite get_tab by lia.
        unfold km_strength, k, km_setParams. cbn [km_go km_s]. rewrite !get_sub by lia. change (@get R RNum) with (fun (l : list R) k => nth k l 0). cbv beta.
        change (@nsqrt R RNum) with sqrt. cbn [nth]. rops. f_equal; [f_equal; lia|]. f_equal. f_equal. lia. }
  destruct HLaw as [HC H2|HC PO|HC PO|HC PO Q1].
  - assert (E : exists nl n, c_kinSet c = kinVoce hs nl n /\ n = c_nslip c /\ Nat.leb 14 (c_kinNP c) = false).
    { destruct HC as [ -> | [ -> | [ -> | -> ]]]; do 2 eexists; (split; [reflexivity|split; reflexivity]). }
    destruct E as (nl & n & E & EN & EL). rewrite E in HK. unfold kinVoce in HK. apply (f_equal (option_map fst)) in HK. cbn [option_map fst] in HK. apply some_inj in HK. subst kin.
    unfold kept. rewrite EL. cbn [voce_kinetics k_updateH k_valsOk k_nH]. subst n.
    split; [now apply voce_rest|]. split; [|reflexivity]. intros pr. apply Rltb_true. exact Hh.
  - apply (KM false false false false 1%nat); try (rewrite HC; reflexivity); [|lia]. intros v Hv. assert (v = 0%nat) by lia. subst v. exact PO.
  - apply (KM true false false false 1%nat); try (rewrite HC; reflexivity); [|lia]. intros v Hv. assert (v = 0%nat) by lia. subst v. exact PO.
  - apply (KM true true true true 24%nat); try (rewrite HC; reflexivity); [|lia]. exact PO.
Qed.

Lemma shear_pos C : pos_def C -> 0 < voigt_shear C.
Proof.
  intros H. assert (P : forall k, (k < 5)%nat -> 0 < inner (basis k) (C (basis k))).
  { intros k Hk. apply H; [apply (basis_dev k Hk)|]. intros E. pose proof (basis_orthonormal k k ltac:(lia) ltac:(lia)) as B.
    rewrite E, inner_Zl in B. unfold kron in B. rewrite Nat.eqb_refl in B. lra. }
  unfold voigt_shear. pose proof (P 0%nat ltac:(lia)). pose proof (P 1%nat ltac:(lia)). pose proof (P 2%nat ltac:(lia)).
  pose proof (P 3%nat ltac:(lia)). pose proof (P 4%nat ltac:(lia)). lra.
Qed.
Lemma gmod_pd hs c pars : builtin hs c -> List.length pars = mm_nParams c -> pos_def (p_hooke c pars) -> exists g, el_getGmod (el_of c pars) = Some g.
Proof.
  intros HB HL.
  assert (CU : forall c11 c12 c44, pos_def (hooke_cubic c11 c12 c44) -> exists g, el_getGmod (cubic_setParams [c11; c12; c44]) = Some g).
  { intros c11 c12 c44 H. eexists. apply some_gmod; [apply cubic_gmod|]. pose proof (shear_pos _ H). lra. }
  assert (HX : forall c11 c12 c13 c33 c44 g, pos_def (hooke_hex c11 c12 c13 c33 c44) -> exists b, el_getGmod (hexag_setParams [c11; c12; c13; c33; c44; g]) = Some b).
  { intros c11 c12 c13 c33 c44 g H. eexists. apply some_gmod; [apply hex_gmod|]. now apply shear_pos. }
  destruct HB as [ -> | [ -> | [ -> | [ -> | [ -> | [ -> | -> ]]]]]];
    unfold el_of, p_hooke, hexagonal; cbn [cls_FCC_A cls_FCC_AH cls_FCC_B cls_BCC_A cls_HCP_A cls_BCC_B cls_BCC_BH c_elSet c_elNP c_sgNP hexag_nParams cubic_nParams Nat.eqb Nat.add];
    rewrite sub_map by (rewrite HL; apply Nat.leb_le; vm_compute; reflexivity); cbn [seq map Nat.add];
    change cubic_nParams with 3%nat; change hexag_nParams with 6%nat; cbn [seq map Nat.add Nat.eqb];
    [apply CU .. | apply HX].
Qed.

Lemma unit4_unit q : List.length q = 4%nat -> SpecTensor.norm2 q <> 0 -> List.length (unit4 q) = 4%nat /\ SpecTensor.norm2 (unit4 q) = 1.
Proof. intros L H. rewrite <- normalize_unit4 by assumption. destruct (P_Sngl2.normalize_unit q L H). split; assumption. Qed.

(** exact solution of the crystal update of point [i] *)
Definition rest_x s m dt i := rigid_x dt (rotq (unit4 (quat s m i))) (spin s m i).

Section Point.
  Variables (hs : Solver R) (c : MClass R) (s : MM R) (pars : list R).
  Hypothesis HB : builtin hs c.
  Hypothesis HL : List.length pars = mm_nParams c.
  Variables (mtan : bool) (n : nat) (dt : R) (m : Mem R) (i : nat).
  Hypothesis HO : batch_ok c s mtan n m.
  Hypothesis Hi : (i < n)%nat.
  Variables (md sd : nat -> V3).
  Hypothesis HSys : systems hs c pars md sd.
  Hypothesis HKh : keeps_solution hs.
  Hypothesis Hdt : 0 < dt.
  Hypothesis HR : at_rest hs c pars s m i.
  Hypothesis HW : / 10 ^ 90 < norm3 (scalv dt (spin s m i)) \/ spin s m i = mkV 0 0 0.
  Variables (sg : SlipGeom R) (kin : Kinetics R) (hi : list (HistEntry R)).
  Hypothesis E1 : c_sgSet c (sub pars 3 (c_sgNP c)) = Some sg.
  Hypothesis E2 : c_kinSet c (sub pars (3 + c_sgNP c + c_elNP c) (c_kinNP c)) = Some (kin, hi).
  Let mat := mat_of c pars sg kin.
  Let h := [kept c pars (strength s m i)].
  Let p := snglProb mat dt (cell_of c s mtan m AD i) (cell_of c s mtan m AW i) (cell_of c s mtan m AV i) (pt_of c s mtan m i) h.
  Let pr := u_press (snglUpd mat (cell_of c s mtan m AV i) (pt_eInt (pt_of c s mtan m i)) (pt_stress (pt_of c s mtan m i))).
  Let tK := snglTkelv mat (cell_of c s mtan m AV i) (pt_eInt (pt_of c s mtan m i)).
  Lemma rest_point : (exists nh, k_updateH kin [strength s m i] dt (slip_rates c s m i) = Some (h, nh)) /\ k_valsOk kin pr tK h = true /\
    (forall j, (j < 8)%nat -> nth j (residual p (rest_x s m dt i)) 0 = 0) /\
    ev_e_f (evalEv p (rest_x s m dt i)) = [0; 0; 0; 0; 0] /\ (forall k, (k < c_nslip c)%nat -> get (ev_gdot (evalEv p (rest_x s m dt i))) k = 0) /\
    rotq (ev_C_quat (evalEv p (rest_x s m dt i))) = mul3 (rotq (unit4 (quat s m i))) (turn (scalv dt (mulv (tr3 (rotq (unit4 (quat s m i)))) (spin s m i)))) /\
    ev_C_quat (evalEv p (rest_x s m dt i)) = get_c_quat (emap_to_quat (ev_xi (evalEv p (rest_x s m dt i)))) (unit4 (quat s m i)) /\
    pb_Cn_quat p = unit4 (quat s m i).
  Proof.
    destruct (builtin_parts hs c HB) as (Z1 & Z2 & _).
    pose proof (Z1 _ _ E1) as Hns. destruct (Z2 _ _ _ E2) as [HnH _].
    assert (NH : c_nH c = 1%nat) by (destruct HB as [ -> | [ -> | [ -> | [ -> | [ -> | [ -> | -> ]]]]]]; reflexivity). rewrite NH in HnH.
    destruct HR as (HD & HE & HG & Hv & HQ & Hh & HU & law & ref & HLaw).
    assert (VI : forall a k, (k < per_point (c_nH c) (c_nslip c) mtan a)%nat -> get (cell_of c s mtan m a i) k = val s m a i k)
      by (intros a k Hk; apply (cell_val c s mtan n m a i k); [apply HO|assumption|assumption]).
    destruct (rest_hard hs c pars _ (strength s m i) law ref kin hi dt (slip_rates c s m i) HLaw HL E2 HKh Hh) as ((nh & F1) & F2 & _).
    { unfold slip_rates. now rewrite map_length, seq_length. }
    { intros k Hk. change (slip_rates c s m i) with (tab (c_nslip c) (fun k => val s m AH i (14 + k))). rewrite get_tab by assumption. now apply HG. }
    split; [exists nh; exact F1|].
    assert (ET : tK = (eInt s m i - p_ec0 c pars) / p_cv pars).
    { unfold tK, snglTkelv, mat, mat_of, p_eos. cbn [m_eos]. unfold pt_of, pt_at. cbn [pt_eInt].
      change (cell (mm_strides s) (c_nH c) (c_nslip c) mtan m AE i) with (cell_of c s mtan m AE i).
      rewrite (VI AE 0%nat) by (cbn [per_point]; lia). fold (eInt s m i). unfold evalPT, eos_setParams. rarr. cbn. unfold Rdiv. ring. }
    rewrite ET. split; [apply F2|].
    assert (L4 : List.length (quat s m i) = 4%nat) by reflexivity.
    destruct (systems_data hs c pars md sd sg HSys HL E1) as [SD SL].
    destruct (law_data hs c pars _ _ law ref pr kin hi HLaw HL E2 (F2 pr)) as (R0 & R1 & R2).
    assert (LH : List.length (pt_hist (pt_of c s mtan m i)) = (14 + c_nslip c)%nat).
    { pose proof (P_Batch4.cell_len c mtan s n m AH i HO Hi) as L. cbn [per_point] in L. unfold numHist, iHistLbH in L. rewrite NH in L. exact L. }
    assert (VH : forall k, (k < 14 + c_nslip c)%nat -> get (pt_hist (pt_of c s mtan m i)) k = val s m AH i k).
    { intros k Hk. unfold pt_of, pt_at. cbn [pt_hist]. apply (VI AH k). cbn. unfold numHist, iHistLbH. lia. }
    assert (EQ : pb_Cn_quat p = unit4 (quat s m i)).
    { rewrite <- normalize_unit4 by assumption. change (pb_Cn_quat p) with (vecsVNormalize 4 (sub (pt_hist (pt_of c s mtan m i)) 9 4)). f_equal.
      apply list_get_ext; [rewrite sub_length by (rewrite LH; lia); reflexivity|]. intros k Hk.
      rewrite sub_length in Hk by (rewrite LH; lia). rewrite get_sub by lia. rewrite VH by lia. do 4 (destruct k as [|k]; [reflexivity|]); lia. }
    assert (EDV : pb_detV p = vNew s m i).
    { change (pb_detV p) with (get (cell_of c s mtan m AV i) 1). apply VI. cbn [per_point]. lia. }
    assert (Eev : pb_eVref p = eInt s m i - delv s m i * pres s m i).
    { unfold p, snglProb, mkProb, snglUpd, updateSimple. cbn [pb_eVref u_eNew].
      unfold pt_of, pt_at. cbn [pt_eInt pt_stress].
      change (cell (mm_strides s) (c_nH c) (c_nslip c) mtan m) with (cell_of c s mtan m).
      rewrite !VI by (cbn [per_point]; lia). reflexivity. }
    assert (HQ1 : List.length (pb_Cn_quat p) = 4%nat /\ SpecTensor.norm2 (pb_Cn_quat p) = 1) by (rewrite EQ; now apply unit4_unit).
    assert (HV1 : 0 < pb_detV p) by now rewrite EDV.
    assert (HG1 : forall tau, fst (fst (k_evalGdots (pb_kin p) tau (pb_kin_vals p))) = tab (c_nslip c) (fun k => law k (get tau k))).
    { intros tau. change (pb_kin p) with kin. change (pb_kin_vals p) with (fst (k_getVals kin pr tK h)). rewrite ET. apply R2. }
    assert (HZ1 : forall k, law k 0 = 0) by (intros k; exact (law_zero hs c pars _ _ law ref HLaw k)).
    assert (HE1 : pb_e_vecd_n p = [0; 0; 0; 0; 0]).
    { change (pb_e_vecd_n p) with (sub (pt_hist (pt_of c s mtan m i)) 4 5). apply zero5; [rewrite sub_length by (rewrite LH; lia); reflexivity|].
      rewrite <- HE. unfold dev_strain. f_equal.
      apply list_get_ext; [rewrite sub_length by (rewrite LH; lia); reflexivity|]. intros k Hk.
      rewrite sub_length in Hk by (rewrite LH; lia). rewrite get_sub by lia. rewrite VH by lia. do 5 (destruct k as [|k]; [reflexivity|]); lia. }
    assert (HD1 : pb_d_vecd_sm p = vec5 Z3).
    { change (pb_d_vecd_sm p) with (svecToVecd (cell_of c s mtan m AD i)).
      assert (ED : sym6 (get (cell_of c s mtan m AD i)) = Z3).
      { rewrite <- HD. unfold devRate, sym6. rewrite !VI by (cbn [per_point]; lia). reflexivity. }
      rewrite svec_vec5 by (rewrite ED; unfold trace, Z3; cbn; ring). now rewrite ED. }
    assert (HW1 : pb_w_veccp_sm p = ofV3 (spin s m i)).
    { change (pb_w_veccp_sm p) with (cell_of c s mtan m AW i).
      pose proof (P_Batch4.cell_len c mtan s n m AW i HO Hi) as LW. cbn [per_point] in LW.
      unfold spin. rewrite <- !VI by (cbn [per_point]; lia).
      destruct (cell_of c s mtan m AW i) as [|? [|? [|? [|]]]]; try discriminate LW. reflexivity. }
    assert (HU1 : unloaded c pars (pb_detV p) (pb_eVref p)) by (rewrite EDV, Eev; exact HU).
    assert (HX1 : / 10 ^ 90 < norm3 (scalv (pb_dt p) (mulv (tr3 (rotq (pb_Cn_quat p))) (spin s m i))) \/
                  scalv (pb_dt p) (mulv (tr3 (rotq (pb_Cn_quat p))) (spin s m i)) = mkV 0 0 0).
    { rewrite EQ. change (pb_dt p) with dt. destruct (unit4_unit _ L4 HQ) as [U1 U2]. pose proof (rotq_rot _ U1 U2) as RT.
      rewrite <- mulv_scalv, norm_mulv by (apply (proj1 (rot_tr _ RT))).
      destruct HW as [A|A]; [left; exact A|right; rewrite A]. clear. set (B := tr3 _). clearbody B. unfold scalv. un3. meq; ring. }
    assert (HD0 : pb_dt p <> 0) by (change (pb_dt p) with dt; lra).
    unfold rest_x. rewrite <- EQ.
    split; [|split; [|split; [|split; [|split]]]].
    - intros j Hj. exact (rigid_zero p hs c pars (spin s m i) md sd law HB HL eq_refl HV1 eq_refl eq_refl eq_refl HD0 Hns SD SL HG1 HZ1 HQ1 HE1 HD1 HW1 HU1 HX1 j Hj).
    - exact (rigid_e p (spin s m i) HE1).
    - intros k Hk. exact (rigid_gdot p hs c pars (spin s m i) md sd law HB HL eq_refl HV1 eq_refl eq_refl Hns SD SL HG1 HZ1 HE1 HU1 k Hk).
    - pose proof (ev_C_comp p HQ1 (rigid_x (pb_dt p) (rotq (pb_Cn_quat p)) (spin s m i))) as CC. rewrite rigid_xi, turn_emap in CC. exact CC.
    - reflexivity.
    - reflexivity.
  Qed.
End Point.

Section Calls.
  Variables (hs : Solver R) (c : MClass R) (s : MM R) (pars : list R).
  Hypothesis HB : builtin hs c.
  Hypothesis U : in_use c s pars.
  Hypothesis HC : mm_complete s = true.
  Variables (bs : Solver R) (lu : LUSolver R) (n : nat) (dt : R) (m : Mem R).
  Hypothesis HO : batch_ok c s false n m.
  Variables (md sd : nat -> V3).
  Hypothesis HSys : systems hs c pars md sd.
  Hypothesis HPD : pos_def (p_hooke c pars).
  Hypothesis HKh : keeps_solution hs.
  Hypothesis Hdt : 0 < dt.
  Hypothesis HR : forall i, (i < n)%nat -> at_rest hs c pars s m i.
  Hypothesis HW : forall i, (i < n)%nat -> / 10 ^ 90 < norm3 (scalv dt (spin s m i)) \/ spin s m i = mkV 0 0 0.
  Hypothesis HF : forall i, (i < n)%nat -> forall rj it, (forall j, (j < 8)%nat -> nth j (fst (rj (rest_x s m dt i))) 0 = 0) ->
    so_converged (bs 8%nat rj (nth 2 pars 0) it (tab 8 (fun _ => 0))) = true.

  Lemma rest_good : good hs c (call_of c s bs lu false n dt m).
  Proof.
    destruct (in_use_all hs c s pars HB U) as (_ & HL & _ & sg & kin & hi & E1 & E2 & _).
    destruct (gmod_pd hs c pars HB HL HPD) as [g Hg].
    destruct (builtin_parts hs c HB) as (Z1 & Z2 & _).
    pose proof (Z1 _ _ E1) as Hns. destruct (Z2 _ _ _ E2) as [HnH _].
    assert (NH : c_nH c = 1%nat) by (destruct HB as [ -> | [ -> | [ -> | [ -> | [ -> | [ -> | -> ]]]]]]; reflexivity). rewrite NH in HnH.
    apply (good_intro hs c s pars HB U HC bs lu n dt m HO sg kin hi E1 E2 Hns HnH g Hg).
    intros i Hi. destruct (rest_point hs c s pars HB HL false n dt m i HO Hi md sd HSys HKh Hdt (HR i Hi) (HW i Hi) sg kin hi E1 E2) as ((nh & F1) & F2 & F3 & _).
    exists [kept c pars (strength s m i)], nh. split; [exact F1|]. split; [exact F2|]. apply (HF i Hi). exact F3.
  Qed.
End Calls.
