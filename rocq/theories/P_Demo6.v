(** A concrete call that requests the tangent: an undeformed crystal that spins about its third axis. *)
From Coq Require Import List ZArith Bool Lia PeanoNat Reals Lra String.
From Verif Require Import Num Arr NumR Util SlipGeom Eos Hard KinVoce KinKMBalD Elast Evptn MatModel Cases SpecTensor
  SpecElast SpecSlip P_Tensor P_Elast P_Eos P_Sngl P_Sngl2 P_Sngl3 P_Batch P_Batch2 P_Batch3 P_Batch4 P_Api P_Builtin SpecApi P_Hist SpecStress P_Stress
  SpecKin SpecKinApi SpecStep SpecEnergy P_KinV P_Hard P_Kin4 P_Call P_Slip P_SlipH P_Demo P_Demo2 P_Demo3 P_Step P_Step2 P_Step3 P_Energy P_Rest P_Rigid P_Rigid2 P_Rigid3 P_Rigid4 P_Demo4.
From Verif Require Import SpecJac SpecTan P_Demo5 P_Jac3 P_Tan3 P_Lu.
Import ListNotations.
Local Open Scope R_scope.

Section Intro.
  Variables (hs : Solver R) (c : MClass R) (s : MM R) (pars : list R).
  Hypothesis HB : builtin hs c.
  Hypothesis U : in_use c s pars.
  Hypothesis HC : mm_complete s = true.
  Variables (bs : Solver R) (lu : LUSolver R) (n : nat) (dt : R) (m : Mem R).
  Hypothesis HO : batch_ok c s true n m.
  Variables (sg : SlipGeom R) (kin : Kinetics R) (hi : list (HistEntry R)).
  Hypothesis E1 : c_sgSet c (sub pars 3 (c_sgNP c)) = Some sg.
  Hypothesis E2 : c_kinSet c (sub pars (3 + c_sgNP c + c_elNP c) (c_kinNP c)) = Some (kin, hi).
  Hypothesis Hns : sg_nslip sg = c_nslip c.
  Hypothesis HnH : k_nH kin = 1%nat.
  Variable g : R.
  Hypothesis Hg : el_getGmod (el_of c pars) = Some g.
  Let mat := mat_of c pars sg kin.
  Hypothesis HU : forall i, (i < n)%nat -> exists h nh,
    k_updateH kin [strength s m i] dt (slip_rates c s m i) = Some (h, nh) /\
    k_valsOk kin (u_press (snglUpd mat (cell_of c s true m AV i) (pt_eInt (pt_of c s true m i)) (pt_stress (pt_of c s true m i))))
      (snglTkelv mat (cell_of c s true m AV i) (pt_eInt (pt_of c s true m i))) h = true /\
    let p := snglProb mat dt (cell_of c s true m AD i) (cell_of c s true m AW i) (cell_of c s true m AV i) (pt_of c s true m i) h in
    let r := bs 8%nat (computeRJ p) (nth 2 pars 0) 200%nat (tab 8 (fun _ => 0)) in
    so_converged r = true /\ mtan_vecds lu p (so_x r) <> None.
  Lemma good_intro_t : good hs c (call_of c s bs lu true n dt m).
  Proof.
    destruct (in_use_all hs c s pars HB U) as (HR & _ & _ & sg' & kin' & hi' & E1' & E2' & HM).
    refine (conj HB (conj HR (conj HO _))). cbn [call_of b_n b_solver b_lu b_s b_dt b_mtan b_m b_m1].
    rewrite E1 in E1'. apply some_inj in E1'. subst sg'. rewrite E2 in E2'.
    assert (EK : kin' = kin) by (apply (f_equal (option_map fst)) in E2'; cbn [option_map fst] in E2'; clear - E2'; congruence).
    subst kin'. clear E2' hi'.
    destruct (api_batch c s bs lu dt true n m _ _ HR HC HM HO) as (o & m1 & E & _ & P).
    rewrite E. cbn [snd]. f_equal. f_equal. cbv zeta in P.
    assert (NH : c_nH c = 1%nat) by (destruct HB as [ -> | [ -> | [ -> | [ -> | [ -> | [ -> | -> ]]]]]]; reflexivity).
    assert (G : forall i, (i < n)%nat -> fst (getResponseSngl bs lu mat dt (nth 2 pars 0)
       (cell_of c s true m AD i) (cell_of c s true m AW i) (cell_of c s true m AV i) (pt_of c s true m i)) = Done).
    { intros i Hi. destruct (HU i Hi) as (h & nh & F1 & F2 & F3 & F4).
      assert (V : forall k, (k < 14 + c_nslip c)%nat -> get (pt_hist (pt_of c s true m i)) k = val s m AH i k).
      { intros k Hk. unfold pt_of, pt_at. cbn [pt_hist]. apply (cell_val c s true n m AH i k); [apply HO|assumption|]. cbn. unfold numHist, iHistLbH. lia. }
      assert (L : List.length (pt_hist (pt_of c s true m i)) = (14 + c_nslip c)%nat).
      { pose proof (P_Batch4.cell_len c true s n m AH i HO Hi) as L. cbn [per_point] in L. unfold numHist, iHistLbH in L. rewrite NH in L. exact L. }
      destruct (mtan_vecds lu _ _) as [mv|] eqn:F5 in F4; [|congruence]. clear F4.
      refine (sngl_succeeds_t bs lu mat dt (nth 2 pars 0)
       (cell_of c s true m AD i) (cell_of c s true m AW i) (cell_of c s true m AV i) (pt_of c s true m i) (cell_of c s true m AM i) h nh g mv _ _ _ _ _).
      - unfold mat. cbn [m_kin mat_of m_sg]. rewrite Hns, HnH, <- F1. unfold iHistLbGdot, iHistLbH. f_equal.
        + apply list_get_ext; [rewrite sub_length by (rewrite L; lia); reflexivity|]. intros k Hk.
          rewrite sub_length in Hk by (rewrite L; lia). assert (k = 0%nat) by lia. subst k. rewrite get_sub by lia. apply V. lia.
        + apply list_get_ext; [rewrite sub_length by (rewrite L; lia); unfold slip_rates; now rewrite map_length, seq_length|]. intros k Hk.
          rewrite sub_length in Hk by (rewrite L; lia). rewrite get_sub by lia. rewrite V by lia.
          change (slip_rates c s m i) with (tab (c_nslip c) (fun k => val s m AH i (14 + k))). rewrite get_tab by lia. reflexivity.
      - exact F2.
      - exact F3.
      - exact F5.
      - exact Hg. }
    destruct o; [reflexivity| |]; destruct P as (k & Hk & P & _); specialize (G k Hk); unfold mat in G; rewrite P in G; discriminate.
  Qed.
End Intro.

Lemma mtan_some (lu : LUSolver R) p x : (forall B k, lu 8%nat (jacobian0 p (evalEv p x)) B k <> None) -> mtan_vecds lu p x <> None.
Proof.
  intros H. unfold mtan_vecds. specialize (H (mtan_rhs_T (evalEv p x)) 5%nat). destruct (lu _ _ _ _) as [sol|]; [|congruence].
  destruct (dxi_parts p (evalEv p x)) as [[? ?] ?]. discriminate.
Qed.
(** no slip, then the slip rate does not depend on the stress *)
Lemma voce_flat (v : Voce R) g tau : 0 < v_gam_w v -> 0 <= v_t_min v -> fst (fst (fst (voce_evalGdot v g tau))) = 0 -> snd (fst (voce_evalGdot v g tau)) = 0.
Proof.
  intros HG HT. unfold voce_evalGdot. cbv zeta. change (@nltb R RNum) with Rltb. change (@nabs R RNum) with Rabs.
  destruct (Rltb (v_t_min v) _) eqn:A; [|reflexivity]. destruct (Rltb (v_t_max v) _); [reflexivity|]. cbn [fst snd].
  apply Rltb_true in A. intros E. exfalso. change (@nexp R RNum) with exp in E. rops.
  apply Rmult_integral in E. destruct E as [E|E].
  - apply Rmult_integral in E. destruct E as [E|E]; [lra|]. match type of E with exp ?z = 0 => pose proof (exp_pos z) as Q; rewrite E in Q; lra end.
  - rewrite E, Rabs_R0 in A. lra.
Qed.

(** orientation (2,0,0,0), spin 5 about the third axis, time step 1/10; otherwise the point of P_Demo4 *)
Definition d6_m : Mem R := fun a =>
  match a with
  | AH => [0; 7; 0; 0; 0; 0; 0; 0; 0; 2; 0; 0; 0; 1; 0; 0; 0; 0; 0; 0; 0; 0; 0; 0; 0; 0]
  | AM => tab 36 (fun _ => 0)
  | _ => d4_m [0; 0; 5] a
  end.
Lemma d6_batch hs t : batch_ok (d2_c hs) (d2_s hs) t 1 d6_m.
Proof.
  split.
  - rewrite d2_strides. split; [|cbn; lia]. intros a Ha. destruct a; reflexivity.
  - rewrite d2_strides. intros a i Hi Hp. destruct i as [|i]; [|lia]; destruct t; destruct a; cbn in *; lia.
Qed.
Lemma d6_at_rest hs : at_rest hs (d2_c hs) demo_pars (d2_s hs) d6_m 0.
Proof.
  unfold at_rest, devRate, dev_strain, vNew, quat, strength, eInt, delv, pres, val. rewrite d2_strides. cbn [nth Nat.mul Nat.add d6_m d4_m firstn demo_m map stride_of].
  split; [reflexivity|]. split; [apply ten5_0|]. split; [|split; [|split; [|split; [|split]]]].
  - intros k Hk. change (c_nslip (d2_c hs)) with 12%nat in Hk. do 12 (destruct k as [|k]; [reflexivity|]). lia.
  - cbn. lra.
  - unfold SpecTensor.norm2. cbn. lra.
  - cbn. lra.
  - apply unloaded_cubic; [reflexivity|cbn; lra].
  - do 2 eexists. apply law_V; [now left|]. cbn. lra.
Qed.
Lemma d6_spin hs : spin (d2_s hs) d6_m 0 = mkV 0 0 5.
Proof. unfold spin, val. rewrite d2_strides. reflexivity. Qed.
Lemma d6_quat hs : quat (d2_s hs) d6_m 0 = [2; 0; 0; 0].
Proof. unfold quat, val. rewrite d2_strides. reflexivity. Qed.
Lemma d6_unit hs : unit4 (quat (d2_s hs) d6_m 0) = [1; 0; 0; 0].
Proof.
  rewrite d6_quat. unfold unit4, SpecTensor.norm2. cbn [map nth List.length seq]. rewrite ?sqrt_square. 
  match goal with |- context [sqrt ?z] => replace z with (2 * 2) by (cbn; ring) end. rewrite sqrt_square by lra. meq; field.
Qed.
Lemma rot_one : rotq [1; 0; 0; 0] = I3.
Proof. unfold rotq, quat_to_tensor, toM3, I3. cbn [get nth]. rops. meq; ring. Qed.
Lemma d6_x hs : rest_x (d2_s hs) d6_m (/ 10) 0 = [0; 0; 0; 0; 0; 0; 0; 50].
Proof.
  unfold rest_x, rigid_x. rewrite d6_unit, d6_spin, rot_one. unfold scalv, mulv, tr3, I3. cbn [v0 v1 v2 a00 a01 a02 a10 a11 a12 a20 a21 a22]. meq; field.
Qed.
Lemma d6_spins hs : / 10 ^ 90 < norm3 (scalv (/ 10) (spin (d2_s hs) d6_m 0)).
Proof.
  rewrite d6_spin. unfold scalv, norm3. cbn [nth v0 v1 v2].
  replace (dotv _ _) with (/ 2 * / 2) by (unfold dotv; cbn; field). rewrite sqrt_square by lra.
  apply Rlt_trans with (/ 10 ^ 1); [apply Rinv_lt_contravar; [apply Rmult_lt_0_compat; apply pow10_pos|apply Rlt_pow; [lra|lia]]|cbn; lra].
Qed.
Definition d6_al : R := 1 / Rpow (11 / 10) (1 / 3) * (1 / / 10).
Lemma d6_al0 : d6_al <> 0.
Proof.
  unfold d6_al. rewrite Rpow_pos by lra. pose proof (exp_pos (1 / 3 * ln (11 / 10))) as P. fold (Rpower (11 / 10) (1 / 3)) in P.
  apply Rmult_integral_contrapositive_currified; [|lra]. apply Rgt_not_eq. unfold Rdiv. rewrite Rmult_1_l. now apply Rinv_0_lt_compat.
Qed.
Definition d6_lu : LUSolver R := lu_by (rest_V d6_al (/ 2)).
Definition d6_call (t : bool) : BCall :=
  let s := d2_s checked in call_of (d2_c checked) s (offer (rest_x s d6_m (/ 10) 0)) d6_lu t 1 (/ 10) d6_m.
Lemma d6_good t : good checked (d2_c checked) (d6_call t).
Proof.
  destruct (d4_systems checked) as (md & sd & HS).
  assert (A1 : 0 < / 10) by lra.
  assert (A2 := d6_at_rest checked).
  assert (A3 : / 10 ^ 90 < norm3 (scalv (/ 10) (spin (d2_s checked) d6_m 0)) \/ spin (d2_s checked) d6_m 0 = mkV 0 0 0) by (left; apply d6_spins).
  assert (T : 0 <= nth 2 demo_pars 0) by (cbn; lra).
  destruct t.
  2:{ assert (A2' : forall i, (i < 1)%nat -> at_rest checked (d2_c checked) demo_pars (d2_s checked) d6_m i)
        by (intros i Hi; assert (i = 0%nat) by lia; subst i; exact A2).
      assert (A3' : forall i, (i < 1)%nat -> / 10 ^ 90 < norm3 (scalv (/ 10) (spin (d2_s checked) d6_m i)) \/ spin (d2_s checked) d6_m i = mkV 0 0 0)
        by (intros i Hi; assert (i = 0%nat) by lia; subst i; exact A3).
      assert (A4 : forall i, (i < 1)%nat -> forall rj it, (forall j, (j < 8)%nat -> nth j (fst (rj (rest_x (d2_s checked) d6_m (/ 10) i))) 0 = 0) ->
        so_converged (offer (rest_x (d2_s checked) d6_m (/ 10) 0) 8%nat rj (nth 2 demo_pars 0) it (tab 8 (fun _ => 0))) = true).
      { intros i Hi rj it HZ. assert (i = 0%nat) by lia. subst i. exact (proj1 (offer_finds _ rj _ it _ T HZ)). }
      exact (rest_good checked (d2_c checked) (d2_s checked) demo_pars (d2_builtin checked) (d2_in_use checked) (d2_complete checked) _ d6_lu 1 (/ 10) d6_m
        (d6_batch checked false) md sd HS (d4_pd checked) checked_keeps A1 A2' A3' A4). }
  destruct (in_use_all checked (d2_c checked) (d2_s checked) demo_pars (d2_builtin checked) (d2_in_use checked)) as (_ & HL & _ & sg & kin & hi & E1 & E2 & _).
  destruct (gmod_pd checked (d2_c checked) demo_pars (d2_builtin checked) HL (d4_pd checked)) as [g Hg].
  destruct (builtin_parts checked (d2_c checked) (d2_builtin checked)) as (Z1 & Z2 & _).
  pose proof (Z1 _ _ E1) as Hns. destruct (Z2 _ _ _ E2) as [HnH _]. change (c_nH (d2_c checked)) with 1%nat in HnH.
  refine (good_intro_t checked (d2_c checked) (d2_s checked) demo_pars (d2_builtin checked) (d2_in_use checked) (d2_complete checked) _ d6_lu 1 (/ 10) d6_m
    (d6_batch checked true) sg kin hi E1 E2 Hns HnH g Hg _).
  intros i Hi. assert (i = 0%nat) by lia. subst i.
  destruct (rest_point checked (d2_c checked) (d2_s checked) demo_pars (d2_builtin checked) HL true 1 (/ 10) d6_m 0 (d6_batch checked true) Hi md sd HS checked_keeps A1 A2 A3 sg kin hi E1 E2)
    as ((nh & F1) & F2 & F3 & F4 & F5 & F6 & F7 & F8).
  exists [kept (d2_c checked) demo_pars (strength (d2_s checked) d6_m 0)], nh. split; [exact F1|]. split; [exact F2|]. cbv zeta.
  set (p := snglProb _ _ _ _ _ _ _) in *.
  split; [exact (proj1 (offer_finds _ (computeRJ p) _ 200%nat _ T F3))|]. cbn [offer so_x].
  apply mtan_some. unfold d6_lu.
  assert (EV : pb_detV p = 11 / 10).
  { change (pb_detV p) with (get (cell_of (d2_c checked) (d2_s checked) true d6_m AV 0) 1). unfold cell_of. rewrite d2_strides. reflexivity. }
  assert (EA : d6_al = pb_a_V_ri p * pb_dt_ri p).
  { change (pb_a_V_ri p) with (1 / Rpow (pb_detV p) (1 / 3)). rewrite EV. reflexivity. }
  intros B k. apply rest_V_inv; [exact d6_al0|]. rewrite EA. clear B k.
  assert (EE : pb_e_vecd_n p = [0; 0; 0; 0; 0]).
  { change (pb_e_vecd_n p) with (sub (cell_of (d2_c checked) (d2_s checked) true d6_m AH 0) 4 5). unfold cell_of. rewrite d2_strides. reflexivity. }
  assert (ED : svecToVecd [0; 0; 0; 0; 0; 0; 3] = [0; 0; 0; 0; 0] :> list R).
  { rewrite svec_vec5; unfold sym6; cbn [get nth]; [rewrite <- (vec5_ten5 [0; 0; 0; 0; 0] eq_refl), ten5_0; reflexivity|unfold trace; cbn; ring]. }
  refine (rest_jac p _ (/ 2) 5 _ _ _ F4 _ _ _ _ _).
  - change (pb_d_vecd_sm p) with (svecToVecd (cell_of (d2_c checked) (d2_s checked) true d6_m AD 0)). unfold cell_of. rewrite d2_strides. exact ED.
  - change (pb_w_veccp_sm p) with (cell_of (d2_c checked) (d2_s checked) true d6_m AW 0). unfold cell_of. rewrite d2_strides. reflexivity.
  - rewrite F8. apply d6_unit.
  - unfold evalEv. cbn [ev_edot]. rewrite d6_x. unfold x_e, vecsVxa, vecsVsa, vecsVapb, tab, sub. cbn [map seq skipn firstn get nth]. rops. meq; ring.
  - unfold evalEv. cbn [ev_xi]. rewrite d6_x. unfold x_r, vecsVxa, tab, sub. cbn [map seq skipn firstn get nth]. rewrite r_scale_R. rops. meq; field.
  - rewrite <- (Rinv_inv 2) at 1. apply Rinv_le_contravar; [lra|]. apply Rle_trans with (10 ^ 1); [lra|apply Rle_pow; [lra|lia]].
  - change (pb_dt p) with (/ 10). field.
  - change (sg_nslip (pb_sg p)) with (sg_nslip sg). rewrite Hns. intros k Hk. specialize (F5 k Hk). revert F5.
    assert (EK : kin = voce_kinetics checked d2_v 12) by (apply (f_equal (option_map fst)) in E2; apply some_inj in E2; symmetry; exact E2).
    change (c_nslip (d2_c checked)) with 12%nat in Hk.
    assert (K1 : ev_gdot (evalEv p (rest_x (d2_s checked) d6_m (/ 10) 0)) = fst (fst (k_evalGdots kin (ev_taua (evalEv p (rest_x (d2_s checked) d6_m (/ 10) 0))) (pb_kin_vals p)))) by reflexivity.
    assert (K2 : ev_dgdot_dtau (evalEv p (rest_x (d2_s checked) d6_m (/ 10) 0)) = snd (fst (k_evalGdots kin (ev_taua (evalEv p (rest_x (d2_s checked) d6_m (/ 10) 0))) (pb_kin_vals p)))) by reflexivity.
    rewrite K1, K2, EK. cbn [voce_kinetics k_evalGdots]. unfold voce_evalGdots. cbn [fst snd]. rewrite !get_tab by assumption.
    apply voce_flat; [cbn; lra|]. unfold d2_v. destruct (voce_set false (sub demo_pars 6 9)) as (_ & _ & _ & -> & _). left. apply exp_pos.
Qed.
Lemma d6_strength t : strength (b_s (d6_call t)) (b_m1 (d6_call t)) 0 = 1.
Proof.
  destruct (d4_systems checked) as (md & sd & HS).
  assert (W := d6_spins checked).
  assert (G := d6_good t).
  assert (A1 : (0 < b_n (d6_call t))%nat) by (cbn; lia).
  assert (A2 : in_use (d2_c checked) (b_s (d6_call t)) demo_pars) by exact (d2_in_use checked).
  assert (A3 : 0 < b_dt (d6_call t)) by (cbn; lra).
  assert (A4 := d6_at_rest checked).
  assert (A5 : forall rj it, (forall j, (j < 8)%nat -> nth j (fst (rj (rest_x (b_s (d6_call t)) (b_m (d6_call t)) (b_dt (d6_call t)) 0))) 0 = 0) ->
    let r := b_solver (d6_call t) 8%nat rj (nth 2 demo_pars 0) it (tab 8 (fun _ => 0)) in
    so_x r = rest_x (b_s (d6_call t)) (b_m (d6_call t)) (b_dt (d6_call t)) 0 /\ so_xlast r = rest_x (b_s (d6_call t)) (b_m (d6_call t)) (b_dt (d6_call t)) 0).
  { intros rj it HZ. split; reflexivity. }
  destruct (rest_state checked (d2_c checked) (d6_call t) 0 demo_pars G A1 A2 md sd HS checked_keeps A3 A4 (or_introl W) A5) as (A & _).
  rewrite A. rewrite d4_kept. unfold strength, val. change (b_s (d6_call t)) with (d2_s checked). rewrite d2_strides. reflexivity.
Qed.
Lemma inner_same_outer l A B : inner (scal3 l I3) (outer A B) = l * (v0 A * v0 B + v1 A * v1 B + v2 A * v2 B).
Proof. cbv [inner outer scal3 I3 a00 a01 a02 a10 a11 a12 a20 a21 a22]. ring. Qed.
Lemma d6_tau t k : (k < 12)%nat ->
  trial_tau (d2_c checked) demo_pars (d6_call t) 0 (fun i => unitv (cub (fst (nth i sys_fcc d3)))) (fun i => unitv (cub (snd (nth i sys_fcc d3)))) [0; 0; 0; 0; 0; 0; 0; 50] k = 0.
Proof.
  intros Hk. unfold trial_tau, resolved. change (b_s (d6_call t)) with (d2_s checked). change (b_m (d6_call t)) with d6_m.
  destruct (d6_at_rest checked) as (_ & E0 & _). rewrite E0. clear E0.
  assert (EV : vNew (d2_s checked) d6_m 0 = 11 / 10) by (unfold vNew, val; rewrite d2_strides; cbn; lra).
  rewrite EV. set (a := Rpower _ _). clearbody a. set (e := _ - _). clearbody e. set (l := ln (11 / 10) / 3). clearbody l.
  assert (EE : add3 (scal3 (/ a) (trial_strain Z3 [0; 0; 0; 0; 0; 0; 0; 50])) (scal3 l I3) = scal3 l I3).
  { unfold trial_strain. cbn [map nth]. rewrite ten5_0, scal3_Z, add3_Zl, scal3_Z, add3_Zl. reflexivity. }
  rewrite EE. clear EE.
  assert (EL : scal3 (11 / 10) (latStress (d2_c checked) demo_pars (11 / 10) e (scal3 l I3)) = scal3 (5 * l) I3).
  { unfold latStress. change (p_hooke (d2_c checked) demo_pars) with (hooke_cubic 3 1 1). change (p_ghex (d2_c checked) demo_pars) with 0.
    cbv [hooke_cubic basis I3 add3 scal3 a00 a01 a02 a10 a11 a12 a20 a21 a22]. apply mk3_eq; field; apply Rgt_not_eq, sqrt_lt_R0; lra. }
  rewrite EL, inner_same_outer. clear EL. unfold unitv.
  do 12 (destruct k as [|k]; [cbn [nth fst snd sys_fcc cub v0 v1 v2]; set (x := / norm3 _); set (y := / norm3 _); ring|]). lia.
Qed.
Lemma d6_smooth t : smooth_law checked (d2_c checked) demo_pars (tKel (b_s (d6_call t)) (b_m1 (d6_call t)) 0) 1
  (fun _ => voce_law (kin_par (d2_c checked) demo_pars 2) (kin_par (d2_c checked) demo_pars 1) 1) (kin_par (d2_c checked) demo_pars 2)
  (fun _ tau => Rabs tau / 1 <> Rpower (/ 10 ^ 60) (kin_par (d2_c checked) demo_pars 1) /\ Rabs tau / 1 <> Rpower (10 ^ 60) (kin_par (d2_c checked) demo_pars 1)).
Proof. apply sm_V; [now left| |]; cbn; lra. Qed.
Lemma d6_answer t f tol it x0 : so_x (b_solver (d6_call t) 8%nat f tol it x0) = [0; 0; 0; 0; 0; 0; 0; 50].
Proof. unfold d6_call, call_of. cbn [b_solver offer so_x]. apply d6_x. Qed.
Lemma d6_off t k : (k < 12)%nat ->
  let t := trial_tau (d2_c checked) demo_pars (d6_call t) 0 (fun i => unitv (cub (fst (nth i sys_fcc d3)))) (fun i => unitv (cub (snd (nth i sys_fcc d3)))) [0; 0; 0; 0; 0; 0; 0; 50] k in
  Rabs t / 1 <> Rpower (/ 10 ^ 60) (kin_par (d2_c checked) demo_pars 1) /\ Rabs t / 1 <> Rpower (10 ^ 60) (kin_par (d2_c checked) demo_pars 1).
Proof.
  intros Hk u. unfold u. rewrite (d6_tau t k Hk), Rabs_R0. unfold Rdiv. rewrite Rmult_0_l. split; apply Rlt_not_eq, exp_pos.
Qed.
Lemma d6_rot : / 10 ^ 9 <= norm3 (trial_rot [0; 0; 0; 0; 0; 0; 0; 50]).
Proof.
  unfold trial_rot, scalv, norm3, dotv. cbn [nth v0 v1 v2].
  replace (sqrt _) with (/ 2); [lra|]. symmetry. replace (1 / 100 * 0 * (1 / 100 * 0) + 1 / 100 * 0 * (1 / 100 * 0) + 1 / 100 * 50 * (1 / 100 * 50)) with ((/ 2) * (/ 2)) by field. apply sqrt_square. lra.
Qed.
Lemma d6_trace t : trace (devRate (b_s (d6_call t)) (b_m (d6_call t)) 0) = 0.
Proof.
  destruct (d6_at_rest checked) as (R0 & _). change (trace (devRate (d2_s checked) d6_m 0) = 0). rewrite R0. unfold trace, Z3. cbn [a00 a11 a22]. ring.
Qed.
Lemma offer_counter hs c b i g : good hs c b -> (i < b_n b)%nat -> b_solver b = offer g -> val (b_s b) (b_m1 b) AH i 3 = if b_mtan b then 2 else 1.
Proof.
  intros G Hi HS. destruct (call_counter hs c b i G Hi) as (f & tol & E). cbv zeta in E. rewrite HS in E. cbn [offer so_nfev so_nfev_rj] in E.
  rewrite E. destruct (b_mtan b); reflexivity.
Qed.
Lemma offer_differs hs c b b' i g : good hs c b -> good hs c b' -> b_mtan b = true -> b_mtan b' = false -> b_s b' = b_s b -> (i < b_n b)%nat -> (i < b_n b')%nat ->
  b_solver b = offer g -> b_solver b' = offer g -> val (b_s b) (b_m1 b) AH i 3 <> val (b_s b) (b_m1 b') AH i 3.
Proof.
  intros G G' T F S Hi Hi' O O'. rewrite (offer_counter hs c b i g G Hi O), T. rewrite <- S, (offer_counter hs c b' i g G' Hi' O'), F. lra.
Qed.
Lemma d6_s t : b_s (d6_call t) = d2_s checked. Proof. reflexivity. Qed.
Lemma d6_solver t : b_solver (d6_call t) = offer (rest_x (d2_s checked) d6_m (/ 10) 0). Proof. reflexivity. Qed.
Lemma d6_mtan t : b_mtan (d6_call t) = t. Proof. reflexivity. Qed.
Lemma d6_n t : b_n (d6_call t) = 1%nat. Proof. reflexivity. Qed.
Lemma d6_mem t : b_m (d6_call t) = d6_m. Proof. reflexivity. Qed.
Lemma d6_dt t : b_dt (d6_call t) = / 10. Proof. reflexivity. Qed.
Lemma d6_linear t : b_lu (d6_call t) = d6_lu. Proof. reflexivity. Qed.
Lemma d6_counter : val (b_s (d6_call true)) (b_m1 (d6_call true)) AH 0 3 <> val (b_s (d6_call true)) (b_m1 (d6_call false)) AH 0 3.
Proof.
  assert (A : forall t, (0 < b_n (d6_call t))%nat) by (intros t; rewrite d6_n; lia).
  assert (S : b_s (d6_call false) = b_s (d6_call true)) by (rewrite !d6_s; reflexivity).
  exact (offer_differs checked (d2_c checked) (d6_call true) (d6_call false) 0 _ (d6_good true) (d6_good false) (d6_mtan true) (d6_mtan false) S (A true) (A false) (d6_solver true) (d6_solver false)).
Qed.
