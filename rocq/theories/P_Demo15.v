(** Concrete successful calls of the built-in model with nonlinear Voce hardening, exponent 2, below and above saturation. *)
From Coq Require Import List ZArith Bool Lia PeanoNat Reals Lra String.
From Verif Require Import Num Arr NumR Util SlipGeom Eos Hard KinVoce KinKMBalD Elast Evptn MatModel Cases SpecTensor
  P_Tensor P_Eos P_Sngl P_Sngl2 P_Sngl3 P_Batch P_Batch2 P_Batch3 P_Api P_Builtin SpecApi P_Hist P_Slip P_Batch4 P_Demo SpecKin P_KinV P_Hard P_Call P_Demo2
  SpecKinApi P_Kin3.
Import ListNotations.
Local Open Scope R_scope.

Definition nl_demo_pars : list R := [3; 2; /100; 3; 1; 1; 1; /10; 1; 5/8; 1; 2; 2; /20; 4; 1; 17/10; -600].
Section D15.
  Variable hs : Solver R.
  Definition d15_c : MClass R := cls_FCC_AH hs.
  Definition d15_s : MM R := fst (mm_run d15_c (mm_new d15_c) [OInit [] nl_demo_pars []; OComplete]).
  Definition d15_v : Voce R := voce_setParams true (sub nl_demo_pars 6 10).
  Lemma d15_builtin : builtin hs d15_c.
  Proof. right. left. reflexivity. Qed.
  Lemma d15_reach : reachable d15_c d15_s.
  Proof. apply reach_default. Qed.
  Lemma d15_init : exists s1, mm_init d15_c (mm_new d15_c) [] nl_demo_pars [] = (Done, s1).
  Proof.
    destruct (@geom_fcc) as (g & Hg & _).
    eapply (init_done_conv d15_c (mm_new d15_c) [] nl_demo_pars []
      {| pa_sg := g; pa_el := c_elSet d15_c (sub nl_demo_pars 3 3); pa_kin := voce_kinetics hs d15_v 12;
         pa_hist := voce_histInfo d15_v; pa_bulk := 1 / 3 * (3 + 2 * 1) |}).
    - repeat split; cbn; lia.
    - refine (conj Hg (conj eq_refl (conj eq_refl _))).
      cbn [pa_el pa_bulk d15_c cls_FCC_AH c_elSet]. unfold el_getBulkMod, cubic_setParams, nl_demo_pars. cbn [el_K_bulkMod]. rarr.
      destruct (Rleb (1 / 3 * (3 + 2 * 1)) 0) eqn:E; [apply Rleb_true in E; lra|reflexivity].
    - reflexivity.
  Qed.
  Lemma d15_in_use : in_use d15_c d15_s nl_demo_pars.
  Proof.
    destruct d15_init as [s1 H].
    assert (E : d15_s = fst (mm_run d15_c s1 [OComplete])).
    { unfold d15_s. rewrite mm_run_cons. cbn [mm_step]. rewrite H. reflexivity. }
    rewrite E. econstructor; [exact (reach_default d15_c [])|exact H|]. repeat constructor.
  Qed.
  Lemma d15_complete : mm_complete d15_s = true.
  Proof. unfold d15_s. now rewrite run_complete. Qed.
  Lemma d15_strides : mm_strides d15_s = [7; 3; 4; 1; 7; 26; 1; 2]%nat.
  Proof. unfold d15_s. now rewrite run_strides. Qed.
  Lemma d15_ready : exists sg, c_sgSet d15_c (sub nl_demo_pars 3 (c_sgNP d15_c)) = Some sg /\ sg_nslip sg = 12%nat /\
    mm_ready d15_s = Some (mat_of d15_c nl_demo_pars sg (voce_kinetics hs d15_v 12), /100).
  Proof.
    destruct (in_use_all hs d15_c d15_s nl_demo_pars d15_builtin d15_in_use) as (_ & _ & _ & sg & kin & hi & E1 & E2 & E3).
    exists sg. split; [assumption|]. split; [exact (fill_nslip _ _ _ _ E1)|].
    assert (EK : kin = voce_kinetics hs d15_v 12).
    { apply (f_equal (option_map fst)) in E2. cbn [option_map fst] in E2.
      change (Some (voce_kinetics hs d15_v 12) = Some kin) in E2. congruence. }
    rewrite <- EK. exact E3.
  Qed.
  Lemma d15_gmod : exists g, el_getGmod (el_of d15_c nl_demo_pars) = Some g.
  Proof. exact demo_gmod. Qed.

  Variables (bs : Solver R) (n : nat) (dt : R) (m : Mem R).
  Hypothesis HO : batch_ok d15_c d15_s false n m.
  Definition d15_rates (i : nat) : list R := tab 12 (fun k => val d15_s m AH i (14 + k)).
  Hypothesis HU : forall i, (i < n)%nat -> exists h nh,
    voce_updateH hs d15_v 12 [val d15_s m AH i 13] dt (d15_rates i) = Some ([h], nh) /\ 0 < h /\
    forall sg, c_sgSet d15_c (sub nl_demo_pars 3 (c_sgNP d15_c)) = Some sg ->
    so_converged (bs 8%nat (computeRJ (snglProb (mat_of d15_c nl_demo_pars sg (voce_kinetics hs d15_v 12)) dt
       (cell_of d15_c d15_s false m AD i) (cell_of d15_c d15_s false m AW i) (cell_of d15_c d15_s false m AV i) (pt_of d15_c d15_s false m i) [h]))
       (/100) 200%nat (tab 8 (fun _ => 0))) = true.
  Definition d15_call : BCall :=
    {| b_s := d15_s; b_solver := bs; b_lu := noLU; b_dt := dt; b_mtan := false; b_n := n; b_m := m;
       b_m1 := snd (mm_getResponse bs noLU d15_c d15_s dt false (Z.of_nat n) m) |}.
  Lemma d15_good : good hs d15_c d15_call.
  Proof.
    refine (conj d15_builtin (conj d15_reach (conj HO _))). cbn [d15_call b_n b_solver b_lu b_s b_dt b_mtan b_m b_m1].
    destruct d15_ready as (sg & Eg & Hsg & HM).
    destruct (api_batch d15_c d15_s bs noLU dt false n m _ _ d15_reach d15_complete HM HO) as (o & m1 & E & _ & P).
    rewrite E. cbn [snd]. f_equal. f_equal. cbv zeta in P.
    assert (G : forall i, (i < n)%nat -> fst (getResponseSngl bs noLU (mat_of d15_c nl_demo_pars sg (voce_kinetics hs d15_v 12)) dt (/100)
       (cell_of d15_c d15_s false m AD i) (cell_of d15_c d15_s false m AW i)
       (cell_of d15_c d15_s false m AV i) (pt_of d15_c d15_s false m i)) = Done).
    { intros i Hi. destruct d15_gmod as [g Hg]. destruct (HU i Hi) as (h & nh & E1 & E2 & E3). specialize (E3 sg Eg).
      assert (V : forall k, (k < 26)%nat -> get (pt_hist (pt_of d15_c d15_s false m i)) k = val d15_s m AH i k).
      { intros k Hk. unfold pt_of, pt_at. cbn [pt_hist]. apply (cell_val d15_c d15_s false n m AH i k); [apply HO|assumption|]. cbn. lia. }
      assert (L : List.length (pt_hist (pt_of d15_c d15_s false m i)) = 26%nat).
      { exact (P_Batch4.cell_len d15_c false d15_s n m AH i HO Hi). }
      destruct (sngl_succeeds bs noLU (mat_of d15_c nl_demo_pars sg (voce_kinetics hs d15_v 12)) dt (/100)
       (cell_of d15_c d15_s false m AD i) (cell_of d15_c d15_s false m AW i)
       (cell_of d15_c d15_s false m AV i) (pt_of d15_c d15_s false m i) [h] nh g) as [pt' E'].
      - cbn [m_kin mat_of m_sg voce_kinetics k_updateH k_nH]. rewrite Hsg, <- E1. f_equal.
        + apply list_get_ext; [rewrite sub_length by (rewrite L; cbn; lia); reflexivity|]. intros k Hk.
          rewrite sub_length in Hk by (rewrite L; cbn; lia). assert (k = 0%nat) by lia. subst k. rewrite get_sub by lia. apply V. cbn. lia.
        + apply list_get_ext; [rewrite sub_length by (rewrite L; cbn; lia); reflexivity|]. intros k Hk.
          rewrite sub_length in Hk by (rewrite L; cbn; lia). unfold d15_rates. rewrite get_sub, get_tab by lia. apply V. cbn. lia.
      - cbn [m_kin mat_of voce_kinetics k_valsOk]. unfold voce_valsOk. cbn [get nth]. apply Rltb_true. exact E2.
      - exact E3.
      - reflexivity.
      - exact Hg.
      - rewrite E'. reflexivity. }
    destruct o; [reflexivity| |]; destruct P as (k & Hk & P & _); specialize (G k Hk); rewrite P in G; discriminate.
  Qed.
End D15.

(** one point with 4 units of slip and strength [ho]; the solver offers the increment [x] of the scaled strength *)
Definition d15_m (ho : R) : Mem R := fun a =>
  match a with
  | AH => d2_h [1; 0; 0; 0] [ho] [1; 0; -1; 0; 0; 0; 0; 0; 0; 0; 0; 2]
  | _ => demo_m a
  end.
Lemma d15_batch hs ho : batch_ok (d15_c hs) (d15_s hs) false 1 (d15_m ho).
Proof.
  split.
  - rewrite d15_strides. split; [|discriminate]. intros a Ha. destruct a; reflexivity.
  - rewrite d15_strides. intros a i Hi Hp. destruct i as [|i]; [|lia]; destruct a; cbn in *; lia.
Qed.
Lemma sq_sdot v shr sat h : v_nonlinear v = true -> v_xmprime1 v = 1 -> v_tausi v < sat ->
  fst (voce_getSdot1 v (shr, sat) h) = v_h0 v * ((sat - h) / (sat - v_tausi v)) ^ 2 * shr.
Proof.
  intros HN HM HT. unfold voce_getSdot1. rewrite HN, HM. cbn [nleb RNum]. unfold Rleb.
  destruct (Rle_dec sat (v_tausi v)); [lra|]. change (@npow R RNum) with Rpow. rops.
  assert (E : forall x, Rpow x 1 = x).
  { intros x. unfold Rpow. destruct Rlt_dec; [now rewrite Rpower_1|]. destruct (Req_EM_T 1 0); [lra|]. destruct (Req_EM_T x 0); [now subst|].
    assert (I : Int_part 1 = 1%Z) by (unfold Int_part; rewrite <- (tech_up 1 2); [reflexivity|lra|lra]).
    rewrite I. destruct (Req_EM_T 1 1) as [_|N]; [apply powerRZ_1|lra]. }
  rewrite E. cbn [fst]. unfold Rdiv. ring.
Qed.
Lemma d15_sat : voce_sat 2 4 (/ 20) 4 = 2.
Proof.
  unfold voce_sat. assert (/ 10 ^ 90 < 4).
  { apply Rlt_trans with 1; [|lra]. rewrite <- Rinv_1. apply Rinv_lt_contravar; [rewrite Rmult_1_l; apply pow10_pos|apply Rlt_pow_R1; [lra|lia]]. }
  destruct Rlt_dec; [|lra]. replace (4 / 4) with 1 by lra. unfold Rpower. rewrite ln_1, Rmult_0_r, exp_0. ring.
Qed.
Lemma d15_shear hs ho : shear_sum (d15_rates hs (d15_m ho) 0) = 4.
Proof.
  unfold shear_sum, d15_rates, val. rewrite d15_strides. cbn. rewrite Rabs_R0, Rabs_R1, (Rabs_left (-1)) by lra. rewrite (Rabs_right 2) by lra. lra.
Qed.
Lemma d15_upd ho hn x : hn = ho + x * Rmax ho 1 -> hn = ho + / 4 * (2 - hn) ^ 2 ->
  voce_updateH (offer [x]) d15_v 12 [ho] (/ 10) (d15_rates (offer [x]) (d15_m ho) 0) = Some ([hn], 1%nat).
Proof.
  intros E1 E2. unfold voce_updateH.
  rewrite (voce_evol d15_v 12 (d15_rates (offer [x]) (d15_m ho) 0)); [|reflexivity|unfold d15_v, voce_setParams, nl_demo_pars; cbn; lra].
  rewrite d15_shear. unfold updateH1, offer. cbn [so_converged so_x so_nfev seq forallb].
  set (sd := voce_getSdot1 _ _). rewrite h1_residual. cbn [nth get].
  assert (EH : h1_getHn ho [x] = hn) by (rewrite E1; reflexivity). rewrite EH.
  assert (ER : Fi (fun h => fst (sd h)) (/ 10) ho hn = 0).
  { unfold Fi, sd. 
    assert (V : v_tausi d15_v = 1 /\ v_h0 d15_v = 5 / 8 /\ v_taus0 d15_v = 2 /\ v_gamss0 d15_v = 4 /\ v_xms d15_v = / 20 /\ v_nonlinear d15_v = true /\ v_xmprime1 d15_v = 1).
    { unfold d15_v, voce_setParams, nl_demo_pars. cbn. repeat split; lra. }
    destruct V as (V1 & V2 & V3 & V4 & V5 & V6 & V7). rewrite V3, V4, V5, d15_sat. rewrite sq_sdot; [|assumption|assumption|lra].
    rewrite V1, V2. replace ((2 - hn) / (2 - 1)) with (2 - hn) by field. lra. }
  rewrite ER. replace (0 / h1_x_scale ho) with 0 by (unfold Rdiv; ring). rewrite Rabs_R0.
  destruct (Rleb 0 _) eqn:E; [reflexivity|]. apply Rleb_false in E. exfalso.
  assert (0 < nlit 1 (-10)). { cbn. lra. } rops. lra.
Qed.
Lemma d15_val13 hs ho : val (d15_s hs) (d15_m ho) AH 0 13 = ho.
Proof. unfold val. now rewrite d15_strides. Qed.
Lemma d15_good1 ho hn x : 0 < hn -> hn = ho + x * Rmax ho 1 -> hn = ho + / 4 * (2 - hn) ^ 2 ->
  good (offer [x]) (cls_FCC_AH (offer [x])) (d15_call (offer [x]) echo 1 (/ 10) (d15_m ho)) /\
  strength (d15_s (offer [x])) (b_m1 (d15_call (offer [x]) echo 1 (/ 10) (d15_m ho))) 0 = hn.
Proof.
  intros HP E1 E2. pose proof (d15_upd ho hn x E1 E2) as EU.
  assert (G : good (offer [x]) (cls_FCC_AH (offer [x])) (d15_call (offer [x]) echo 1 (/ 10) (d15_m ho))).
  { apply (d15_good (offer [x]) echo 1 (/ 10) (d15_m ho) (d15_batch (offer [x]) ho)). intros i Hi. assert (i = 0%nat) by lia. subst i.
    exists hn, 1%nat. rewrite d15_val13. refine (conj EU (conj HP (fun _ _ => eq_refl))). }
  split; [exact G|].
  destruct (call_hard (offer [x]) _ _ 0 nl_demo_pars G ltac:(cbn; lia) (d15_in_use (offer [x]))) as (kin & hi & n & F1 & F2).
  apply (f_equal (option_map fst)) in F1. cbn [option_map fst] in F1.
  assert (EK : kin = voce_kinetics (offer [x]) d15_v 12).
  { change (Some (voce_kinetics (offer [x]) d15_v 12) = Some kin) in F1. congruence. }
  rewrite EK in F2. cbn [voce_kinetics k_updateH] in F2.
  change (val (b_s _) (b_m _) AH 0 13) with (val (d15_s (offer [x])) (d15_m ho) AH 0 13) in F2. rewrite d15_val13 in F2.
  change (old_rates _ _ 0) with (d15_rates (offer [x]) (d15_m ho) 0) in F2.
  pose proof (eq_trans (eq_sym EU) F2) as E. unfold strength.
  apply (f_equal (fun o => match o with Some (h, _) => nth 0 h 0 | None => 0 end)) in E. symmetry. exact E.
Qed.

(** ** exponent 2: the update of any call, also above saturation *)
Lemma call_voce_sq hs c b i pars : good hs c b -> (i < b_n b)%nat -> in_use c (b_s b) pars -> c = cls_FCC_AH hs \/ c = cls_BCC_BH hs ->
  kin_par c pars 6 = 2 -> 0 < kin_par c pars 8 -> accurate hs ->
  let shr := shear_of c (b_s b) (b_m b) i in let sat := voce_sat_at true c pars shr in kin_par c pars 4 < sat ->
  Rabs (Fi (fun h => kin_par c pars 3 * ((sat - h) / (sat - kin_par c pars 4)) ^ 2 * shr) (b_dt b) (strength (b_s b) (b_m b) i) (strength (b_s b) (b_m1 b) i))
    <= / 10 ^ 10 * Rmax (strength (b_s b) (b_m b) i) 1.
Proof.
  intros G Hi U EC H6 HG HA shr sat HT. destruct (call_hard hs c b i pars G Hi U) as (kin & hi & n & E1 & E2).
  set (s := b_s b) in *. set (m := b_m b) in *. set (m1 := b_m1 b) in *.
  set (kp := sub pars (3 + c_sgNP c + c_elNP c) (c_kinNP c)) in *.
  assert (KG : forall k, (k < c_kinNP c)%nat -> get kp k = kin_par c pars k) by (intros; now apply kp_get).
  assert (E : c_kinSet c = kinVoce hs true 12) by (destruct EC as [ -> | -> ]; reflexivity).
  rewrite E in E1. apply (f_equal (option_map fst)) in E1. cbn [kinVoce option_map fst] in E1.
  assert (EK : kin = voce_kinetics hs (voce_setParams true kp) 12) by (clear - E1; congruence). clear E1 hi.
  rewrite EK in E2. cbn [voce_kinetics k_updateH] in E2. unfold voce_updateH in E2.
  change (old_rates c b i) with (slip_rates c s m i) in E2.
  assert (NP : c_kinNP c = 10%nat) by (destruct EC as [ -> | -> ]; reflexivity).
  assert (NS : c_nslip c = 12%nat) by (destruct EC as [ -> | -> ]; reflexivity).
  rewrite (voce_evol (voce_setParams true kp) 12 (slip_rates c s m i)) in E2.
  2:{ unfold slip_rates. rewrite map_length, seq_length. exact NS. }
  2:{ unfold voce_setParams. cbn [v_gamss0]. rewrite KG by lia. exact HG. }
  destruct (updateH1 _ _ _ _) as [[h nf]|] eqn:EU; [|discriminate].
  assert (EH : h = strength s m1 i).
  { apply (f_equal (option_map fst)) in E2. cbn [option_map fst] in E2. clear - E2. unfold strength. congruence. }
  subst h. pose proof (updateH1_spec _ _ _ _ _ _ EU HA) as B. cbn [get nth] in B.
  assert (ES : voce_sat (v_taus0 (voce_setParams true kp)) (v_gamss0 (voce_setParams true kp)) (v_xms (voce_setParams true kp)) (shear_sum (slip_rates c s m i)) = sat).
  { unfold voce_setParams. cbn [v_taus0 v_gamss0 v_xms]. rewrite !KG by lia. reflexivity. }
  rewrite ES in B. refine (eq_ind _ (fun x => Rabs x <= _) B _ _). unfold Fi. rewrite sq_sdot; [|reflexivity| |].
  - unfold voce_setParams. cbn [v_h0 v_tausi v_xmprime1]. rewrite !KG by lia. reflexivity.
  - unfold voce_setParams. cbn [v_xmprime1]. rewrite KG by lia. rewrite H6. rops. lra.
  - unfold voce_setParams. cbn [v_tausi]. rewrite KG by lia. exact HT.
Qed.
