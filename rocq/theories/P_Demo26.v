(** A model that is accepted though its shear modulus is negative: its calls fail after the stress and the history are stored (C67). *)
From Coq Require Import List ZArith Bool Lia PeanoNat Reals Lra String FunctionalExtensionality.
From Verif Require Import Num Arr NumR Util SlipGeom Eos Hard KinVoce KinKMBalD Elast Evptn MatModel Cases SpecTensor
  P_Tensor P_Eos P_Sngl P_Sngl2 P_Sngl3 P_Batch P_Batch2 P_Batch3 P_Batch4 P_Api P_Api2 P_Builtin SpecApi P_Hist SpecBatch
  SpecKin P_KinV P_Hard P_Call P_Slip P_Demo P_Demo2.
Import ListNotations.
Local Open Scope R_scope.

(** the failure after the results *)
Lemma sngl_late solver lu m dt tol d w vr pt h_u nh : kin_shapes (m_kin m) (sg_nslip (m_sg m)) -> pt_shapes m pt ->
  k_updateH (m_kin m) (sub (pt_hist pt) iHistLbH (k_nH (m_kin m))) dt (sub (pt_hist pt) (iHistLbGdot (k_nH (m_kin m))) (sg_nslip (m_sg m))) = Some (h_u, nh) ->
  k_valsOk (m_kin m) (u_press (snglUpd m vr (pt_eInt pt) (pt_stress pt))) (snglTkelv m vr (pt_eInt pt)) h_u = true ->
  so_converged (solver 8%nat (computeRJ (snglProb m dt d w vr pt h_u)) tol 200%nat (tab 8 (fun _ => nZ 0))) = true ->
  pt_mtan pt = None -> el_getGmod (m_el m) = None -> norm2 (quat_of (pt_hist pt)) <> 0 ->
  exists pt', getResponseSngl solver lu m dt tol d w vr pt = (Failed, pt') /\ pt_eInt pt' = pt_eInt pt /\ norm2 (quat_of (pt_hist pt')) = 1.
Proof.
  intros [KH KG] HS EH EV EC EM EG HQ. pose proof (hist_quat_length _ _ HS) as LQ. destruct (normalize_unit _ LQ HQ) as [NQ LN].
  pose proof HS as (SE & SS & SH & SD & SM).
  unfold getResponseSngl. cbv zeta. rewrite EH, EV, EM. cbn [negb]. rewrite EC. cbn [negb].
  set (p := snglProb m dt d w vr pt h_u). set (r := solver 8%nat _ _ _ _).
  destruct (stateFromX_length p (so_x r)) as [L5 L4].
  assert (NU : norm2 (snd (stateFromX p (so_x r))) = 1).
  { rewrite stateFromX_quat; unfold p; rewrite snglProb_Cn; unfold snglQuatN; fold (quat_of (pt_hist pt)); assumption. }
  destruct (stateFromX p (so_x r)) as [e_u quat_u]. cbn [fst snd] in L5, L4, NU. rewrite EG.
  eexists. split; [reflexivity|]. split; [reflexivity|]. cbn [pt_hist].
  pose proof (KH _ _ _ _ _ EH) as LH.
  assert (LG : forall x, List.length (ev_gdot (evalEv p x)) = sg_nslip (m_sg m)) by (intros x; rewrite ev_gdot_evalGdots; apply KG).
  change (tab 4 (fun i => @nopp R RNum (get quat_u i))) with (tab 4 (fun i => - get quat_u i)). rewrite (tab4_neg quat_u L4).
  match goal with |- context [hist_out ?nH ?h ?e ?q ?hu ?v ?dt ?f ?n] =>
    destruct (hist_out_slots nH (sg_nslip (m_sg m)) h e q hu v dt f n (map Ropp quat_u) SH L5 L4 LH (LG _) ltac:(now rewrite map_length)) as (_ & HQ1 & HQ2 & _) end.
  unfold quat_of. destruct (nltb _ zero); [rewrite HQ2, norm2_opp|rewrite HQ1]; exact NU.
Qed.

Definition lt_pars : list R := [3; 2; /100; 3; 1; -1; 1; /10; 1; 1; 1; 4; /20; /1000; 1; 17/10; -600].
Definition lt_s : MM R := fst (mm_run demo_c (mm_new demo_c) [OInit [] lt_pars []; OComplete]).
Definition lt_m : Mem R := fun a => match a with AH => demo_h [1; 2; 0; 0] [2] | _ => firstn (match a with AD => 7 | AW => 3 | AV => 4 | AE => 1 | AS => 7 | AT => 1 | AB => 2 | _ => 0 end) (demo_m a) end.
Definition lt_v : Voce R := voce_setParams false (sub lt_pars 6 9).
Lemma lt_init : exists s1, mm_init demo_c (mm_new demo_c) [] lt_pars [] = (Done, s1).
Proof.
  destruct (@geom_fcc) as (g & Hg & _).
  eapply (init_done_conv demo_c (mm_new demo_c) [] lt_pars []
    {| pa_sg := g; pa_el := c_elSet demo_c (sub lt_pars 3 3); pa_kin := voce_kinetics echo lt_v 12;
       pa_hist := voce_histInfo lt_v; pa_bulk := 1 / 3 * (3 + 2 * 1) |}).
  - repeat split; cbn; lia.
  - refine (conj Hg (conj eq_refl (conj eq_refl _))).
    cbn [pa_el pa_bulk demo_c cls_FCC_A c_elSet]. unfold el_getBulkMod, cubic_setParams, lt_pars. cbn [el_K_bulkMod]. rarr.
    destruct (Rleb (1 / 3 * (3 + 2 * 1)) 0) eqn:E; [apply Rleb_true in E; lra|reflexivity].
  - reflexivity.
Qed.
Lemma lt_in_use : in_use demo_c lt_s lt_pars.
Proof.
  destruct lt_init as [s1 H].
  assert (E : lt_s = fst (mm_run demo_c s1 [OComplete])).
  { unfold lt_s. rewrite mm_run_cons. cbn [mm_step]. rewrite H. reflexivity. }
  rewrite E. econstructor; [exact (reach_default demo_c [])|exact H|]. repeat constructor.
Qed.
Lemma lt_complete : mm_complete lt_s = true. Proof. unfold lt_s. now rewrite run_complete. Qed.
Lemma lt_strides : mm_strides lt_s = [7; 3; 4; 1; 7; 26; 1; 2]%nat. Proof. unfold lt_s. now rewrite run_strides. Qed.
Lemma lt_reach : reachable demo_c lt_s. Proof. apply reach_default. Qed.
Lemma lt_ready : exists sg, sg_nslip sg = 12%nat /\ mm_ready lt_s = Some (mat_of demo_c lt_pars sg (voce_kinetics echo lt_v 12), /100).
Proof.
  destruct (in_use_all echo demo_c lt_s lt_pars demo_builtin lt_in_use) as (_ & _ & _ & sg & kin & hi & E1 & E2 & E3).
  exists sg. split; [exact (fill_nslip _ _ _ _ E1)|].
  assert (EK : kin = voce_kinetics echo lt_v 12).
  { apply (f_equal (option_map fst)) in E2. cbn [option_map fst] in E2. change (Some (voce_kinetics echo lt_v 12) = Some kin) in E2. congruence. }
  rewrite <- EK. exact E3.
Qed.
Lemma lt_gmod : el_getGmod (el_of demo_c lt_pars) = None.
Proof.
  unfold el_getGmod, el_of, demo_c, cls_FCC_A. cbn [c_elSet c_sgNP c_elNP]. unfold cubic_setParams, lt_pars, cubic_nParams. cbn [el_K_gmod]. rarr.
  rewrite fifth_R. destruct (Rleb ((2 * 3 - 2 * 1 + 6 * -1) * / 5) 0) eqn:E; [reflexivity|]. apply Rleb_false in E. lra.
Qed.
Lemma lt_batch : batch_ok demo_c lt_s false 1 lt_m.
Proof.
  split.
  - rewrite lt_strides. split; [|discriminate]. intros a Ha. destruct a; reflexivity.
  - rewrite lt_strides. intros a i Hi Hp. destruct i as [|i]; [|lia]; destruct a; cbn in *; lia.
Qed.
Lemma lt_fails : exists m1, mm_getResponse echo noLU demo_c lt_s (/ 10) false (Z.of_nat 1) lt_m = (BRet Failed, m1) /\
  eInt lt_s m1 0 = eInt lt_s lt_m 0 /\ norm2 (quat lt_s lt_m 0) = 5 /\ norm2 (quat lt_s m1 0) = 1.
Proof.
  destruct lt_ready as (sg & Hsg & HM).
  destruct (api_batch demo_c lt_s echo noLU (/ 10) false 1 lt_m _ _ lt_reach lt_complete HM lt_batch) as (o & m1 & E & UT & P). cbv zeta in P.
  set (mat := mat_of demo_c lt_pars sg (voce_kinetics echo lt_v 12)) in *.
  assert (EP : pt_of demo_c lt_s false lt_m 0 = {| pt_eInt := [1]; pt_stress := [1; 0; -1; 0; 0; 2; 1]; pt_hist := demo_h [1; 2; 0; 0] [2]; pt_tkelv := 300; pt_sdd := [0; 0]; pt_mtan := None |})
    by (unfold pt_of, pt_at; rewrite lt_strides; reflexivity).
  assert (KS : kin_shapes (m_kin mat) (sg_nslip (m_sg mat))) by (unfold mat; cbn [mat_of m_kin m_sg]; rewrite Hsg; apply voce_shapes).
  assert (PS : pt_shapes mat (pt_of demo_c lt_s false lt_m 0)).
  { rewrite EP. unfold pt_shapes, mat. cbn [mat_of m_kin m_sg pt_eInt pt_stress pt_hist pt_sdd pt_mtan voce_kinetics k_nH]. rewrite Hsg. repeat split. intros mt X. discriminate. }
  destruct (sngl_late echo noLU mat (/ 10) (/ 100) (cell_of demo_c lt_s false lt_m AD 0) (cell_of demo_c lt_s false lt_m AW 0) (cell_of demo_c lt_s false lt_m AV 0) (pt_of demo_c lt_s false lt_m 0)
    [h1_getHn 2 [0]] 1 KS PS) as (pt' & E' & EE & EQ).
  - rewrite EP. reflexivity.
  - unfold mat. cbn [mat_of m_kin voce_kinetics k_valsOk]. unfold voce_valsOk, h1_getHn. rarr. apply Rltb_true. lra.
  - reflexivity.
  - now rewrite EP.
  - exact lt_gmod.
  - rewrite EP. cbn. lra.
  - assert (o = Failed /\ pt' = pt_of demo_c lt_s false m1 0) as [-> ->].
    { destruct o; [specialize (P 0%nat (Nat.lt_0_succ 0)); rewrite E' in P; discriminate| |];
        destruct P as (k & Hk & P & _); assert (k = 0%nat) by lia; subst k; rewrite E' in P; clear - P; split; congruence. }
    exists m1. split; [exact E|]. pose proof (batch_after demo_c false lt_s 1 lt_m m1 UT lt_batch) as B1.
    assert (V : forall m a k, batch_ok demo_c lt_s false 1 m -> (k < per_point 1 12 false a)%nat -> get (cell_of demo_c lt_s false m a 0) k = val lt_s m a 0 k).
    { intros m a k [BW _] Hk. exact (cell_val demo_c lt_s false 1 m a 0 k BW (Nat.lt_0_succ 0) Hk). }
    split; [|split].
    + unfold eInt. rewrite <- !V by (try assumption; try exact lt_batch; cbn; lia). exact (f_equal (fun l => get l 0) EE).
    + unfold quat, val. rewrite lt_strides. unfold SpecTensor.norm2. cbn. lra.
    + rewrite <- EQ. f_equal. unfold quat, quat_of. cbn [map]. rewrite <- !V by (try assumption; cbn; lia).
      change (pt_hist (pt_of demo_c lt_s false m1 0)) with (cell_of demo_c lt_s false m1 AH 0).
      pose proof (P_Batch4.cell_len demo_c false lt_s 1 m1 AH 0 B1 (Nat.lt_0_succ 0)) as LC. change (per_point (c_nH demo_c) (c_nslip demo_c) false AH) with 26%nat in LC.
      apply list_get_ext; [rewrite sub_length by (rewrite LC; cbn; lia); reflexivity|]. intros k Hk. cbn [List.length] in Hk.
      rewrite get_sub by lia. do 4 (destruct k as [|k]; [reflexivity|]). lia.
Qed.
