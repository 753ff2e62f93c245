(** A concrete update with twelve strengths, in two families of six. *)
From Coq Require Import List ZArith Bool Lia PeanoNat Reals Lra.
From Verif Require Import Num Arr NumR Util SlipGeom Eos Hard KinVoce Elast Evptn MatModel Cases SpecKin SpecAniso KinAniso P_KinV P_Hard P_Sngl P_Sngl3
  P_Slip P_Builtin SpecApi P_Hist P_Api2 P_Demo P_Demo2 P_Aniso.
Import ListNotations.
Local Open Scope R_scope.

(** mu xm gam_w h0 | tausi | taus0 xms gamss0 h_init *)
Definition an_P : list R := [1; /10; 1; 1; 0; 1; 0; 1; 0; 1; 0; 1; 0; 1; 0; 1; 2; 0; 1; 1].
Definition an_g : list R := [1; -1; 0; 0; 0; 0; 0; 0; 0; 0; 0; 0].
Definition an_ho : list R := [1; 1; 1; 1; 1; 1; 1; 1; 1; 1; 1; 1].
Definition an_x : list R := [/3; /2; /3; /2; /3; /2; /3; /2; /3; /2; /3; /2].
Definition an_h : list R := [4/3; 3/2; 4/3; 3/2; 4/3; 3/2; 4/3; 3/2; 4/3; 3/2; 4/3; 3/2].
Lemma an_shear : shear_sum an_g = 2.
Proof. unfold shear_sum, an_g. cbn [map fold_right]. rewrite !Rabs_R0, Rabs_R1. replace (Rabs (-1)) with 1; [lra|]. rewrite Rabs_left; lra. Qed.
Lemma an_sat2 : an_sat false 12 an_P 2 = 2.
Proof.
  unfold an_sat, voce_sat, an_P. cbn [nth Nat.add]. destruct (Rlt_dec (/ 10 ^ 90) 2) as [|H]; [|reflexivity].
  unfold Rpower. rewrite Rmult_0_l, exp_0. ring.
Qed.
Lemma an_getHn : hn_getHn 12 an_ho an_x = an_h.
Proof.
  apply list_get_ext; [reflexivity|]. intros i Hi. change (length (hn_getHn 12 an_ho an_x)) with 12%nat in Hi.
  unfold hn_getHn. rewrite get_tab, hn_scale by assumption.
  assert (M : Rmax 1 1 = 1) by (apply Rmax_left; lra).
  do 12 (destruct i as [|i]; [cbn; rewrite M; lra|]). lia.
Qed.
Lemma an_update : aniso_updateH (offer an_x) (aniso_setParams false 12 an_P) an_ho (/ 2) an_g = Some (an_h, 1%nat).
Proof.
  unfold aniso_updateH. rewrite (an_evol false 12 an_P an_g eq_refl) by (cbn; lra). rewrite an_shear, an_sat2.
  change (an_n (aniso_setParams false 12 an_P)) with 12%nat. set (sd := aniso_getSdotN _ _).
  assert (C0 : so_converged (offer an_x 12%nat (hn_computeRJ 12 sd an_ho (/ 2)) (nlit 1 (-10)) 100%nat (tab 12 (fun _ => nZ 0))) = true).
  { unfold offer. cbn [so_converged]. apply forallb_forall. intros i Hi. apply in_seq in Hi. apply Rleb_true.
    change (nth i (fst (hn_computeRJ 12 sd an_ho (/ 2) an_x)) 0) with (get (fst (hn_computeRJ 12 sd an_ho (/ 2) an_x)) i).
    rewrite hn_residual by lia. rewrite an_getHn. unfold sd. rewrite an_sdot by lia. rewrite voce_sdot by reflexivity. cbn [fst].
    change (v_h0 (as_voce false 12 an_P i)) with 1. change (v_tausi (as_voce false 12 an_P i)) with (nth (4 + i) an_P 0).
    rewrite lit_tol10. pose proof (pow10i_pos 10) as PT.
    match goal with |- Rabs ?x <= _ => assert (E : x = 0) end; [|rewrite E, Rabs_R0; lra].
    assert (G0 : get an_ho i = 1) by (destruct Hi as [_ Hi]; do 12 (destruct i as [|i]; [reflexivity|]); cbn in Hi; lia). rewrite G0.
    rewrite Rmax_left by lra.
    assert (T : (get an_h i = 4 / 3 /\ nth (4 + i) an_P 0 = 0) \/ (get an_h i = 3 / 2 /\ nth (4 + i) an_P 0 = 1)).
    { destruct Hi as [_ Hi]; do 6 (destruct i as [|i]; [left; split; reflexivity|]; destruct i as [|i]; [right; split; reflexivity|]). cbn in Hi; lia. }
    unfold voce_hardening. destruct T as [[ -> -> ]|[ -> -> ]]; destruct Rle_dec; lra || field. }
  unfold updateHN. rewrite C0. cbn [offer so_x so_nfev]. rewrite an_getHn. reflexivity.
Qed.

(** a material point with these kinetics, on the face-centred cubic slip systems *)
Definition an_mat (sg : SlipGeom R) : Mat R := {| m_sg := sg; m_kin := aniso_kinetics (offer an_x) (aniso_setParams false 12 an_P); m_el := el_of demo_c demo_pars;
  m_eos := eos_setParams false [3; p_bulk demo_c demo_pars; 2; 17/10; -600] |}.
Definition an_pt : Pt R := {| pt_eInt := [0]; pt_stress := [0; 0; 0; 0; 0; 0; 0];
  pt_hist := [0; 0; 0; 0; 0; 0; 0; 0; 0; 1; 0; 0; 0] ++ an_ho ++ an_g; pt_tkelv := 300; pt_sdd := [0; 0]; pt_mtan := None |}.
Lemma an_done d w vr : exists sg, slipGeomFCC = Some sg /\ sg_nslip sg = 12%nat /\ pt_shapes (an_mat sg) an_pt /\
  exists pt', getResponseSngl echo noLU (an_mat sg) (/ 2) (/ 100) d w vr an_pt = (Done, pt').
Proof.
  destruct (@geom_fcc) as (sg & Hg & N12 & _). exists sg. split; [assumption|]. split; [assumption|]. split.
  { repeat split; cbn [an_mat m_kin m_sg aniso_kinetics k_nH]; rewrite ?N12; try reflexivity. intros mt E. discriminate. }
  destruct demo_gmod as [gm Hgm].
  apply (sngl_succeeds echo noLU (an_mat sg) (/ 2) (/ 100) d w vr an_pt an_h 1 gm).
  - cbn [an_mat m_kin m_sg aniso_kinetics k_nH k_updateH]. rewrite N12. exact an_update.
  - cbn [an_mat m_kin aniso_kinetics k_valsOk]. unfold aniso_valsOk. apply forallb_forall. intros i Hi. apply in_seq in Hi.
    change (an_n (aniso_setParams false 12 an_P)) with 12%nat in Hi. apply Rltb_true. destruct Hi as [_ Hi].
    do 12 (destruct i as [|i]; [cbn; lra|]). cbn in Hi. lia.
  - reflexivity.
  - reflexivity.
  - exact Hgm.
Qed.

(** the nonlinear law with exponent 2 on two systems *)
Definition an2_P : list R := [1; /10; 1; 1; 0; 1; 2; 2; 0; 1; 1].
Definition an2_g : list R := [1; -1].
Definition an2_ho : list R := [3/4; 5/4].
Definition an2_x : list R := [/4; /5].
Definition an2_h : list R := [1; 3/2].
Lemma an2_shear : shear_sum an2_g = 2.
Proof. unfold shear_sum, an2_g. cbn [map fold_right]. rewrite Rabs_R1. replace (Rabs (-1)) with 1; [lra|]. rewrite Rabs_left; lra. Qed.
Lemma an2_sat2 : an_sat true 2 an2_P 2 = 2.
Proof.
  unfold an_sat, voce_sat, an2_P. cbn [nth Nat.add]. destruct (Rlt_dec (/ 10 ^ 90) 2) as [|H]; [|reflexivity].
  unfold Rpower. rewrite Rmult_0_l, exp_0. ring.
Qed.
Lemma an2_getHn : hn_getHn 2 an2_ho an2_x = an2_h.
Proof.
  unfold hn_getHn. cbn [tab map seq]. rewrite !hn_scale by lia. unfold an2_ho, an2_x, an2_h. cbn [get nth].
  rewrite Rmax_right, Rmax_left by lra. rops. f_equal; [lra|f_equal; lra].
Qed.
Lemma an2_update : aniso_updateH (offer an2_x) (aniso_setParams true 2 an2_P) an2_ho (/ 2) an2_g = Some (an2_h, 1%nat).
Proof.
  unfold aniso_updateH. rewrite (an_evol true 2 an2_P an2_g eq_refl) by (cbn; lra). rewrite an2_shear, an2_sat2.
  change (an_n (aniso_setParams true 2 an2_P)) with 2%nat. set (sd := aniso_getSdotN _ _).
  assert (SQ : forall x, 0 < x -> Rpower x 2 = x * x).
  { intros x Hx. replace 2 with (1 + 1) by ring. rewrite Rpower_plus, Rpower_1; [ring|assumption]. }
  assert (C0 : so_converged (offer an2_x 2%nat (hn_computeRJ 2 sd an2_ho (/ 2)) (nlit 1 (-10)) 100%nat (tab 2 (fun _ => nZ 0))) = true).
  { unfold offer. cbn [so_converged]. apply forallb_forall. intros i Hi. apply in_seq in Hi. apply Rleb_true.
    change (nth i (fst (hn_computeRJ 2 sd an2_ho (/ 2) an2_x)) 0) with (get (fst (hn_computeRJ 2 sd an2_ho (/ 2) an2_x)) i).
    rewrite hn_residual by lia. rewrite an2_getHn. unfold sd. rewrite an_sdot by lia.
    rewrite lit_tol10. pose proof (pow10i_pos 10) as PT.
    match goal with |- Rabs ?x <= _ => assert (E : x = 0) end; [|rewrite E, Rabs_R0; lra].
    assert (I2 : i = 0%nat \/ i = 1%nat) by lia.
    rewrite voce_sdot_nl; [|reflexivity|reflexivity|destruct I2 as [ -> | -> ]; cbn; lra|destruct I2 as [ -> | -> ]; cbn; lra]. cbn [fst].
    unfold voce_hardening_nl. change (v_xmprime (as_voce true 2 an2_P i)) with 2. change (v_h0 (as_voce true 2 an2_P i)) with 1.
    destruct I2 as [ -> | -> ].
    - change (v_tausi (as_voce true 2 an2_P 0)) with 0. change (get an2_h 0) with 1. change (get an2_ho 0) with (3/4).
      rewrite SQ by lra. rewrite Rmax_right by lra. field.
    - change (v_tausi (as_voce true 2 an2_P 1)) with 1. change (get an2_h 1) with (3/2). change (get an2_ho 1) with (5/4).
      rewrite SQ by lra. rewrite Rmax_left by lra. field. }
  unfold updateHN. rewrite C0. cbn [offer so_x so_nfev]. rewrite an2_getHn. reflexivity.
Qed.
