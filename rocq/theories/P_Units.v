(** Change of the units of stress and time: the crystal update problem is dimensionless. *)
From Coq Require Import List ZArith Bool Lia PeanoNat Reals Lra FunctionalExtensionality.
From Verif Require Import Num Arr NumR Util SlipGeom Eos Hard Elast Evptn.
Import ListNotations.
Local Open Scope R_scope.

Definition sc (a : R) (l : list R) : list R := map (Rmult a) l.
Lemma get_sc a l i : get (sc a l) i = a * get l i.
Proof. unfold get, sc. change (nundef) with 0. revert i. induction l; intros [|i]; cbn; try ring. apply IHl. Qed.
Lemma get2_sc a m l i j : get2 m (sc a l) i j = a * get2 m l i j.
Proof. unfold get2. apply get_sc. Qed.
Lemma sc_tab a n f : sc a (tab n f) = tab n (fun i => a * f i).
Proof. unfold sc, tab. now rewrite map_map. Qed.
Lemma sc_tab2 a n m f : sc a (tab2 n m f) = tab2 n m (fun i j => a * f i j).
Proof. unfold sc, tab2. rewrite !flat_map_concat_map, concat_map, map_map. f_equal. apply map_ext. intros i. now rewrite map_map. Qed.
Lemma sc_len a l : List.length (sc a l) = List.length l.
Proof. apply map_length. Qed.
Lemma sc_app a l l' : sc a (l ++ l') = sc a l ++ sc a l'.
Proof. apply map_app. Qed.
Lemma sc_sub a l i n : sub (sc a l) i n = sc a (sub l i n).
Proof. unfold sub, sc. now rewrite firstn_map, skipn_map || now rewrite skipn_map, firstn_map. Qed.
Lemma vxa_sc n x a l : vecsVxa n x (sc a l) = sc a (vecsVxa n x l).
Proof. unfold vecsVxa. rewrite sc_tab. apply tab_ext. intros. rewrite get_sc. rops. ring. Qed.
Lemma vma_sc n q M a l : vecsVMa n q M (sc a l) = sc a (vecsVMa n q M l).
Proof. unfold vecsVMa. rewrite sc_tab. apply tab_ext. intros i _. rewrite <- sum_scal_l. apply sum_ext. intros. rewrite get_sc. rops. ring. Qed.
Lemma vmta_sc n M a l : vecsVMTa n M (sc a l) = sc a (vecsVMTa n M l).
Proof. unfold vecsVMTa. rewrite sc_tab. apply tab_ext. intros i _. rewrite <- sum_scal_l. apply sum_ext. intros. rewrite get_sc. rops. ring. Qed.
Lemma vatm_sc n q M a l : vecsVaTM n q (sc a l) M = sc a (vecsVaTM n q l M).
Proof. unfold vecsVaTM. rewrite sc_tab. apply tab_ext. intros i _. rewrite <- sum_scal_l. apply sum_ext. intros. rewrite get_sc. rops. ring. Qed.
Lemma mab_sc n m q a A B : vecsMAB n m q (sc a A) B = sc a (vecsMAB n m q A B).
Proof. unfold vecsMAB. rewrite sc_tab2. apply tab2_ext. intros i j _ _. rewrite <- sum_scal_l. apply sum_ext. intros. rewrite get2_sc. rops. ring. Qed.
Lemma mabt_sc n m q a A B : vecsMABT n m q A (sc a B) = sc a (vecsMABT n m q A B).
Proof. unfold vecsMABT. rewrite sc_tab2. apply tab2_ext. intros i j _ _. rewrite <- sum_scal_l. apply sum_ext. intros. rewrite get2_sc. rops. ring. Qed.
Ltac lin := repeat (apply (f_equal2 cons); [rops; unfold Rdiv; ring|]); reflexivity.
Lemma m35_sc a l : M35_d_AAoB_dA (sc a l) = sc a (M35_d_AAoB_dA l).
Proof. unfold M35_d_AAoB_dA. rewrite !get_sc. unfold sc. cbn [map]. lin. Qed.
Lemma latop_sc a c l : d_rot_mat_vecd_latop c (sc a l) = sc a (d_rot_mat_vecd_latop c l).
Proof. unfold d_rot_mat_vecd_latop. rewrite !get_sc. unfold sc. cbn [map]. lin. Qed.
Lemma wlatop_sc a l : d_rot_mat_wveccp_latop (sc a l) = sc a (d_rot_mat_wveccp_latop l).
Proof. unfold d_rot_mat_wveccp_latop. rewrite !get_sc. unfold sc. cbn [map]. lin. Qed.
Lemma sumabs_sc n a l : 0 <= a -> vecsssumabs n (sc a l) = a * vecsssumabs n l.
Proof. intros Ha. unfold vecsssumabs. rewrite <- sum_scal_l. apply sum_ext. intros. rewrite get_sc. rops. rewrite Rabs_mult, (Rabs_pos_eq a) by assumption. reflexivity. Qed.
Lemma yadotb_sc n a b l k : vecsyadotb n (sc a l) (sc b k) = a * b * vecsyadotb n l k.
Proof. unfold vecsyadotb. rewrite <- sum_scal_l. apply sum_ext. intros. rewrite !get_sc. rops. ring. Qed.
Lemma norm_sc n a l : 0 <= a -> vecNorm n (sc a l) = a * vecNorm n l.
Proof.
  intros Ha. unfold vecNorm. rops. rewrite (sum_ext n _ (fun i => (a * a) * (get l i * get l i))) by (intros; rewrite !get_sc; ring).
  rewrite sum_scal_l. rewrite sqrt_mult_alt by nra. rewrite sqrt_square by assumption. reflexivity.
Qed.
Lemma svec_sc a l : svecToVecd (sc a l) = sc a (svecToVecd l).
Proof. unfold svecToVecd. rewrite !get_sc. unfold sc. cbn [map]. lin. Qed.
Lemma svecP_sc a l : vecdsToSvecP (sc a l) = sc a (vecdsToSvecP l).
Proof. unfold vecdsToSvecP. rewrite !get_sc. unfold sc. cbn [map]. lin. Qed.
Lemma inner_sc a b l k : vecsInnerSvecDev (sc a l) (sc b k) = a * b * vecsInnerSvecDev l k.
Proof. unfold vecsInnerSvecDev. rewrite !get_sc. rops. ring. Qed.
Lemma stress_out_sc a q l : stress_out q (sc a l) = sc a (stress_out q l).
Proof. unfold stress_out. rewrite vma_sc, get_sc, <- svecP_sc, sc_app. reflexivity. Qed.

(** elastic constants in units of stress 1/[lam] as large *)
Definition el_units (lam : R) (e e' : Elast R) : Prop :=
  el_hex e' = el_hex e /\ el_K_diag e' = sc lam (el_K_diag e) /\ el_K_sdax3 e' = lam * el_K_sdax3 e /\ el_g_vecd2 e' = el_g_vecd2 e /\
  el_K_gmod e' = lam * el_K_gmod e.
Definition kin_units (lam kap : R) (k k' : Kinetics R) (vals vals' : list R) : Prop :=
  forall tau, fst (fst (k_evalGdots k' (sc lam tau) vals')) = sc (/ kap) (fst (fst (k_evalGdots k tau vals))) /\
              snd (fst (k_evalGdots k' (sc lam tau) vals')) = sc (/ (kap * lam)) (snd (fst (k_evalGdots k tau vals))).

Lemma smop_sc a c l : d_rot_mat_vecd_smop c (sc a l) = sc a (d_rot_mat_vecd_smop c l).
Proof. unfold d_rot_mat_vecd_smop. rewrite !get_sc. unfold sc. cbn [map]. lin. Qed.
Lemma mab_sc_r n m q a A B : vecsMAB n m q A (sc a B) = sc a (vecsMAB n m q A B).
Proof. unfold vecsMAB. rewrite sc_tab2. apply tab2_ext. intros i j _ _. rewrite <- sum_scal_l. apply sum_ext. intros. rewrite get2_sc. rops. ring. Qed.
Lemma pre_mul_sc n a M Q : qr6x6_pre_mul n (sc a M) Q = sc a (qr6x6_pre_mul n M Q).
Proof.
  unfold qr6x6_pre_mul. rewrite sc_app, sc_tab2, sc_tab. f_equal.
  - apply tab2_ext. intros i j _ _. rewrite <- sum_scal_l. apply sum_ext. intros. rewrite get2_sc. rops. ring.
  - apply tab_ext. intros. apply get2_sc.
Qed.
Lemma conv_sc g a M : mtan_conv_sd_svec g (sc a M) = sc a (mtan_conv_sd_svec g M).
Proof.
  unfold mtan_conv_sd_svec. cbv zeta. rewrite sc_tab2. apply tab2_ext. intros i j Hi Hj. rewrite !get2_tab2 by lia. rewrite !get2_sc.
  do 6 (destruct i as [|i]; [do 6 (destruct j as [|j]; [rops; ring|]); rops; ring|]). lia.
Qed.

Lemma upd_sc a : forall l i x, upd (sc a l) i (a * x) = sc a (upd l i x).
Proof. induction l; intros [|i] x; cbn; try reflexivity. f_equal. apply IHl. Qed.

Section Problem.
  Variables (lam kap : R) (p p' : Prob R).
  Hypothesis Hl : 0 < lam.
  Hypothesis Hk : 0 < kap.
  Hypothesis Esg : pb_sg p' = pb_sg p.
  Hypothesis Eel : el_units lam (pb_el p) (pb_el p').
  Hypothesis Ekin : kin_units lam kap (pb_kin p) (pb_kin p') (pb_kin_vals p) (pb_kin_vals p').
  Hypothesis Edt : pb_dt p' = kap * pb_dt p.
  Hypothesis Edti : pb_dt_ri p' = / kap * pb_dt_ri p.
  Hypothesis Ev : pb_eVref p' = lam * pb_eVref p.
  Hypothesis Ep : pb_p_EOS p' = lam * pb_p_EOS p.
  Hypothesis Ea : pb_a_V p' = pb_a_V p.
  Hypothesis Eai : pb_a_V_ri p' = pb_a_V_ri p.
  Hypothesis Edi : pb_detV_ri p' = pb_detV_ri p.
  Hypothesis Ee : pb_epsdot_scale_inv p' = kap * pb_epsdot_scale_inv p.
  Hypothesis Er : pb_rotincr_scale_inv p' = pb_rotincr_scale_inv p.
  Hypothesis En : pb_e_vecd_n p' = pb_e_vecd_n p.
  Hypothesis Eq : pb_Cn_quat p' = pb_Cn_quat p.
  Hypothesis Ed : pb_d_vecd_sm p' = sc (/ kap) (pb_d_vecd_sm p).
  Hypothesis Ew : pb_w_veccp_sm p' = sc (/ kap) (pb_w_veccp_sm p).

  Lemma u_T e : elastNEtoT p' e = sc lam (elastNEtoT p e).
  Proof.
    unfold elastNEtoT. rewrite Ea, Eai, Ep, Ev. destruct Eel as (E1 & E2 & E3 & E4 & _). unfold el_eval.
    rewrite E1, E2, E3, E4.
    set (E := vecsVxa 5 (pb_a_V_ri p) e ++ _).
    assert (X : vecsVAdiagB 5 (sc lam (el_K_diag (pb_el p))) E = sc lam (vecsVAdiagB 5 (el_K_diag (pb_el p)) E)).
    { unfold vecsVAdiagB. rewrite sc_tab. apply tab_ext. intros. rewrite get_sc. rops. ring. }
    cbv zeta. rewrite X.
    set (J := nexp _). set (B := nmul (nmul (nopp sqr3) J) (pb_p_EOS p)).
    replace (nmul (nmul (nopp sqr3) J) (lam * pb_p_EOS p)) with (lam * B) by (unfold B; rops; ring).
    change [lam * B] with (sc lam [B]). rewrite <- sc_app. set (D := vecsVAdiagB 5 _ E ++ [B]).
    destruct (el_hex (pb_el p)); [|reflexivity].
    assert (U : forall l i x y, x = lam * y -> upd (sc lam l) i x = sc lam (upd l i y)) by (intros l i x y ->; apply upd_sc).
    erewrite (U D iTvecHex); [|rewrite get_sc; rops; rewrite Rmult_assoc, <- Rmult_plus_distr_l; reflexivity].
    erewrite (U _ iSvecS); [|rewrite get_sc; rops; rewrite Rmult_assoc, <- Rmult_plus_distr_l; reflexivity].
    apply U. rewrite get_sc. rops. ring.
  Qed.
  Lemma u_C e : elastNEtoC p' e = sc lam (elastNEtoC p e).
  Proof. unfold elastNEtoC, el_getCauchy. rewrite u_T, Edi, sc_tab. apply tab_ext. intros. rewrite get_sc. rops. ring. Qed.
  Lemma u_state x : stateFromX p' x = stateFromX p x.
  Proof. unfold stateFromX. rewrite En, Eq. reflexivity. Qed.

  Section At.
    Variable x : list R.
    Let v := evalEv p x. Let v' := evalEv p' x.
    Lemma v_ef : ev_e_f v' = ev_e_f v. Proof. cbn [v v' evalEv ev_e_f]. now rewrite En. Qed.
    Lemma v_xi : ev_xi v' = ev_xi v. Proof. reflexivity. Qed.
    Lemma v_Cq : ev_C_quat v' = ev_C_quat v. Proof. cbn [v v' evalEv ev_C_quat]. now rewrite Eq. Qed.
    Lemma v_Cm : ev_C_matx v' = ev_C_matx v. Proof. cbn [v v' evalEv ev_C_matx]. now rewrite Eq. Qed.
    Lemma v_edot : ev_edot v' = sc (/ kap) (ev_edot v).
    Proof. cbn [v v' evalEv ev_edot]. rewrite Edti. unfold vecsVsa. rewrite sc_tab. apply tab_ext. intros. rops. ring. Qed.
    Lemma v_d : ev_d_lat v' = sc (/ kap) (ev_d_lat v).
    Proof. cbn [v v' evalEv ev_d_lat]. now rewrite Eq, Ed, vmta_sc. Qed.
    Lemma v_w : ev_w_lat v' = sc (/ kap) (ev_w_lat v).
    Proof. cbn [v v' evalEv ev_w_lat]. now rewrite Eq, Ew, vmta_sc. Qed.
    Lemma v_tau : ev_taua v' = sc lam (ev_taua v).
    Proof. cbn [v v' evalEv ev_taua]. now rewrite En, Esg, u_T, vatm_sc. Qed.
    Lemma v_gdot : ev_gdot v' = sc (/ kap) (ev_gdot v).
    Proof. cbn [v v' evalEv ev_gdot]. rewrite En, Esg, u_T, vatm_sc. apply Ekin. Qed.
    Lemma v_dgdot : ev_dgdot_dtau v' = sc (/ (kap * lam)) (ev_dgdot_dtau v).
    Proof. cbn [v v' evalEv ev_dgdot_dtau]. rewrite En, Esg, u_T, vatm_sc. apply Ekin. Qed.
    Lemma v_pl : ev_pl_vecd v' = sc (/ kap) (ev_pl_vecd v).
    Proof. pose proof v_gdot as G. cbn [v v' evalEv ev_pl_vecd ev_gdot] in *. now rewrite G, Esg, vma_sc. Qed.
    Lemma v_plw : ev_pl_wvec v' = sc (/ kap) (ev_pl_wvec v).
    Proof. pose proof v_gdot as G. cbn [v v' evalEv ev_pl_wvec ev_gdot] in *. now rewrite G, Esg, vma_sc. Qed.
    Lemma v_Ae : ev_A_e v' = ev_A_e v. Proof. cbn [v v' evalEv ev_A_e]. now rewrite En. Qed.
    Lemma v_ee : ev_ee_wvec v' = sc (/ kap) (ev_ee_wvec v).
    Proof. pose proof v_edot as G. cbn [v v' evalEv ev_ee_wvec ev_edot] in *. now rewrite G, En, vma_sc. Qed.
    Lemma v_fac : ev_ee_fac v' = ev_ee_fac v. Proof. cbn [v v' evalEv ev_ee_fac]. now rewrite Eai. Qed.
    Lemma v_dis : ev_disRate v' = lam / kap * ev_disRate v.
    Proof.
      pose proof v_gdot as G. pose proof v_tau as T. cbn [v v' evalEv ev_disRate ev_gdot ev_taua] in *. rewrite G, T, Esg, Edi, yadotb_sc. rops. unfold Rdiv. ring.
    Qed.
    Lemma v_shr : ev_shrateEff v' = / kap * ev_shrateEff v.
    Proof.
      pose proof v_gdot as G. cbn [v v' evalEv ev_shrateEff ev_gdot] in *. rewrite G, Esg. apply sumabs_sc. apply Rlt_le, Rinv_0_lt_compat, Hk.
    Qed.

    Lemma u_residual : residual p' x = residual p x.
    Proof.
      unfold residual. fold v v'. rewrite v_edot, v_pl, v_d, v_xi, v_w, v_plw, v_ee, v_fac, Ee, Er, Eai, Edt. f_equal; apply tab_ext; intros i Hi; rewrite !get_sc; rops; field; lra.
    Qed.
    Lemma u_deps : dgdot_deps p' v' = sc (/ kap) (dgdot_deps p v).
    Proof.
      unfold dgdot_deps. rewrite sc_tab2, Esg. apply tab2_ext. intros i j Hi Hj. rewrite v_dgdot, get_sc, Eai.
      unfold el_multDTDepsT. rewrite !get2_tab2 by assumption. destruct Eel as (_ & E2 & _). rewrite E2, get_sc. rops. field. lra.
    Qed.
    Lemma u_parts : dxi_parts p' v' = (fst (fst (dxi_parts p v)), sc (/ kap) (snd (fst (dxi_parts p v))), sc (/ kap) (snd (dxi_parts p v))).
    Proof.
      unfold dxi_parts. rewrite v_Cm, v_Cq, v_xi, Eq, Ed, Ew. unfold eval_d_dxi_impl_quat. cbv zeta. rewrite latop_sc, wlatop_sc, !mab_sc. reflexivity.
    Qed.
    Lemma u_jac0 i j : (i < 8)%nat -> (j < 8)%nat -> get2 8 (jacobian0 p' v') i j = (if Nat.ltb i 5 then / kap else 1) * get2 8 (jacobian0 p v) i j.
    Proof.
      intros Hi Hj. unfold jacobian0. rewrite u_parts. destruct (dxi_parts p v) as [[dC dD] dW]. cbn [fst snd].
      unfold dpl_deps_symm, dpl_deps_skew. rewrite u_deps, v_Ae, v_edot, v_fac, Eai, Edt, Edti, Esg, m35_sc, !mabt_sc. rewrite !get2_tab2 by assumption.
      destruct (Nat.ltb i 5); destruct (Nat.ltb j 5); destruct (Nat.eqb i j); rewrite ?get2_sc; rops; field; lra.
    Qed.
    Lemma u_jacobian : jacobian p' x = jacobian p x.
    Proof.
      unfold jacobian. cbv zeta. apply tab2_ext. intros i j Hi Hj. fold v v'. rewrite u_jac0 by assumption. rewrite Ee, Er. destruct (Nat.ltb i 5); rops; field; lra.
    Qed.
  End At.
  Lemma u_RJ : computeRJ p' = computeRJ p.
  Proof. apply functional_extensionality. intros x. unfold computeRJ. now rewrite u_residual, u_jacobian. Qed.

  Section Tan.
    Variables (x sol sol' : list R) (lu lu' : LUSolver R) (mv mv' : list R).
    Let v := evalEv p x. Let v' := evalEv p' x.
    Lemma v_qr : ev_qr5x5 v' = ev_qr5x5 v. Proof. cbn [v v' evalEv ev_qr5x5]. now rewrite Eq. Qed.
    Lemma v_T : ev_T v' = sc lam (ev_T v). Proof. cbn [v v' evalEv ev_T]. rewrite En. apply u_T. Qed.
    Hypothesis L1 : lu 8%nat (jacobian0 p v) (mtan_rhs_T v) 5%nat = Some sol.
    Hypothesis L2 : lu' 8%nat (jacobian0 p' v') (mtan_rhs_T v') 5%nat = Some sol'.
    Hypothesis LS : forall j i, (j < 5)%nat -> (i < 8)%nat -> get2 8 sol' j i = kap * get2 8 sol j i.
    Hypothesis M1 : mtan_vecds lu p x = Some mv.
    Hypothesis M2 : mtan_vecds lu' p' x = Some mv'.
    Lemma u_tan : mv' = sc (lam * kap) mv.
    Proof.
      unfold mtan_vecds in M1, M2. fold v in M1. fold v' in M2. rewrite L1 in M1.
      pose proof (u_parts x) as UP. pose proof (v_Cm x) as UM. pose proof (v_Cq x) as UQ. fold v v' in UP, UM, UQ. rewrite L2, UP in M2.
      destruct (dxi_parts p v) as [[dC dD] dW]. cbn [fst snd] in M2. rewrite v_qr, v_T, Edi, Eai in M2.
      rewrite UM, UQ in M2.
      set (Q1 := tab2 4 5 (fun iQ iI => sum 3 (fun iW => nmul (get2 4 dC iW iQ) (get2 8 sol iI (5 + iW))))) in M1.
      set (Q2 := tab2 4 5 (fun iQ iI => sum 3 (fun iW => nmul (get2 4 dC iW iQ) (get2 8 sol' iI (5 + iW))))) in M2.
      assert (EQ : Q2 = sc kap Q1).
      { unfold Q1, Q2. rewrite sc_tab2. apply tab2_ext. intros i j _ Hj. rewrite <- sum_scal_l. apply sum_ext. intros k Hk3. rewrite LS by lia. rops. ring. }
      set (D1 := tab2 5 5 (fun i j => get2 8 sol j i)) in M1. set (D2 := tab2 5 5 (fun i j => get2 8 sol' j i)) in M2.
      assert (EDD : D2 = sc kap D1).
      { unfold D1, D2. rewrite sc_tab2. apply tab2_ext. intros i j Hi Hj. apply LS; lia. }
      assert (EC : el_multCauchyDif (pb_el p') D2 (pb_detV_ri p) (pb_a_V_ri p) = sc (lam * kap) (el_multCauchyDif (pb_el p) D1 (pb_detV_ri p) (pb_a_V_ri p))).
      { rewrite EDD. unfold el_multCauchyDif. rewrite sc_tab2. apply tab2_ext. intros i j _ _. destruct Eel as (E1 & E2 & E3 & E4 & _). rewrite E1, E2, E3, get_sc, !get2_sc.
        destruct (Nat.eqb j 5); [rops; ring|]. destruct (Nat.eqb i 5); [destruct (el_hex (pb_el p)); rops; ring|]. rops. ring. }
      rewrite EC, pre_mul_sc, EQ in M2.
      assert (ES : el_getCauchy (sc lam (ev_T v)) (pb_detV_ri p) = sc lam (el_getCauchy (ev_T v) (pb_detV_ri p))).
      { unfold el_getCauchy. rewrite sc_tab. apply tab_ext. intros. rewrite get_sc. rops. ring. }
      rewrite ES, smop_sc, mab_sc, mab_sc, mab_sc_r in M2.
      apply (f_equal (fun o => match o with Some l => l | None => [] end)) in M1. apply (f_equal (fun o => match o with Some l => l | None => [] end)) in M2. cbv beta iota in M1, M2.
      rewrite <- M1, <- M2, sc_tab2. apply tab2_ext. intros i j _ _. rewrite !get2_sc. destruct (Nat.ltb i 5 && Nat.ltb j 5); rops; ring.
    Qed.
    Lemma u_SD bulk : mtanSD_of p' (lam * bulk) mv' = sc lam (mtanSD_of p bulk mv).
    Proof.
      unfold mtanSD_of. rewrite <- conv_sc, <- upd_sc. f_equal.
      replace (nmul three (lam * bulk)) with (lam * (nmul three bulk)) by (rops; ring). f_equal. rewrite sc_tab. apply tab_ext. intros i _. rewrite u_tan, get_sc, Edti. rops. field. lra.
    Qed.
  End Tan.
End Problem.
