(** C42: the crystal problem and the response of one point on defined numbers. *)
From Coq Require Import List ZArith Bool Lia PeanoNat Reals Lra.
From Verif Require Import Num Arr NumR NumO Util SlipGeom Eos Hard KinVoce KinKMBalD Elast Evptn MatModel Cases SpecDef P_Def P_KinV P_Def3.
Import ListNotations.
Local Open Scope R_scope.

Definition liftEv (v : Ev R) : Ev (option R) :=
  {| ev_edot := L (ev_edot v); ev_e_f := L (ev_e_f v); ev_xi := L (ev_xi v); ev_C_quat := L (ev_C_quat v); ev_C_matx := L (ev_C_matx v);
     ev_qr5x5 := L (ev_qr5x5 v); ev_d_lat := L (ev_d_lat v); ev_w_lat := L (ev_w_lat v); ev_T := L (ev_T v); ev_taua := L (ev_taua v);
     ev_gdot := L (ev_gdot v); ev_dgdot_dtau := L (ev_dgdot_dtau v); ev_pl_vecd := L (ev_pl_vecd v); ev_pl_wvec := L (ev_pl_wvec v);
     ev_A_e := L (ev_A_e v); ev_ee_wvec := L (ev_ee_wvec v); ev_ee_fac := Some (ev_ee_fac v); ev_disRate := Some (ev_disRate v);
     ev_shrateEff := Some (ev_shrateEff v) |}.

Section Def4.
Variable u : bool.
Local Notation ON := (P_Def.ON u).
Local Hint Extern 0 (Num (option R)) => exact (P_Def.ON u) : typeclass_instances.

(** a problem of defined numbers *)
Record PbDef (po : Prob (option R)) (pr : Prob R) : Prop := {
  pd_sg : pb_sg po = liftSg (pb_sg pr); pd_el : pb_el po = liftEl (pb_el pr);
  pd_dt : pb_dt po = Some (pb_dt pr); pd_eVref : pb_eVref po = Some (pb_eVref pr); pd_p : pb_p_EOS po = Some (pb_p_EOS pr);
  pd_aV : pb_a_V po = Some (pb_a_V pr); pd_dti : pb_dt_ri po = Some (pb_dt_ri pr); pd_ai : pb_a_V_ri po = Some (pb_a_V_ri pr);
  pd_di : pb_detV_ri po = Some (pb_detV_ri pr); pd_hs : pb_hdn_scale po = Some (pb_hdn_scale pr);
  pd_es : pb_epsdot_scale_inv po = Some (pb_epsdot_scale_inv pr); pd_rs : pb_rotincr_scale_inv po = Some (pb_rotincr_scale_inv pr);
  pd_e : pb_e_vecd_n po = L (pb_e_vecd_n pr); pd_q : pb_Cn_quat po = L (pb_Cn_quat pr);
  pd_d : pb_d_vecd_sm po = L (pb_d_vecd_sm pr); pd_w : pb_w_veccp_sm po = L (pb_w_veccp_sm pr);
  pd_Pl : length (sg_P (pb_sg pr)) = (5 * sg_nslip (pb_sg pr))%nat; pd_Ql : length (sg_Q (pb_sg pr)) = (3 * sg_nslip (pb_sg pr))%nat;
  pd_kl : length (el_K_diag (pb_el pr)) = 5%nat; pd_apos : 0 < pb_a_V pr;
  pd_el5 : length (pb_e_vecd_n pr) = 5%nat; pd_ql : length (pb_Cn_quat pr) = 4%nat; pd_dl : length (pb_d_vecd_sm pr) = 5%nat; pd_wl : length (pb_w_veccp_sm pr) = 3%nat;
  pd_rates : forall tau, length tau = sg_nslip (pb_sg pr) ->
    k_evalGdots (pb_kin po) (L tau) (pb_kin_vals po) = lift3 (k_evalGdots (pb_kin pr) tau (pb_kin_vals pr)) /\
    length (fst (fst (k_evalGdots (pb_kin pr) tau (pb_kin_vals pr)))) = sg_nslip (pb_sg pr) /\
    length (snd (fst (k_evalGdots (pb_kin pr) tau (pb_kin_vals pr)))) = sg_nslip (pb_sg pr) }.

Lemma Vxa_len n x (a : list R) : length (vecsVxa n x a) = n. Proof. apply tab_length. Qed.
Lemma Vsa_len n x (a : list R) : length (vecsVsa n a x) = n. Proof. apply tab_length. Qed.
Lemma Vapb_len n (a b : list R) : length (vecsVapb n a b) = n. Proof. apply tab_length. Qed.
Lemma VaTM_len n q (a b : list R) : length (vecsVaTM n q a b) = q. Proof. apply tab_length. Qed.
Lemma VMa_len n q (a b : list R) : length (vecsVMa n q a b) = n. Proof. apply tab_length. Qed.
Lemma VMTa_len n (a b : list R) : length (vecsVMTa n a b) = n. Proof. apply tab_length. Qed.

Section Pb.
Variables (po : Prob (option R)) (pr : Prob R).
Hypothesis PD : PbDef po pr.
Variable x : list R.
Hypothesis HX : length x = 8%nat.

Lemma xe_L : x_e (L x) = L (x_e x) /\ length (x_e x) = 5%nat.
Proof. unfold x_e. split; [apply sub_L|apply sub_length; lia]. Qed.
Lemma xr_L : x_r (L x) = L (x_r x) /\ length (x_r x) = 3%nat.
Proof. unfold x_r. split; [apply sub_L|apply sub_length; lia]. Qed.
Lemma state_L : stateFromX po (L x) = L2 (stateFromX pr x) /\ length (fst (stateFromX pr x)) = 5%nat /\ length (snd (stateFromX pr x)) = 4%nat.
Proof.
  destruct xe_L as [E1 L1]. destruct xr_L as [E2 L2']. split; [|split; [unfold stateFromX; cbn [fst]; apply Vapb_len|reflexivity]].
  unfold stateFromX. rewrite E1, E2, (pd_e _ _ PD), (pd_q _ _ PD).
  change (@e_scale (option R) ON) with (Some (e_scale : R)). change (@r_scale (option R) ON) with (Some (r_scale : R)).
  rewrite !Vxa_L by lia. rewrite Vapb_L by (rewrite ?Vxa_len, ?(pd_el5 _ _ PD); lia). rewrite emap_L by apply Vxa_len.
  rewrite get_c_quat_L; [reflexivity|apply emap_len|apply PD].
Qed.
Lemma NEtoT_L e : length e = 5%nat -> elastNEtoT po (L e) = L (elastNEtoT pr e) /\ length (elastNEtoT pr e) = 6%nat.
Proof.
  clear x HX. intros H. split; [|apply eval_len]. unfold elastNEtoT. rewrite (pd_ai _ _ PD), (pd_aV _ _ PD), (pd_el _ _ PD), (pd_p _ _ PD), (pd_eVref _ _ PD).
  rewrite Vxa_L by lia. rewrite log_L by apply PD. change [(@sqr3 (option R) ON * Some (ln (pb_a_V pr)))%num] with (L [sqr3 * ln (pb_a_V pr)]).
  rewrite <- L_app. apply eval_L; [apply PD|]. rewrite app_length, Vxa_len. reflexivity.
Qed.
Lemma NEtoC_L e : length e = 5%nat -> elastNEtoC po (L e) = L (elastNEtoC pr e).
Proof.
  clear x HX. intros H. unfold elastNEtoC. destruct (NEtoT_L e H) as [-> H2]. rewrite (pd_di _ _ PD). now apply Cauchy_L.
Qed.
Lemma ev_L : evalEv po (L x) = liftEv (evalEv pr x) /\ length (ev_gdot (evalEv pr x)) = sg_nslip (pb_sg pr) /\ length (ev_dgdot_dtau (evalEv pr x)) = sg_nslip (pb_sg pr).
Proof.
  destruct xe_L as [E1 L1]. destruct xr_L as [E2 L2'].
  set (ef := vecsVapb 5 (vecsVxa 5 e_scale (x_e x)) (pb_e_vecd_n pr)). assert (LE : length ef = 5%nat) by apply Vapb_len.
  destruct (NEtoT_L ef LE) as [ET LT]. set (ta := vecsVaTM 5 (sg_nslip (pb_sg pr)) (elastNEtoT pr ef) (sg_P (pb_sg pr))).
  assert (LA : length ta = sg_nslip (pb_sg pr)) by apply VaTM_len. destruct (pd_rates _ _ PD ta LA) as (EG & LG & LD).
  split; [|split; [exact LG|exact LD]]. pose proof (pd_Pl _ _ PD). pose proof (pd_Ql _ _ PD).
  unfold evalEv. cbv zeta. rewrite E1, E2, (pd_e _ _ PD), (pd_q _ _ PD), (pd_sg _ _ PD), (pd_dti _ _ PD), (pd_d _ _ PD), (pd_w _ _ PD), (pd_ai _ _ PD), (pd_di _ _ PD).
  change (@e_scale (option R) ON) with (Some (e_scale : R)). change (@r_scale (option R) ON) with (Some (r_scale : R)). cbn [liftSg sg_nslip sg_P sg_Q].
  rewrite !Vxa_L by lia. rewrite Vapb_L by (rewrite ?Vxa_len, ?(pd_el5 _ _ PD); lia). fold ef. rewrite ET.
  rewrite (VaTM_L u 5) by (first [assumption | lia]). fold ta. rewrite EG. unfold lift3. cbn [fst snd].
  rewrite emap_L by apply Vxa_len. rewrite get_c_quat_L by (first [apply emap_len|apply PD]).
  set (Cq := get_c_quat _ _) in |- *. assert (LQ : length Cq = 4%nat) by reflexivity. rewrite (q2t_L u Cq LQ).
  set (C := quat_to_tensor Cq) in |- *. assert (LC : length C = 9%nat) by reflexivity. rewrite (rotmat_L u C LC). assert (LR : length (get_rot_mat_vecd C) = (5 * 5)%nat) by reflexivity.
  rewrite (Vsa_L u 5) by (rewrite Vxa_len; lia).
  rewrite (VMTa_L u 5) by (first [exact LR | rewrite (pd_dl _ _ PD); lia]).
  rewrite (VMTa_L u 3) by (first [exact LC | rewrite (pd_wl _ _ PD); lia]).
  rewrite (VMa_L u 5 (sg_nslip (pb_sg pr))), (VMa_L u 3 (sg_nslip (pb_sg pr))) by (first [assumption | rewrite LG; lia]).
  rewrite (M35_L u ef) by assumption. rewrite (VMa_L u 3 5) by (first [reflexivity | rewrite Vsa_len; lia]).
  rewrite adotb_L by (rewrite ?LG, ?LA; lia). rewrite sumabs_L by (rewrite LG; lia). reflexivity.
Qed.
End Pb.

Section Pb2.
Variables (po : Prob (option R)) (pr : Prob R).
Hypothesis PD : PbDef po pr.
Variable x : list R.
Hypothesis HX : length x = 8%nat.
Let v := evalEv pr x.
Lemma ev_lens : length (ev_edot v) = 5%nat /\ length (ev_e_f v) = 5%nat /\ length (ev_xi v) = 3%nat /\ length (ev_C_quat v) = 4%nat /\ length (ev_C_matx v) = 9%nat /\
  length (ev_qr5x5 v) = 25%nat /\ length (ev_d_lat v) = 5%nat /\ length (ev_w_lat v) = 3%nat /\ length (ev_T v) = 6%nat /\ length (ev_pl_vecd v) = 5%nat /\
  length (ev_pl_wvec v) = 3%nat /\ length (ev_A_e v) = 15%nat /\ length (ev_ee_wvec v) = 3%nat.
Proof.
  unfold v, evalEv. cbn [ev_edot ev_e_f ev_xi ev_C_quat ev_C_matx ev_qr5x5 ev_d_lat ev_w_lat ev_T ev_pl_vecd ev_pl_wvec ev_A_e ev_ee_wvec].
  repeat split; first [apply Vsa_len | apply Vapb_len | apply Vxa_len | apply VMTa_len | apply VMa_len | apply eval_len | reflexivity].
Qed.
Lemma residual_L : residual po (L x) = L (residual pr x).
Proof.
  destruct ev_lens as (L1 & L2' & L3 & L4 & L5 & L6 & L7 & L8 & L9 & L10 & L11 & L12 & L13).
  unfold residual. destruct (ev_L po pr PD x HX) as (E & _ & _). rewrite E. fold v. cbv zeta. 
  rewrite (pd_es _ _ PD), (pd_rs _ _ PD), (pd_ai _ _ PD), (pd_dt _ _ PD). rewrite L_app. f_equal; apply tab_L; intros i Hi; cbn [liftEv ev_edot ev_pl_vecd ev_d_lat ev_xi ev_w_lat ev_pl_wvec ev_ee_fac ev_ee_wvec];
   rewrite !get_L by lia; reflexivity.
Qed.
Lemma dgdot_deps_L : dgdot_deps po (liftEv v) = L (dgdot_deps pr v).
Proof.
  destruct (ev_L po pr PD x HX) as (_ & LG & LD). fold v in LG, LD. unfold dgdot_deps. rewrite (pd_sg _ _ PD), (pd_el _ _ PD), (pd_ai _ _ PD). cbn [liftSg sg_nslip sg_P].
  rewrite multDT_L by apply PD. apply tab2_L. intros i j Hi Hj. cbn [liftEv ev_dgdot_dtau]. rewrite get_L by lia.
  rewrite get2_L by (unfold el_multDTDepsT; rewrite tab2_length; apply idx_lt; assumption). reflexivity.
Qed.
Lemma dxi_L : dxi_parts po (liftEv v) = lift3 (dxi_parts pr v).
Proof.
  destruct ev_lens as (L1 & L2' & L3 & L4 & L5 & L6 & L7 & L8 & L9 & L10 & L11 & L12 & L13).
  unfold dxi_parts. rewrite (pd_d _ _ PD), (pd_w _ _ PD), (pd_q _ _ PD). cbn [liftEv ev_xi ev_C_matx ev_C_quat].
  apply ddxi_L; try assumption; apply PD.
Qed.
Lemma dxi_len : length (fst (fst (dxi_parts pr v))) = 12%nat /\ length (snd (fst (dxi_parts pr v))) = 15%nat /\ length (snd (dxi_parts pr v)) = 9%nat.
Proof.
  unfold dxi_parts, eval_d_dxi_impl_quat. cbn [fst snd]. unfold vecsMAB, vecsMABT. rewrite !tab2_length. repeat split; reflexivity.
Qed.
Lemma jacobian0_L : jacobian0 po (liftEv v) = L (jacobian0 pr v).
Proof.
  destruct ev_lens as (L1 & L2' & L3 & L4 & L5 & L6 & L7 & L8 & L9 & L10 & L11 & L12 & L13). destruct dxi_len as (D1 & D2 & D3).
  unfold jacobian0. rewrite dxi_L. destruct (dxi_parts pr v) as [[a b] c]. unfold lift3. cbn [fst snd] in D1, D2, D3 |- *.
  unfold dpl_deps_symm, dpl_deps_skew. rewrite dgdot_deps_L. rewrite (pd_sg _ _ PD), (pd_ai _ _ PD), (pd_dti _ _ PD), (pd_dt _ _ PD).
  assert (DL : length (dgdot_deps pr v) = (5 * sg_nslip (pb_sg pr))%nat) by apply tab2_length.
  cbn [liftSg sg_nslip sg_P sg_Q liftEv ev_edot ev_ee_fac ev_A_e].
  rewrite !MABT_L by (first [exact DL | apply PD]). rewrite M35_L by assumption.
  set (sy := vecsMABT 5 5 _ _ _) in |- *. assert (LS : length sy = 25%nat) by apply tab2_length.
  set (sk := vecsMABT 3 5 _ _ _) in |- *. assert (LK : length sk = 15%nat) by apply tab2_length.
  set (Ad := M35_d_AAoB_dA _) in |- *. assert (LA : length Ad = 15%nat) by reflexivity. clearbody sy sk Ad.
  apply tab2_L. intros i j Hi Hj.
  destruct (Nat.ltb i 5) eqn:E1; [apply Nat.ltb_lt in E1|apply Nat.ltb_ge in E1]; (destruct (Nat.ltb j 5) eqn:E2; [apply Nat.ltb_lt in E2|apply Nat.ltb_ge in E2]).
  - rewrite get2_L by (rewrite LS; lia). destruct (Nat.eqb i j); reflexivity.
  - rewrite get2_L by (rewrite D2; lia). reflexivity.
  - rewrite !get2_L by lia. reflexivity.
  - rewrite get2_L by (rewrite D3; lia). destruct (Nat.eqb i j); reflexivity.
Qed.
Lemma RJ_L : computeRJ po (L x) = L2 (computeRJ pr x).
Proof.
  unfold computeRJ, L2. cbn [fst snd]. rewrite residual_L. f_equal. unfold jacobian. destruct (ev_L po pr PD x HX) as (E & _ & _). rewrite E. fold v.
  rewrite jacobian0_L, (pd_es _ _ PD), (pd_rs _ _ PD).
  assert (LJ : length (jacobian0 pr v) = 64%nat) by (unfold jacobian0; destruct (dxi_parts pr v) as [[a b] c]; apply tab2_length).
  apply tab2_L. intros i j Hi Hj. rewrite get2_L by (rewrite LJ; lia). destruct (Nat.ltb i 5), (Nat.ltb j 5); reflexivity.
Qed.
Lemma mtan_L (luo : LUSolver (option R)) (lur : LUSolver R) : same_lu luo lur ->
  mtan_vecds luo po (L x) = option_map L (mtan_vecds lur pr x) /\ forall m, mtan_vecds lur pr x = Some m -> length m = 36%nat.
Proof.
  intros LU. destruct ev_lens as (L1 & L2' & L3 & L4 & L5 & L6 & L7 & L8 & L9 & L10 & L11 & L12 & L13). destruct dxi_len as (D1 & D2 & D3).
  unfold mtan_vecds. cbv zeta. destruct (ev_L po pr PD x HX) as (E & _ & _). rewrite E. fold v. rewrite jacobian0_L.
  assert (ER : mtan_rhs_T (liftEv v) = L (mtan_rhs_T v)).
  { apply tab2_L. intros i j Hi Hj. destruct (Nat.ltb j 5) eqn:EJ; [|reflexivity]. apply Nat.ltb_lt in EJ. apply get2_L. cbn [liftEv ev_qr5x5]. rewrite L6. lia. }
  rewrite ER. destruct (LU 8%nat (jacobian0 pr v) (mtan_rhs_T v) 5%nat) as [EL LL]. rewrite EL.
  destruct (lur 8%nat (jacobian0 pr v) (mtan_rhs_T v) 5%nat) as [sol|]; [|split; [reflexivity|discriminate]]. specialize (LL sol eq_refl). cbn [option_map].
  rewrite dxi_L. destruct (dxi_parts pr v) as [[dq b] c]. unfold lift3. cbn [fst snd] in D1 |- *.
  split; [|intros m Em; injection Em as <-; apply tab2_length].
  rewrite (tab2_L 4 5 _ (fun iQ iI => sum 3 (fun iW => get2 4 dq iW iQ * get2 8 sol iI (5 + iW)))%num)
    by (intros i j Hi Hj; apply sum_L; intros k Hk; rewrite !get2_L by lia; reflexivity).
  rewrite (tab2_L 5 5 _ (fun i j => get2 8 sol j i)) by (intros i j Hi Hj; apply get2_L; lia).
  rewrite (pd_el _ _ PD), (pd_di _ _ PD), (pd_ai _ _ PD). cbn [liftEv ev_qr5x5 ev_T ev_C_matx ev_C_quat].
  rewrite CauchyDif_L by (first [apply PD | apply tab2_length]).
  rewrite qr6_L by (first [exact L6 | unfold el_multCauchyDif; apply tab2_length]).
  rewrite Cauchy_L by assumption. rewrite smop_L by (first [assumption | unfold el_getCauchy, vecsVxa; rewrite tab_length; lia]).
  rewrite dq2t_L by assumption.
  rewrite MAB_L by reflexivity. rewrite MAB_L by (unfold vecsMAB; rewrite tab2_length; reflexivity).
  set (m0 := qr6x6_pre_mul 6 _ _) in |- *. set (ds := vecsMAB 5 5 4 _ _) in |- *.
  assert (LM : length m0 = 36%nat) by (unfold m0, qr6x6_pre_mul; rewrite app_length, !tab2_length || rewrite app_length, tab2_length, tab_length; reflexivity).
  assert (LD : length ds = 25%nat) by apply tab2_length. clearbody m0 ds. cbn [option_map]. f_equal.
  apply tab2_L. intros i j Hi Hj. destruct (Nat.ltb i 5 && Nat.ltb j 5) eqn:EB.
  - apply andb_prop in EB. destruct EB as [EA EB]. apply Nat.ltb_lt in EA, EB. rewrite !get2_L by lia. reflexivity.
  - apply get2_L. lia.
Qed.
Lemma mtanSD_L b mt : length mt = 36%nat -> mtanSD_of po (Some b) (L mt) = L (mtanSD_of pr b mt).
Proof.
  clear HX. intros H. unfold mtanSD_of. rewrite (pd_dti _ _ PD). rewrite (tab_L 36 _ (fun i => get mt i * pb_dt_ri pr)%num) by (intros i Hi; rewrite get_L by lia; reflexivity).
  change (three * Some b)%num with (Some (three * b)%num). rewrite upd_L. apply mtan_conv_L. rewrite upd_length. apply tab_length.
Qed.
End Pb2.
Lemma stress_L q c : length q = 4%nat -> length c = 6%nat -> stress_out (L q) (L c) = L (stress_out q c).
Proof.
  intros H1 H2. unfold stress_out. rewrite q2t_L, rotmat_L by (first [assumption|reflexivity]). rewrite VMa_L by (first [reflexivity|lia]).
  unfold iSvecS. rewrite get_L by lia. change [Some (get c 5)] with (L [get c 5]). rewrite <- L_app. apply toSvecP_L. rewrite app_length, VMa_len. cbn. lia.
Qed.

Section Point.
Variables (so : Solver (option R)) (sr : Solver R) (luo : LUSolver (option R)) (lur : LUSolver R).
Hypothesis HS : same_solver so sr.
Hypothesis HL : same_lu luo lur.
Variables (mo : Mat (option R)) (mr : Mat R) (hnew : list R -> Prop).
Hypothesis ESG : m_sg mo = liftSg (m_sg mr).
Hypothesis EEL : m_el mo = liftEl (m_el mr).
Hypothesis EEO : m_eos mo = liftEos (m_eos mr).
Hypothesis KD : KinDef (m_kin mo) (m_kin mr) hnew.
Hypothesis NS : k_nslip (m_kin mr) = sg_nslip (m_sg mr).
Hypothesis LP : length (sg_P (m_sg mr)) = (5 * sg_nslip (m_sg mr))%nat.
Hypothesis LQ : length (sg_Q (m_sg mr)) = (3 * sg_nslip (m_sg mr))%nat.
Hypothesis LK : length (el_K_diag (m_el mr)) = 5%nat.
Variables (dt tol : R) (d w vr : list R) (pt : Pt R).
Hypothesis Hdt : dt <> 0.
Hypothesis Ld : (6 <= length d)%nat.
Hypothesis Lw : length w = 3%nat.
Hypothesis Lv : length vr = 4%nat.
Hypothesis V0 : get vr 0 <> 0.
Hypothesis V1 : 0 < get vr 1.
Hypothesis Le : length (pt_eInt pt) = 1%nat.
Hypothesis Ls : length (pt_stress pt) = 7%nat.
Hypothesis Lh : length (pt_hist pt) = (13 + k_nH (m_kin mr) + k_nslip (m_kin mr))%nat.
Hypothesis Hq : vecNorm 4 (sub (pt_hist pt) 9 4) <> 0.
Hypothesis HT : 0 < snd (evalPT (m_eos mr) (get vr 0) (get (pt_eInt pt) 0)).

Lemma upd_lift : snglUpd mo (L vr) (L (pt_eInt pt)) (L (pt_stress pt)) = liftUpd (snglUpd mr vr (pt_eInt pt) (pt_stress pt)).
Proof. unfold snglUpd. rewrite EEO, !get_L by lia. apply updateSimple_L. lra. Qed.
Lemma tk_lift : snglTkelv mo (L vr) (L (pt_eInt pt)) = Some (snglTkelv mr vr (pt_eInt pt)).
Proof. unfold snglTkelv. rewrite EEO, !get_L by lia. rewrite evalPT_L by assumption. reflexivity. Qed.
Lemma qn_lift : snglQuatN (L (pt_hist pt)) = L (snglQuatN (pt_hist pt)) /\ length (snglQuatN (pt_hist pt)) = 4%nat.
Proof.
  split; [|apply Vsa_len]. unfold snglQuatN, iHistLbQ. rewrite sub_L. apply Normalize_L; [|exact Hq]. rewrite sub_length; lia.
Qed.
Lemma eff_pos a : 0 < a -> ~ vecNorm 5 (svecToVecd d) < epsdot_scl_nzeff * a -> 0 < vecNorm 5 (svecToVecd d).
Proof.
  intros H1 H2. assert (0 < (epsdot_scl_nzeff : R)). { unfold epsdot_scl_nzeff. rewrite lit_eps. apply pow10i_pos. }
  assert (0 < epsdot_scl_nzeff * a) by now apply Rmult_lt_0_compat. lra.
Qed.
Lemma pb_lift h : length h = k_nH (m_kin mr) -> hnew h ->
  k_valsOk (m_kin mr) (u_press (snglUpd mr vr (pt_eInt pt) (pt_stress pt))) (snglTkelv mr vr (pt_eInt pt)) h = true ->
  PbDef (snglProb mo (Some dt) (L d) (L w) (L vr) (liftPt pt) (L h)) (snglProb mr dt d w vr pt h).
Proof.
  intros H1 H2 H3. unfold snglProb. cbn [liftPt pt_eInt pt_stress pt_hist]. rewrite upd_lift, tk_lift. destruct qn_lift as [-> LN]. cbn [liftUpd u_eNew u_press].
  set (up := snglUpd mr vr (pt_eInt pt) (pt_stress pt)) in *. set (tk := snglTkelv mr vr (pt_eInt pt)) in *.
  destruct (kd_vals _ _ _ KD (u_press up) tk h H1 H2 HT) as [EV _]. destruct (kd_rates _ _ _ KD (u_press up) tk h H1 H2 HT H3) as (ER & PR & EG).
  rewrite get_L by lia. rewrite svecToVecd_L by assumption. rewrite sub_L.
  assert (LD5 : length (svecToVecd d) = 5%nat) by reflexivity.
  assert (AV : 0 < Rpow (get vr 1) onethird) by (rewrite Rpow_pos by assumption; apply Rpower_pos).
  unfold mkProb. rewrite EV. cbn [fst snd]. rewrite ER. rewrite norm_L by lia.
  change (@nZ (option R) ON 1) with (Some (1 : R)). change (@one (option R) ON) with (Some (1 : R)). rewrite third_L. rewrite pow_L by assumption. rewrite !div_L by lra.
  set (ar := k_getFixedRefRate (m_kin mr) (fst (k_getVals (m_kin mr) (u_press up) tk h))) in *.
  set (eff := vecNorm 5 (svecToVecd d)) in *.
  assert (ES : (if (Some eff <? epsdot_scl_nzeff * Some ar)%num then Some (1 / ar) else nmin (Some 1 / Some eff)%num (nlit 1 6 * Some dt)%num) =
    Some (if (eff <? epsdot_scl_nzeff * ar)%num then one / ar else nmin (one / eff) (nlit 1 6 * dt))%num).
  { change (Some eff <? epsdot_scl_nzeff * Some ar)%num with (Rltb eff (epsdot_scl_nzeff * ar)). change (eff <? epsdot_scl_nzeff * ar)%num with (Rltb eff (epsdot_scl_nzeff * ar)).
    destruct (Rltb eff _) eqn:E; [reflexivity|]. rewrite div_L; [reflexivity|]. apply Rltb_false in E. pose proof (eff_pos ar PR). fold eff in H. lra. }
  rewrite ES.
  constructor; cbn [pb_sg pb_el pb_kin pb_dt pb_eVref pb_p_EOS pb_a_V pb_dt_ri pb_a_V_ri pb_detV_ri pb_hdn_scale pb_epsdot_scale_inv pb_rotincr_scale_inv pb_e_vecd_n pb_Cn_quat pb_d_vecd_sm pb_w_veccp_sm pb_kin_vals];
    try reflexivity; try assumption.
  - unfold iHistLbE. apply sub_length. lia.
  - intros tau Htau. rewrite <- NS in Htau |- *. apply (EG tau Htau).
Qed.
Lemma hist_L nH hist e q h v dt0 fl n : length hist = length (pt_hist pt) -> 
  hist_out nH (L hist) (L e) (L q) (L h) (liftEv v) (Some dt0) (Some fl) n = L (hist_out nH hist e q h v dt0 fl n).
Proof.
  intros H. unfold hist_out. cbn [liftEv ev_gdot ev_shrateEff]. rewrite !updl_L, !upd_L. unfold iHistA_shrEff. rewrite get_L by (rewrite upd_length, !updl_length; lia).
  change (Some (get (upd (updl (updl (updl (updl hist iHistLbE e) iHistLbQ q) iHistLbH h) (iHistLbGdot nH) (ev_gdot v)) iHistA_shrateEff (ev_shrateEff v)) 1) + Some (ev_shrateEff v) * Some dt0)%num
   with (Some (get (upd (updl (updl (updl (updl hist iHistLbE e) iHistLbQ q) iHistLbH h) (iHistLbGdot nH) (ev_gdot v)) iHistA_shrateEff (ev_shrateEff v)) 1 + ev_shrateEff v * dt0)%num).
  change (@nZ (option R) ON (Z.of_nat n)) with (Some (nZ (Z.of_nat n) : R)).
  rewrite !upd_L. reflexivity.
Qed.

Theorem sngl_L : getResponseSngl so luo mo (Some dt) (Some tol) (L d) (L w) (L vr) (liftPt pt) =
  (fst (getResponseSngl sr lur mr dt tol d w vr pt), liftPt (snd (getResponseSngl sr lur mr dt tol d w vr pt))).
Proof.
  unfold getResponseSngl. cbv zeta. change (pt_hist (liftPt pt)) with (L (pt_hist pt)). change (pt_eInt (liftPt pt)) with (L (pt_eInt pt)). change (pt_stress (liftPt pt)) with (L (pt_stress pt)).
  change (pt_sdd (liftPt pt)) with (L (pt_sdd pt)). change (pt_mtan (liftPt pt)) with (option_map L (pt_mtan pt)).
  rewrite upd_lift, tk_lift. destruct qn_lift as [EQ LN]. rewrite EQ. rewrite (kd_nH _ _ _ KD). rewrite ESG. cbn [liftSg sg_nslip].
  set (up := snglUpd mr vr (pt_eInt pt) (pt_stress pt)). set (tk := snglTkelv mr vr (pt_eInt pt)). set (qn := snglQuatN (pt_hist pt)) in *.
  rewrite !sub_L. rewrite !(get_L u vr) by lia. rewrite (inner_L u (pt_stress pt)) by lia.
  unfold iHistLbH, iHistLbGdot, iHistLbH.
  destruct (kd_upd _ _ _ KD (sub (pt_hist pt) 13 (k_nH (m_kin mr))) dt (sub (pt_hist pt) (13 + k_nH (m_kin mr)) (sg_nslip (m_sg mr)))) as [EU HU].
  { apply sub_length. lia. } { rewrite <- NS. apply sub_length. lia. }
  rewrite EU. destruct (k_updateH (m_kin mr) _ _ _) as [[h nh]|]; [|reflexivity]. destruct (HU h nh eq_refl) as [LH HN]. cbn [lift_hs liftUpd u_press u_bulkNew u_eNew].
  destruct (kd_vals _ _ _ KD (u_press up) tk h LH HN HT) as [_ EO]. rewrite EO. destruct (k_valsOk (m_kin mr) (u_press up) tk h) eqn:EK; [|reflexivity]. cbn [negb].
  pose proof (pb_lift h LH HN EK) as PD. set (po := snglProb mo _ _ _ _ _ _) in *. set (pr := snglProb mr dt d w vr pt h) in *.
  assert (EJ : forall x, length x = 8%nat -> computeRJ po (L x) = L2 (computeRJ pr x)) by (intros x Hx; now apply RJ_L).
  destruct (HS 8%nat (computeRJ po) (computeRJ pr) tol 200%nat (tab 8 (fun _ => 0)) EJ eq_refl) as (ES & LX & LXL).
  change (tab 8 (fun _ => @nZ (option R) ON 0)) with (L (tab 8 (fun _ => 0))). change (tab 8 (fun _ => @nZ R RNum 0)) with (tab 8 (fun _ => 0)).
  rewrite ES. set (r := sr 8%nat (computeRJ pr) tol 200%nat (tab 8 (fun _ => 0))) in *. clearbody r. clear ES.
  cbn [liftSO so_converged so_x so_xlast so_nfev so_nfev_rj]. destruct (so_converged r); [|reflexivity]. cbn [negb].
  destruct (mtan_L po pr PD (so_x r) LX luo lur HL) as [EM LM]. rewrite EM.
  destruct (state_L po pr PD (so_x r) LX) as (EST & LST1 & LST2). rewrite EST.
  destruct (ev_L po pr PD (so_x r) LX) as (EV1 & _). destruct (ev_L po pr PD (so_xlast r) LXL) as (EV2 & _). rewrite EV1, EV2. clear EV1 EV2 EST EM.
  destruct (stateFromX pr (so_x r)) as [eu qu]. cbn [fst snd] in LST1, LST2. unfold L2. cbn [fst snd].
  rewrite (NEtoC_L po pr PD eu LST1). rewrite stress_L by (first [exact LST2 | unfold elastNEtoC, el_getCauchy, vecsVxa; apply tab_length]).
  assert (LSO : length (stress_out qu (elastNEtoC pr eu)) = 7%nat) by reflexivity. rewrite (inner_L u (stress_out qu (elastNEtoC pr eu))) by lia.
  rewrite svecToVecd_L by assumption. rewrite Deff_L by (change (length (svecToVecd d)) with 5%nat; lia).
  rewrite (adotb_L u 4 qu qn) by lia. rewrite (pd_hs _ _ PD).
  rewrite EEL, Gmod_L. change (@oneqrtr (option R) ON) with (Some (oneqrtr : R)).
  assert (FL : forall v : Ev R, (if (idp_tiny_sqrt <? Some (vecd_Deff (svecToVecd d)))%num then (Some (ev_disRate v) / Some (vecd_Deff (svecToVecd d)))%num else Some (pb_hdn_scale pr)) =
     Some (if (idp_tiny_sqrt <? vecd_Deff (svecToVecd d))%num then ev_disRate v / vecd_Deff (svecToVecd d) else pb_hdn_scale pr)%num).
  { intros v. change (idp_tiny_sqrt <? Some (vecd_Deff (svecToVecd d)))%num with (Rltb idp_tiny_sqrt (vecd_Deff (svecToVecd d))).
    change (idp_tiny_sqrt <? vecd_Deff (svecToVecd d))%num with (Rltb idp_tiny_sqrt (vecd_Deff (svecToVecd d))).
    destruct (Rltb _ _) eqn:E; [|reflexivity]. apply Rltb_true in E. pose proof tiny_pos. apply div_L. lra. }
  assert (NQ : tab 4 (fun i => - get (L qu) i)%num = L (tab 4 (fun i => - get qu i)%num)) by (apply tab_L; intros i Hi; rewrite get_L by lia; reflexivity).
  assert (QB : forall l : list R, (if (Some (vecsyadotb 4 qu qn) <? zero)%num then updl (L l) iHistLbQ (tab 4 (fun i => - get (L qu) i)%num) else L l) =
     L (if (vecsyadotb 4 qu qn <? zero)%num then updl l iHistLbQ (tab 4 (fun i => - get qu i)%num) else l)).
  { intros l. rewrite NQ, updl_L. change (Some (vecsyadotb 4 qu qn) <? zero)%num with (Rltb (vecsyadotb 4 qu qn) 0). change (vecsyadotb 4 qu qn <? zero)%num with (Rltb (vecsyadotb 4 qu qn) 0).
    destruct (Rltb _ _); reflexivity. }
  destruct (pt_mtan pt) as [old|] eqn:EMT; cbn [option_map].
  - destruct (mtan_vecds lur pr (so_x r)) as [mv|]; cbn [option_map]; [|unfold liftPt; cbn; reflexivity].
    specialize (LM mv eq_refl). rewrite (mtanSD_L po pr PD _ mv LM). set (v := evalEv pr (so_x r)).
    change (ev_disRate (liftEv v)) with (Some (ev_disRate v)). rewrite FL. rewrite hist_L by reflexivity. rewrite QB. rewrite !updl_L.
    destruct (el_getGmod (m_el mr)) as [gm|]; cbn [option_map fst snd]; [|reflexivity].
    rewrite !upd_L. unfold liftPt. cbn [pt_eInt pt_stress pt_hist pt_tkelv pt_sdd pt_mtan option_map]. f_equal. f_equal. rewrite <- upd_L. reflexivity.
  - set (v := evalEv pr (so_xlast r)).
    change (ev_disRate (liftEv v)) with (Some (ev_disRate v)). rewrite FL. rewrite hist_L by reflexivity. rewrite QB. rewrite !updl_L.
    destruct (el_getGmod (m_el mr)) as [gm|]; cbn [option_map fst snd]; [|reflexivity].
    rewrite !upd_L. unfold liftPt. cbn [pt_eInt pt_stress pt_hist pt_tkelv pt_sdd pt_mtan option_map]. f_equal. f_equal. rewrite <- upd_L. reflexivity.
Qed.
End Point.
End Def4.
