(** The USE_DPEFF build: the two history values at a point, and the interface. *)
From Coq Require Import List ZArith Bool Lia PeanoNat.
From Verif Require Import Num Arr Util SlipGeom Eos Hard Elast Evptn MatModel EvptnDp P_Sngl P_Gen P_Batch P_Batch2 P_Batch3 P_Api P_Builtin P_Dp P_Dp2 P_Dp3.
Import ListNotations.
Local Open Scope num_scope.

Section G.
Context {T : Type} {N : Num T}.

Lemma sngl_dp_done solver lu m dt tol d w vr pt pt' :
  kin_shapes (m_kin m) (sg_nslip (m_sg m)) -> pt_shapes m pt ->
  getResponseSngl_dp solver lu m dt tol d w vr pt = (Done, pt') ->
  exists g, sub (pt_hist pt') (iHistLbGdot (k_nH (m_kin m))) (sg_nslip (m_sg m)) = g /\
    get (pt_hist pt') 0 = vecd_Deff (vecsVMa 5 (sg_nslip (m_sg m)) (sg_P (m_sg m)) g) /\
    get (pt_hist pt') 1 = get (pt_hist pt) 1 + get (pt_hist pt') 0 * dt.
Proof.
  intros [KH KG] (SE & SS & SH & SD & SM) H. unfold getResponseSngl_dp in H. cbv zeta in H.
  destruct k_updateH as [[h_u nh]|] eqn:EH; [|discriminate].
  destruct k_valsOk eqn:EV; cbn [negb] in H; [|discriminate].
  set (p := snglProb m dt d w vr pt h_u) in *.
  set (r := solver 8%nat (computeRJ p) tol 200%nat (tab 8 (fun _ => nZ 0))) in *.
  destruct (so_converged r) eqn:EC; cbn [negb] in H; [|discriminate].
  destruct (gstateFromX_length p (so_x r)) as [L5 L4].
  destruct (stateFromX p (so_x r)) as [e_u quat_u] eqn:Est. cbn [fst snd] in L5, L4.
  pose proof (KH _ _ _ _ _ EH) as LH.
  assert (LG : forall x, length (ev_gdot (evalEv_dp p x)) = sg_nslip (m_sg m)).
  { intros x. cbn [evalEv_dp ev_gdot]. rewrite gev_gdot_evalGdots. apply KG. }
  rewrite (gtab4_neg quat_u L4) in H.
  set (nH := k_nH (m_kin m)) in *. set (ns := sg_nslip (m_sg m)) in *.
  set (xv := match pt_mtan pt with None => so_xlast r | Some _ => so_x r end).
  set (nf := match pt_mtan pt with None => so_nfev r | Some _ => so_nfev_rj r end).
  set (flow := if idp_tiny_sqrt <? vecd_Deff (svecToVecd d)
               then ev_disRate (evalEv_dp p xv) / vecd_Deff (svecToVecd d) else pb_hdn_scale p).
  set (hh := hist_out nH (pt_hist pt) e_u quat_u h_u (evalEv_dp p xv) dt flow nf).
  set (hf := if vecsyadotb 4 quat_u (snglQuatN (pt_hist pt)) <? zero
             then updl hh iHistLbQ (map nopp quat_u) else hh).
  assert (LN : length (map nopp quat_u) = 4%nat) by now rewrite map_length.
  destruct (ghist_out_slots nH ns (pt_hist pt) e_u quat_u h_u (evalEv_dp p xv) dt flow nf _ SH L5 L4 LH (LG xv) LN)
    as (HL & HQ & HQ' & HS). fold hh in HL, HQ, HQ', HS.
  assert (HF : hf = hh \/ hf = updl hh iHistLbQ (map nopp quat_u)).
  { unfold hf. destruct nltb; auto. }
  destruct (HS hf HF) as (T1 & T2 & T3 & T4 & T5 & T6 & T7). clear HS.
  assert (C : pt_hist pt' = hf).
  { unfold hf, hh, flow, xv, nf. clear - H.
    destruct (pt_mtan pt) as [old|] eqn:EM.
    - destruct (mtan_vecds lu p (so_x r)) as [mv|] eqn:EMV; [|discriminate].
      destruct (el_getGmod (m_el m)) as [gmod|] eqn:EG; [|discriminate].
      apply (f_equal snd) in H. cbn [snd] in H. rewrite <- H. reflexivity.
    - destruct (el_getGmod (m_el m)) as [gmod|] eqn:EG; [|discriminate].
      apply (f_equal snd) in H. cbn [snd] in H. rewrite <- H. reflexivity. }
  rewrite C. exists (ev_gdot (evalEv p xv)).
  unfold iHistA_shrateEff, iHistA_shrEff in T4, T5. rewrite T5, T4. split; [exact T3|]. split; reflexivity.
Qed.
End G.

Lemma api_dp {T} {N : Num T} (c : MClass T) s solver lu dt mtan n m mat tol m1 :
  reachable c s -> mm_complete s = true -> mm_ready s = Some (mat, tol) -> batch_ok c s mtan n m ->
  mm_getResponse_dp solver lu c s dt mtan (Z.of_nat n) m = (BRet Done, m1) ->
  untouched (mm_strides s) (c_nH c) (c_nslip c) mtan n m m1 /\
  forall i, (i < n)%nat ->
    getResponseSngl_dp solver lu mat dt tol (cell_of c s mtan m AD i) (cell_of c s mtan m AW i)
                  (cell_of c s mtan m AV i) (pt_of c s mtan m i) = (Done, pt_of c s mtan m1 i).
Proof.
  intros HR HC HM [HW HB] H. pose proof (reach_strides_ok c s mtan HR) as HS.
  unfold mm_getResponse_dp in H. rewrite HC in H. cbn [negb] in H. rewrite Nat2Z.id in H.
  destruct (seq_batch_dp solver lu mat dt tol (mm_strides s) (c_nH c) (c_nslip c) mtan n HS HW (seq 0 n) m) as (o & m1' & E & U & A & R).
  { apply seq_NoDup. } { intros i Hi. apply in_seq in Hi. lia. } { assumption. }
  assert (E' : (BRet o, m1') = (BRet Done, m1)).
  { rewrite <- E, <- H. destruct (seq 0 n) eqn:ES; [reflexivity|]. rewrite HM. reflexivity. }
  assert (m1' = m1) by congruence. assert (o = Done) by congruence. subst.
  split; [assumption|]. intros i Hi. destruct (R i) as [R1 R2]; [apply in_seq; lia|]. now apply pair_eq.
Qed.

Lemma api_same {T} {N : Num T} (c : MClass T) s solver lu dt mtan n m m' :
  reachable c s -> batch_ok c s mtan n m -> msim (mm_strides s) n m m' ->
  fst (mm_getResponse_dp solver lu c s dt mtan (Z.of_nat n) m') = fst (mm_getResponse solver lu c s dt mtan (Z.of_nat n) m) /\
  msim (mm_strides s) n (snd (mm_getResponse solver lu c s dt mtan (Z.of_nat n) m)) (snd (mm_getResponse_dp solver lu c s dt mtan (Z.of_nat n) m')).
Proof.
  intros HR [HW HB] H. pose proof (reach_strides_ok c s mtan HR) as HS.
  unfold mm_getResponse_dp, mm_getResponse. rewrite Nat2Z.id.
  destruct (mm_complete s); cbn [negb]; [|cbn [fst snd]; auto].
  pose proof (fun mat tol => sim_run solver lu mat dt tol (mm_strides s) (c_nH c) (c_nslip c) mtan n HS HW (seq 0 n) m m') as R.
  destruct (seq 0 n) as [|x l] eqn:ES; [cbn [fst snd]; auto|].
  destruct (mm_ready s) as [[mat tol]|]; [|cbn [fst snd]; auto].
  apply R; [|assumption|assumption]. intros i Hi. rewrite <- ES in Hi. apply in_seq in Hi. lia.
Qed.
