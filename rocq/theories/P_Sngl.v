(** Facts about the single-point response over R: what a successful call returns. *)
From Coq Require Import List ZArith Bool Lia Reals Lra.
From Verif Require Import Num Arr NumR Util SlipGeom Eos Hard KinVoce KinKMBalD Elast Evptn SpecTensor P_Tensor.
Import ListNotations.
Local Open Scope R_scope.

(** Array shapes the kinetics functions return. *)
Definition kin_shapes {T : Type} (k : Kinetics T) (nslip : nat) : Prop :=
  (forall hs dt g h n, k_updateH k hs dt g = Some (h, n) -> length h = k_nH k) /\
  (forall tau vals, length (fst (fst (k_evalGdots k tau vals))) = nslip).

Lemma voce_shapes {T} {N : Num T} (solver : Solver T) v nslip : kin_shapes (voce_kinetics solver v nslip) nslip.
Proof.
  split.
  - intros hs dt g h n. cbn [voce_kinetics k_updateH k_nH]. unfold voce_updateH.
    destruct updateH1 as [[? ?]|]; [|discriminate]. intros H. injection H as <- <-. reflexivity.
  - intros. cbn. apply tab_length.
Qed.
Lemma km_shapes {T} {N : Num T} (solver : Solver T) k nslip : kin_shapes (km_kinetics solver k nslip) nslip.
Proof.
  split.
  - intros hs dt g h n. cbn [km_kinetics k_updateH k_nH]. unfold km_updateH.
    destruct updateH1 as [[? ?]|]; [|discriminate]. intros H. injection H as <- <-. reflexivity.
  - intros. cbn. apply tab_length.
Qed.

(** Shapes of the caller's arrays for one point. *)
Definition pt_shapes {T : Type} (m : Mat T) (pt : Pt T) : Prop :=
  length (pt_eInt pt) = 1%nat /\ length (pt_stress pt) = 7%nat /\
  length (pt_hist pt) = numHist (k_nH (m_kin m)) (sg_nslip (m_sg m)) /\
  length (pt_sdd pt) = 2%nat /\ (forall mt, pt_mtan pt = Some mt -> length mt = 36%nat).

(** Everything a successful call has stored. *)
Definition quat_final (quat_u quat_n : list R) : list R :=
  if Rltb (vecsyadotb 4 quat_u quat_n) 0 then map Ropp quat_u else quat_u.

Record Result (m : Mat R) (lu : LUSolver R) (dt : R) (d w vr : list R) (pt pt' : Pt R)
    (h_u : list R) (p : Prob R) (r : SolveOut R) (v : Ev R) (nfev : nat) (gmod : R) : Prop := {
  r_updH : exists n, k_updateH (m_kin m) (sub (pt_hist pt) iHistLbH (k_nH (m_kin m))) dt
             (sub (pt_hist pt) (iHistLbGdot (k_nH (m_kin m))) (sg_nslip (m_sg m))) = Some (h_u, n);
  r_prob : p = snglProb m dt d w vr pt h_u;
  r_conv : so_converged r = true;
  r_valsOk : k_valsOk (m_kin m) (u_press (snglUpd m vr (pt_eInt pt) (pt_stress pt)))
               (snglTkelv m vr (pt_eInt pt)) h_u = true;
  r_v : v = evalEv p (match pt_mtan pt with None => so_xlast r | Some _ => so_x r end);
  r_nfev : nfev = (match pt_mtan pt with None => so_nfev r | Some _ => so_nfev_rj r end);
  r_gmod : el_getGmod (m_el m) = Some gmod;
  r_eInt : get (pt_eInt pt') 0 =
     u_eNew (snglUpd m vr (pt_eInt pt) (pt_stress pt)) +
     (oneqrtr * (get vr 0 + get vr 1) * dt * vecsInnerSvecDev (pt_stress pt) d +
      oneqrtr * (get vr 0 + get vr 1) * dt *
        vecsInnerSvecDev (stress_out (snd (stateFromX p (so_x r))) (elastNEtoC p (fst (stateFromX p (so_x r))))) d);
  r_stress : pt_stress pt' =
     stress_out (snd (stateFromX p (so_x r))) (elastNEtoC p (fst (stateFromX p (so_x r))));
  r_tkelv : pt_tkelv pt' = snglTkelv m vr (pt_eInt pt);
  r_sdd : pt_sdd pt' = [u_bulkNew (snglUpd m vr (pt_eInt pt) (pt_stress pt)); gmod];
  r_mtan : match pt_mtan pt with
           | None => pt_mtan pt' = None
           | Some _ => exists mv, mtan_vecds lu p (so_x r) = Some mv /\
               pt_mtan pt' = Some (mtanSD_of p (u_bulkNew (snglUpd m vr (pt_eInt pt) (pt_stress pt))) mv)
           end;
  r_E : sub (pt_hist pt') iHistLbE 5 = fst (stateFromX p (so_x r));
  r_Q : sub (pt_hist pt') iHistLbQ 4 = quat_final (snd (stateFromX p (so_x r))) (snglQuatN (pt_hist pt));
  r_H : sub (pt_hist pt') iHistLbH (k_nH (m_kin m)) = h_u;
  r_G : sub (pt_hist pt') (iHistLbGdot (k_nH (m_kin m))) (sg_nslip (m_sg m)) = ev_gdot v;
  r_shrateEff : get (pt_hist pt') iHistA_shrateEff = ev_shrateEff v;
  r_shrEff : get (pt_hist pt') iHistA_shrEff = get (pt_hist pt) iHistA_shrEff + ev_shrateEff v * dt;
  r_flow : get (pt_hist pt') iHistA_flowStr =
     (if Rltb idp_tiny_sqrt (vecd_Deff (svecToVecd d)) then ev_disRate v / vecd_Deff (svecToVecd d) else pb_hdn_scale p);
  r_nf : get (pt_hist pt') iHistA_nFEval = IZR (Z.of_nat nfev);
  r_shapes : pt_shapes m pt'
}.

Lemma quat_prod_length a b : length (quat_prod a b : list R) = 4%nat.
Proof. reflexivity. Qed.

Lemma stateFromX_length (p : Prob R) x :
  length (fst (stateFromX p x)) = 5%nat /\ length (snd (stateFromX p x)) = 4%nat.
Proof. split; [apply tab_length | reflexivity]. Qed.

Lemma updl_all (v a : list R) : length v = length a -> updl a 0 v = v.
Proof.
  intros H. apply list_get_ext. rewrite updl_length. auto.
  intros i Hi. rewrite updl_length in Hi. rewrite get_updl_in by lia. f_equal. lia.
Qed.
Lemma mtanSD_length (p : Prob R) b mt : length (mtanSD_of p b mt) = 36%nat.
Proof. unfold mtanSD_of, mtan_conv_sd_svec. cbv zeta. apply tab2_length. Qed.

Lemma ev_gdot_evalGdots (p : Prob R) x : ev_gdot (evalEv p x) = fst (fst (k_evalGdots (pb_kin p) (ev_taua (evalEv p x)) (pb_kin_vals p))).
Proof. reflexivity. Qed.

Lemma tab4_neg (q : list R) : length q = 4%nat -> tab 4 (fun i => - get q i)%R = map Ropp q.
Proof. intros. explode q. reflexivity. Qed.

Lemma sub_upd_other (a : list R) i x j n : (i < j \/ j + n <= i)%nat -> (j + n <= length a)%nat ->
  sub (upd a i x) j n = sub a j n.
Proof. intros. rewrite upd_updl1. apply sub_updl_other; cbn [length]; lia. Qed.

(** What [hist_out] followed by the sign adjustment leaves in each slot. *)
Lemma hist_out_slots nH ns (hist e_u q h_u : list R) v dt flow nf q' :
  length hist = numHist nH ns -> length e_u = 5%nat -> length q = 4%nat -> length h_u = nH ->
  length (ev_gdot v) = ns -> length q' = 4%nat ->
  let h := hist_out nH hist e_u q h_u v dt flow nf in
  let h' := updl h iHistLbQ q' in
  length h = numHist nH ns /\
  sub h iHistLbQ 4 = q /\
  sub h' iHistLbQ 4 = q' /\
  (forall g, g = h \/ g = h' ->
   sub g iHistLbE 5 = e_u /\ sub g iHistLbH nH = h_u /\ sub g (iHistLbGdot nH) ns = ev_gdot v /\
   get g iHistA_shrateEff = ev_shrateEff v /\
   get g iHistA_shrEff = get hist iHistA_shrEff + ev_shrateEff v * dt /\
   get g iHistA_flowStr = flow /\ get g iHistA_nFEval = IZR (Z.of_nat nf)).
Proof.
  intros Lh Le Lq Lhu Lg Lq'. unfold numHist in Lh.
  unfold iHistLbE, iHistLbQ, iHistLbH, iHistLbGdot, iHistA_shrateEff, iHistA_shrEff, iHistA_flowStr, iHistA_nFEval.
  unfold iHistLbH in *. cbv zeta.
  unfold hist_out. unfold iHistLbE, iHistLbQ, iHistLbH, iHistLbGdot, iHistA_shrateEff, iHistA_shrEff, iHistA_flowStr, iHistA_nFEval, numHist, iHistLbH.
  cbv zeta.
  set (h1 := updl hist 4 e_u).
  assert (L1 : length h1 = (13 + nH + ns)%nat) by (unfold h1; rewrite updl_length; lia).
  set (h2 := updl h1 9 q).
  assert (L2 : length h2 = (13 + nH + ns)%nat) by (unfold h2; rewrite updl_length; lia).
  set (h3 := updl h2 13 h_u).
  assert (L3 : length h3 = (13 + nH + ns)%nat) by (unfold h3; rewrite updl_length; lia).
  set (h4 := updl h3 (13 + nH) (ev_gdot v)).
  assert (L4 : length h4 = (13 + nH + ns)%nat) by (unfold h4; rewrite updl_length; lia).
  set (h5 := upd h4 0 (ev_shrateEff v)).
  assert (L5 : length h5 = (13 + nH + ns)%nat) by (unfold h5; rewrite upd_length; lia).
  change (@nadd R RNum) with Rplus. change (@nmul R RNum) with Rmult.
  set (h6 := upd h5 1 (get h5 1 + ev_shrateEff v * dt)).
  assert (L6 : length h6 = (13 + nH + ns)%nat) by (unfold h6; rewrite upd_length; lia).
  set (h7 := upd h6 2 flow).
  assert (L7 : length h7 = (13 + nH + ns)%nat) by (unfold h7; rewrite upd_length; lia).
  set (h8 := upd h7 3 (nZ (Z.of_nat nf))).
  assert (L8 : length h8 = (13 + nH + ns)%nat) by (unfold h8; rewrite upd_length; lia).
  assert (S8 : forall j n, (4 <= j)%nat -> (j + n <= 13 + nH + ns)%nat -> sub h8 j n = sub h4 j n).
  { intros j n Hj Hn. unfold h8. rewrite sub_upd_other by lia. unfold h7. rewrite sub_upd_other by lia.
    unfold h6. rewrite sub_upd_other by lia. unfold h5. apply sub_upd_other; lia. }
  assert (SQ : sub h8 9 4 = q).
  { rewrite S8 by lia. unfold h4. rewrite sub_updl_other by lia. unfold h3. rewrite sub_updl_other by lia.
    unfold h2. pose proof (sub_updl_same q h1 9) as E. rewrite Lq in E. apply E. lia. }
  assert (SE : sub h8 4 5 = e_u).
  { rewrite S8 by lia. unfold h4. rewrite sub_updl_other by lia. unfold h3. rewrite sub_updl_other by lia.
    unfold h2. rewrite sub_updl_other by lia.
    unfold h1. pose proof (sub_updl_same e_u hist 4) as E. rewrite Le in E. apply E. lia. }
  assert (SH : sub h8 13 nH = h_u).
  { rewrite S8 by lia. unfold h4. rewrite !sub_updl_other by lia.
    unfold h3. rewrite <- Lhu at 1. apply sub_updl_same. lia. }
  assert (SG : sub h8 (13 + nH) ns = ev_gdot v).
  { rewrite S8 by lia. unfold h4. rewrite <- Lg at 1. apply sub_updl_same. lia. }
  assert (G0 : get h8 0 = ev_shrateEff v).
  { unfold h8, h7, h6. rewrite !get_upd_other by lia. unfold h5. apply get_upd_same. lia. }
  assert (G1 : get h8 1 = get hist 1 + ev_shrateEff v * dt).
  { unfold h8, h7. rewrite !get_upd_other by lia. unfold h6. rewrite get_upd_same by lia.
    f_equal. unfold h5. rewrite get_upd_other by lia. unfold h4, h3, h2, h1.
    rewrite !get_updl_out by lia. reflexivity. }
  assert (G2 : get h8 2 = flow).
  { unfold h8. rewrite !get_upd_other by lia. unfold h7. apply get_upd_same. lia. }
  assert (G3 : get h8 3 = IZR (Z.of_nat nf)).
  { unfold h8. apply get_upd_same. lia. }
  split; [exact L8|]. split; [exact SQ|]. split.
  { pose proof (sub_updl_same q' h8 9) as E. rewrite Lq' in E. apply E. lia. }
  intros g [-> | ->]; [repeat split; assumption|].
  rewrite !sub_updl_other by lia. rewrite !get_updl_out by lia. repeat split; assumption.
Qed.

Lemma sngl_done solver lu m dt tol d w vr pt pt' :
  kin_shapes (m_kin m) (sg_nslip (m_sg m)) -> pt_shapes m pt ->
  getResponseSngl solver lu m dt tol d w vr pt = (Done, pt') ->
  exists h_u v nfev gmod,
    let p := snglProb m dt d w vr pt h_u in
    let r := solver 8%nat (computeRJ p) tol 200%nat (tab 8 (fun _ => 0)) in
    Result m lu dt d w vr pt pt' h_u p r v nfev gmod.
Proof.
  intros [KH KG] (SE & SS & SH & SD & SM) H. unfold getResponseSngl in H. cbv zeta in H.
  destruct k_updateH as [[h_u nh]|] eqn:EH; [|discriminate].
  destruct k_valsOk eqn:EV; cbn [negb] in H; [|discriminate].
  set (p := snglProb m dt d w vr pt h_u) in *.
  change (@nZ R RNum 0) with 0 in H.
  set (r := solver 8%nat (computeRJ p) tol 200%nat (tab 8 (fun _ => 0))) in *.
  destruct (so_converged r) eqn:EC; cbn [negb] in H; [|discriminate].
  destruct (stateFromX_length p (so_x r)) as [L5 L4].
  destruct (stateFromX p (so_x r)) as [e_u quat_u] eqn:Est. cbn [fst snd] in L5, L4.
  pose proof (KH _ _ _ _ _ EH) as LH.
  assert (LG : forall x, length (ev_gdot (evalEv p x)) = sg_nslip (m_sg m)).
  { intros x. rewrite ev_gdot_evalGdots. apply KG. }
  change (@nltb R RNum (vecsyadotb 4 quat_u (snglQuatN (pt_hist pt))) zero)
    with (Rltb (vecsyadotb 4 quat_u (snglQuatN (pt_hist pt))) 0) in H.
  change (@nltb R RNum idp_tiny_sqrt (vecd_Deff (svecToVecd d)))
    with (Rltb idp_tiny_sqrt (vecd_Deff (svecToVecd d))) in H.
  change (tab 4 (fun i => @nopp R RNum (get quat_u i))) with (tab 4 (fun i => - get quat_u i)) in H.
  rewrite (tab4_neg quat_u L4) in H.
  set (nH := k_nH (m_kin m)) in *. set (ns := sg_nslip (m_sg m)) in *.
  set (xv := match pt_mtan pt with None => so_xlast r | Some _ => so_x r end).
  set (nf := match pt_mtan pt with None => so_nfev r | Some _ => so_nfev_rj r end).
  set (flow := if Rltb idp_tiny_sqrt (vecd_Deff (svecToVecd d))
               then ev_disRate (evalEv p xv) / vecd_Deff (svecToVecd d) else pb_hdn_scale p).
  set (hh := hist_out nH (pt_hist pt) e_u quat_u h_u (evalEv p xv) dt flow nf).
  set (hf := if Rltb (vecsyadotb 4 quat_u (snglQuatN (pt_hist pt))) 0
             then updl hh iHistLbQ (map Ropp quat_u) else hh).
  assert (LN : length (map Ropp quat_u) = 4%nat) by now rewrite map_length.
  destruct (hist_out_slots nH ns (pt_hist pt) e_u quat_u h_u (evalEv p xv) dt flow nf _ SH L5 L4 LH (LG xv) LN)
    as (HL & HQ & HQ' & HS). fold hh in HL, HQ, HQ', HS.
  assert (HF : hf = hh \/ hf = updl hh iHistLbQ (map Ropp quat_u)).
  { unfold hf. destruct Rltb; auto. }
  destruct (HS hf HF) as (T1 & T2 & T3 & T4 & T5 & T6 & T7). clear HS.
  assert (LHF : length hf = numHist nH ns).
  { unfold hf. destruct Rltb; [rewrite updl_length|]; exact HL. }
  assert (QF : sub hf iHistLbQ 4 = quat_final quat_u (snglQuatN (pt_hist pt))).
  { unfold hf, quat_final. destruct Rltb; assumption. }
  (* common shape of the result *)
  assert (C : exists mt gmod, el_getGmod (m_el m) = Some gmod /\
     match pt_mtan pt with
     | None => mt = None
     | Some old => exists mv, mtan_vecds lu p (so_x r) = Some mv /\
         mt = Some (updl old 0 (mtanSD_of p (u_bulkNew (snglUpd m vr (pt_eInt pt) (pt_stress pt))) mv))
     end /\
     pt' = {| pt_eInt := upd (pt_eInt pt) 0
                  (u_eNew (snglUpd m vr (pt_eInt pt) (pt_stress pt)) +
                   (oneqrtr * (get vr 0 + get vr 1) * dt * vecsInnerSvecDev (pt_stress pt) d +
                    oneqrtr * (get vr 0 + get vr 1) * dt * vecsInnerSvecDev (stress_out quat_u (elastNEtoC p e_u)) d));
              pt_stress := updl (pt_stress pt) 0 (stress_out quat_u (elastNEtoC p e_u));
              pt_hist := hf; pt_tkelv := snglTkelv m vr (pt_eInt pt);
              pt_sdd := upd (upd (pt_sdd pt) 0 (u_bulkNew (snglUpd m vr (pt_eInt pt) (pt_stress pt)))) 1 gmod;
              pt_mtan := mt |}).
  { unfold hf, hh, flow, xv, nf. clear - H.
    destruct (pt_mtan pt) as [old|] eqn:EM.
    - destruct (mtan_vecds lu p (so_x r)) as [mv|] eqn:EMV; [|discriminate].
      destruct (el_getGmod (m_el m)) as [gmod|] eqn:EG; [|discriminate].
      eexists; exists gmod. split; [reflexivity|]. split; [exists mv; split; reflexivity|].
      apply (f_equal snd) in H. cbn [snd] in H. rewrite <- H. reflexivity.
    - destruct (el_getGmod (m_el m)) as [gmod|] eqn:EG; [|discriminate].
      exists None, gmod. split; [reflexivity|]. split; [reflexivity|].
      apply (f_equal snd) in H. cbn [snd] in H. rewrite <- H. reflexivity. }
  destruct C as (mt & gmod & EG & EMt & ->).
  exists h_u, (evalEv p xv), nf, gmod. cbv zeta. fold p. fold r.
  assert (ESD : upd (upd (pt_sdd pt) 0 (u_bulkNew (snglUpd m vr (pt_eInt pt) (pt_stress pt)))) 1 gmod =
                [u_bulkNew (snglUpd m vr (pt_eInt pt) (pt_stress pt)); gmod]).
  { clear - SD. destruct (pt_sdd pt) as [|a [|b [|]]]; try discriminate. reflexivity. }
  assert (ESt : updl (pt_stress pt) 0 (stress_out quat_u (elastNEtoC p e_u)) = stress_out quat_u (elastNEtoC p e_u)).
  { apply updl_all. rewrite SS. reflexivity. }
  rewrite ESD, ESt.
  constructor; rewrite ?Est; cbn [pt_eInt pt_stress pt_hist pt_tkelv pt_sdd pt_mtan fst snd];
    try reflexivity; try assumption.
  - eexists; eassumption.
  - rewrite get_upd_same by lia. reflexivity.
  - destruct (pt_mtan pt) as [old|]; [|assumption].
    destruct EMt as (mv & E1 & ->). exists mv. split; [assumption|]. f_equal.
    apply updl_all. rewrite mtanSD_length. now rewrite (SM old eq_refl).
  - unfold pt_shapes. cbn [pt_eInt pt_stress pt_hist pt_tkelv pt_sdd pt_mtan].
    rewrite upd_length. repeat split; try assumption; try reflexivity.
    intros mt' E. subst mt. destruct (pt_mtan pt) as [old|]; [|discriminate].
    destruct EMt as (mv & E1 & E2). apply (f_equal (fun o => match o with Some x => x | None => [] end)) in E2. cbv beta iota in E2.
    rewrite E2, updl_length. now apply SM.
Qed.
