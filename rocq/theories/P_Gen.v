(** What a successful call returns, for any scalar arithmetic (the R versions are in P_Sngl.v and P_Builtin.v). *)
From Coq Require Import List ZArith Bool Lia PeanoNat.
From Verif Require Import Num Arr Util SlipGeom Eos Hard KinVoce KinKMBalD Elast Evptn MatModel Cases
  P_Sngl P_Batch P_Batch2 P_Batch3 P_Api P_Builtin.
Import ListNotations.

Section G.
  Context {T : Type} {N : Num T}.
  Local Open Scope num_scope.

(** Everything a successful call has stored. *)
Definition gquat_final (quat_u quat_n : list T) : list T :=
  if vecsyadotb 4 quat_u quat_n <? zero then map nopp quat_u else quat_u.

Record GResult (m : Mat T) (lu : LUSolver T) (dt : T) (d w vr : list T) (pt pt' : Pt T)
    (h_u : list T) (p : Prob T) (r : SolveOut T) (v : Ev T) (nfev : nat) (gmod : T) : Prop := {
  g_updH : exists n, k_updateH (m_kin m) (sub (pt_hist pt) iHistLbH (k_nH (m_kin m))) dt
             (sub (pt_hist pt) (iHistLbGdot (k_nH (m_kin m))) (sg_nslip (m_sg m))) = Some (h_u, n);
  g_prob : p = snglProb m dt d w vr pt h_u;
  g_conv : so_converged r = true;
  g_valsOk : k_valsOk (m_kin m) (u_press (snglUpd m vr (pt_eInt pt) (pt_stress pt)))
               (snglTkelv m vr (pt_eInt pt)) h_u = true;
  g_v : v = evalEv p (match pt_mtan pt with None => so_xlast r | Some _ => so_x r end);
  g_nfev : nfev = (match pt_mtan pt with None => so_nfev r | Some _ => so_nfev_rj r end);
  g_gmod : el_getGmod (m_el m) = Some gmod;
  g_eInt : get (pt_eInt pt') 0 =
     u_eNew (snglUpd m vr (pt_eInt pt) (pt_stress pt)) +
     (oneqrtr * (get vr 0 + get vr 1) * dt * vecsInnerSvecDev (pt_stress pt) d +
      oneqrtr * (get vr 0 + get vr 1) * dt *
        vecsInnerSvecDev (stress_out (snd (stateFromX p (so_x r))) (elastNEtoC p (fst (stateFromX p (so_x r))))) d);
  g_stress : pt_stress pt' =
     stress_out (snd (stateFromX p (so_x r))) (elastNEtoC p (fst (stateFromX p (so_x r))));
  g_tkelv : pt_tkelv pt' = snglTkelv m vr (pt_eInt pt);
  g_sdd : pt_sdd pt' = [u_bulkNew (snglUpd m vr (pt_eInt pt) (pt_stress pt)); gmod];
  g_mtan : match pt_mtan pt with
           | None => pt_mtan pt' = None
           | Some _ => exists mv, mtan_vecds lu p (so_x r) = Some mv /\
               pt_mtan pt' = Some (mtanSD_of p (u_bulkNew (snglUpd m vr (pt_eInt pt) (pt_stress pt))) mv)
           end;
  g_E : sub (pt_hist pt') iHistLbE 5 = fst (stateFromX p (so_x r));
  g_Q : sub (pt_hist pt') iHistLbQ 4 = gquat_final (snd (stateFromX p (so_x r))) (snglQuatN (pt_hist pt));
  g_H : sub (pt_hist pt') iHistLbH (k_nH (m_kin m)) = h_u;
  g_G : sub (pt_hist pt') (iHistLbGdot (k_nH (m_kin m))) (sg_nslip (m_sg m)) = ev_gdot v;
  g_shrateEff : get (pt_hist pt') iHistA_shrateEff = ev_shrateEff v;
  g_shrEff : get (pt_hist pt') iHistA_shrEff = get (pt_hist pt) iHistA_shrEff + ev_shrateEff v * dt;
  g_flow : get (pt_hist pt') iHistA_flowStr =
     (if idp_tiny_sqrt <? vecd_Deff (svecToVecd d) then ev_disRate v / vecd_Deff (svecToVecd d) else pb_hdn_scale p);
  g_nf : get (pt_hist pt') iHistA_nFEval = nZ (Z.of_nat nfev);
  g_shapes : pt_shapes m pt'
}.

Lemma gquat_prod_length a b : length (quat_prod a b : list T) = 4%nat.
Proof. reflexivity. Qed.

Lemma gstateFromX_length (p : Prob T) x :
  length (fst (stateFromX p x)) = 5%nat /\ length (snd (stateFromX p x)) = 4%nat.
Proof. split; [apply tab_length | reflexivity]. Qed.

Lemma gupdl_all (v a : list T) : length v = length a -> updl a 0 v = v.
Proof.
  intros H. apply list_get_ext. rewrite updl_length. auto.
  intros i Hi. rewrite updl_length in Hi. rewrite get_updl_in by lia. f_equal. lia.
Qed.
Lemma gmtanSD_length (p : Prob T) b mt : length (mtanSD_of p b mt) = 36%nat.
Proof. unfold mtanSD_of, mtan_conv_sd_svec. cbv zeta. apply tab2_length. Qed.

Lemma gev_gdot_evalGdots (p : Prob T) x : ev_gdot (evalEv p x) = fst (fst (k_evalGdots (pb_kin p) (ev_taua (evalEv p x)) (pb_kin_vals p))).
Proof. reflexivity. Qed.

Lemma gtab4_neg (q : list T) : length q = 4%nat -> tab 4 (fun i => nopp (get q i)) = map nopp q.
Proof. intros. explode q. reflexivity. Qed.

Lemma gsub_upd_other (a : list T) i x j n : (i < j \/ j + n <= i)%nat -> (j + n <= length a)%nat ->
  sub (upd a i x) j n = sub a j n.
Proof. intros. rewrite upd_updl1. apply sub_updl_other; cbn [length]; lia. Qed.

(** What [hist_out] followed by the sign adjustment leaves in each slot. *)
Lemma ghist_out_slots nH ns (hist e_u q h_u : list T) v dt flow nf q' :
  length hist = numHist nH ns -> length e_u = 5%nat -> length q = 4%nat -> length h_u = nH ->
  length (ev_gdot v) = ns -> length q' = 4%nat ->
  let h := hist_out nH hist e_u q h_u v dt flow nf in
  let h' := updl h iHistLbQ q' in
  length h = numHist nH ns /\
  sub h iHistLbQ 4 = q /\
  sub h' iHistLbQ 4 = q' /\
  (forall g, g = h \/ g = h' ->
   sub g iHistLbE 5 = e_u /\ sub g iHistLbH nH = h_u /\ sub g (iHistLbGdot nH) ns = ev_gdot v /\
   get g iHistA_shrateEff = ev_shrateEff v /\
   get g iHistA_shrEff = get hist iHistA_shrEff + ev_shrateEff v * dt /\
   get g iHistA_flowStr = flow /\ get g iHistA_nFEval = nZ (Z.of_nat nf)).
Proof.
  intros Lh Le Lq Lhu Lg Lq'. unfold numHist in Lh.
  unfold iHistLbE, iHistLbQ, iHistLbH, iHistLbGdot, iHistA_shrateEff, iHistA_shrEff, iHistA_flowStr, iHistA_nFEval.
  unfold iHistLbH in *. cbv zeta.
  unfold hist_out. unfold iHistLbE, iHistLbQ, iHistLbH, iHistLbGdot, iHistA_shrateEff, iHistA_shrEff, iHistA_flowStr, iHistA_nFEval, numHist, iHistLbH.
  cbv zeta.
  set (h1 := updl hist 4 e_u).
  assert (L1 : length h1 = (13 + nH + ns)%nat) by (unfold h1; rewrite updl_length; lia).
  set (h2 := updl h1 9 q).
  assert (L2 : length h2 = (13 + nH + ns)%nat) by (unfold h2; rewrite updl_length; lia).
  set (h3 := updl h2 13 h_u).
  assert (L3 : length h3 = (13 + nH + ns)%nat) by (unfold h3; rewrite updl_length; lia).
  set (h4 := updl h3 (13 + nH) (ev_gdot v)).
  assert (L4 : length h4 = (13 + nH + ns)%nat) by (unfold h4; rewrite updl_length; lia).
  set (h5 := upd h4 0 (ev_shrateEff v)).
  assert (L5 : length h5 = (13 + nH + ns)%nat) by (unfold h5; rewrite upd_length; lia).
  set (h6 := upd h5 1 (get h5 1 + ev_shrateEff v * dt)).
  assert (L6 : length h6 = (13 + nH + ns)%nat) by (unfold h6; rewrite upd_length; lia).
  set (h7 := upd h6 2 flow).
  assert (L7 : length h7 = (13 + nH + ns)%nat) by (unfold h7; rewrite upd_length; lia).
  set (h8 := upd h7 3 (nZ (Z.of_nat nf))).
  assert (L8 : length h8 = (13 + nH + ns)%nat) by (unfold h8; rewrite upd_length; lia).
  assert (S8 : forall j n, (4 <= j)%nat -> (j + n <= 13 + nH + ns)%nat -> sub h8 j n = sub h4 j n).
  { intros j n Hj Hn. unfold h8. rewrite gsub_upd_other by lia. unfold h7. rewrite gsub_upd_other by lia.
    unfold h6. rewrite gsub_upd_other by lia. unfold h5. apply gsub_upd_other; lia. }
  assert (SQ : sub h8 9 4 = q).
  { rewrite S8 by lia. unfold h4. rewrite sub_updl_other by lia. unfold h3. rewrite sub_updl_other by lia.
    unfold h2. pose proof (sub_updl_same q h1 9) as E. rewrite Lq in E. apply E. lia. }
  assert (SE : sub h8 4 5 = e_u).
  { rewrite S8 by lia. unfold h4. rewrite sub_updl_other by lia. unfold h3. rewrite sub_updl_other by lia.
    unfold h2. rewrite sub_updl_other by lia.
    unfold h1. pose proof (sub_updl_same e_u hist 4) as E. rewrite Le in E. apply E. lia. }
  assert (SH : sub h8 13 nH = h_u).
  { rewrite S8 by lia. unfold h4. rewrite !sub_updl_other by lia.
    unfold h3. rewrite <- Lhu at 1. apply sub_updl_same. lia. }
  assert (SG : sub h8 (13 + nH) ns = ev_gdot v).
  { rewrite S8 by lia. unfold h4. rewrite <- Lg at 1. apply sub_updl_same. lia. }
  assert (G0 : get h8 0 = ev_shrateEff v).
  { unfold h8, h7, h6. rewrite !get_upd_other by lia. unfold h5. apply get_upd_same. lia. }
  assert (G1 : get h8 1 = get hist 1 + ev_shrateEff v * dt).
  { unfold h8, h7. rewrite !get_upd_other by lia. unfold h6. rewrite get_upd_same by lia.
    f_equal. unfold h5. rewrite get_upd_other by lia. unfold h4, h3, h2, h1.
    rewrite !get_updl_out by lia. reflexivity. }
  assert (G2 : get h8 2 = flow).
  { unfold h8. rewrite !get_upd_other by lia. unfold h7. apply get_upd_same. lia. }
  assert (G3 : get h8 3 = nZ (Z.of_nat nf)).
  { unfold h8. apply get_upd_same. lia. }
  split; [exact L8|]. split; [exact SQ|]. split.
  { pose proof (sub_updl_same q' h8 9) as E. rewrite Lq' in E. apply E. lia. }
  intros g [-> | ->]; [repeat split; assumption|].
  rewrite !sub_updl_other by lia. rewrite !get_updl_out by lia. repeat split; assumption.
Qed.

Lemma gsngl_done solver lu m dt tol d w vr pt pt' :
  kin_shapes (m_kin m) (sg_nslip (m_sg m)) -> pt_shapes m pt ->
  getResponseSngl solver lu m dt tol d w vr pt = (Done, pt') ->
  exists h_u v nfev gmod,
    let p := snglProb m dt d w vr pt h_u in
    let r := solver 8%nat (computeRJ p) tol 200%nat (tab 8 (fun _ => nZ 0)) in
    GResult m lu dt d w vr pt pt' h_u p r v nfev gmod.
Proof.
  intros [KH KG] (SE & SS & SH & SD & SM) H. unfold getResponseSngl in H. cbv zeta in H.
  destruct k_updateH as [[h_u nh]|] eqn:EH; [|discriminate].
  destruct k_valsOk eqn:EV; cbn [negb] in H; [|discriminate].
  set (p := snglProb m dt d w vr pt h_u) in *.
  set (r := solver 8%nat (computeRJ p) tol 200%nat (tab 8 (fun _ => nZ 0))) in *.
  destruct (so_converged r) eqn:EC; cbn [negb] in H; [|discriminate].
  destruct (gstateFromX_length p (so_x r)) as [L5 L4].
  destruct (stateFromX p (so_x r)) as [e_u quat_u] eqn:Est. cbn [fst snd] in L5, L4.
  pose proof (KH _ _ _ _ _ EH) as LH.
  assert (LG : forall x, length (ev_gdot (evalEv p x)) = sg_nslip (m_sg m)).
  { intros x. rewrite gev_gdot_evalGdots. apply KG. }
  rewrite (gtab4_neg quat_u L4) in H.
  set (nH := k_nH (m_kin m)) in *. set (ns := sg_nslip (m_sg m)) in *.
  set (xv := match pt_mtan pt with None => so_xlast r | Some _ => so_x r end).
  set (nf := match pt_mtan pt with None => so_nfev r | Some _ => so_nfev_rj r end).
  set (flow := if idp_tiny_sqrt <? vecd_Deff (svecToVecd d)
               then ev_disRate (evalEv p xv) / vecd_Deff (svecToVecd d) else pb_hdn_scale p).
  set (hh := hist_out nH (pt_hist pt) e_u quat_u h_u (evalEv p xv) dt flow nf).
  set (hf := if vecsyadotb 4 quat_u (snglQuatN (pt_hist pt)) <? zero
             then updl hh iHistLbQ (map nopp quat_u) else hh).
  assert (LN : length (map nopp quat_u) = 4%nat) by now rewrite map_length.
  destruct (ghist_out_slots nH ns (pt_hist pt) e_u quat_u h_u (evalEv p xv) dt flow nf _ SH L5 L4 LH (LG xv) LN)
    as (HL & HQ & HQ' & HS). fold hh in HL, HQ, HQ', HS.
  assert (HF : hf = hh \/ hf = updl hh iHistLbQ (map nopp quat_u)).
  { unfold hf. destruct nltb; auto. }
  destruct (HS hf HF) as (T1 & T2 & T3 & T4 & T5 & T6 & T7). clear HS.
  assert (LHF : length hf = numHist nH ns).
  { unfold hf. destruct nltb; [rewrite updl_length|]; exact HL. }
  assert (QF : sub hf iHistLbQ 4 = gquat_final quat_u (snglQuatN (pt_hist pt))).
  { unfold hf, gquat_final. destruct nltb; assumption. }
  (* common shape of the result *)
  assert (C : exists mt gmod, el_getGmod (m_el m) = Some gmod /\
     match pt_mtan pt with
     | None => mt = None
     | Some old => exists mv, mtan_vecds lu p (so_x r) = Some mv /\
         mt = Some (updl old 0 (mtanSD_of p (u_bulkNew (snglUpd m vr (pt_eInt pt) (pt_stress pt))) mv))
     end /\
     pt' = {| pt_eInt := upd (pt_eInt pt) 0
                  (u_eNew (snglUpd m vr (pt_eInt pt) (pt_stress pt)) +
                   (oneqrtr * (get vr 0 + get vr 1) * dt * vecsInnerSvecDev (pt_stress pt) d +
                    oneqrtr * (get vr 0 + get vr 1) * dt * vecsInnerSvecDev (stress_out quat_u (elastNEtoC p e_u)) d));
              pt_stress := updl (pt_stress pt) 0 (stress_out quat_u (elastNEtoC p e_u));
              pt_hist := hf; pt_tkelv := snglTkelv m vr (pt_eInt pt);
              pt_sdd := upd (upd (pt_sdd pt) 0 (u_bulkNew (snglUpd m vr (pt_eInt pt) (pt_stress pt)))) 1 gmod;
              pt_mtan := mt |}).
  { unfold hf, hh, flow, xv, nf. clear - H.
    destruct (pt_mtan pt) as [old|] eqn:EM.
    - destruct (mtan_vecds lu p (so_x r)) as [mv|] eqn:EMV; [|discriminate].
      destruct (el_getGmod (m_el m)) as [gmod|] eqn:EG; [|discriminate].
      eexists; exists gmod. split; [reflexivity|]. split; [exists mv; split; reflexivity|].
      apply (f_equal snd) in H. cbn [snd] in H. rewrite <- H. reflexivity.
    - destruct (el_getGmod (m_el m)) as [gmod|] eqn:EG; [|discriminate].
      exists None, gmod. split; [reflexivity|]. split; [reflexivity|].
      apply (f_equal snd) in H. cbn [snd] in H. rewrite <- H. reflexivity. }
  destruct C as (mt & gmod & EG & EMt & ->).
  exists h_u, (evalEv p xv), nf, gmod. cbv zeta. fold p. fold r.
  assert (ESD : upd (upd (pt_sdd pt) 0 (u_bulkNew (snglUpd m vr (pt_eInt pt) (pt_stress pt)))) 1 gmod =
                [u_bulkNew (snglUpd m vr (pt_eInt pt) (pt_stress pt)); gmod]).
  { clear - SD. destruct (pt_sdd pt) as [|a [|b [|]]]; try discriminate. reflexivity. }
  assert (ESt : updl (pt_stress pt) 0 (stress_out quat_u (elastNEtoC p e_u)) = stress_out quat_u (elastNEtoC p e_u)).
  { apply gupdl_all. rewrite SS. reflexivity. }
  rewrite ESD, ESt.
  constructor; rewrite ?Est; cbn [pt_eInt pt_stress pt_hist pt_tkelv pt_sdd pt_mtan fst snd];
    try reflexivity; try assumption.
  - eexists; eassumption.
  - rewrite get_upd_same by lia. reflexivity.
  - destruct (pt_mtan pt) as [old|]; [|assumption].
    destruct EMt as (mv & E1 & ->). exists mv. split; [assumption|]. f_equal.
    apply gupdl_all. rewrite gmtanSD_length. now rewrite (SM old eq_refl).
  - unfold pt_shapes. cbn [pt_eInt pt_stress pt_hist pt_tkelv pt_sdd pt_mtan].
    rewrite upd_length. repeat split; try assumption; try reflexivity.
    intros mt' E. subst mt. destruct (pt_mtan pt) as [old|]; [|discriminate].
    destruct EMt as (mv & E1 & E2). apply (f_equal (fun o => match o with Some x => x | None => [] end)) in E2. cbv beta iota in E2.
    rewrite E2, updl_length. now apply SM.
Qed.

(** a material whose parts fit together *)
Definition gmat_ok (c : MClass T) (m : Mat T) : Prop :=
  sg_nslip (m_sg m) = c_nslip c /\ k_nH (m_kin m) = c_nH c /\ kin_shapes (m_kin m) (sg_nslip (m_sg m)) /\
  exists el rho bulk cv gamma ec0, el_getBulkMod el = Some bulk /\ m_eos m = eos_setParams (c_iso c) [rho; bulk; cv; gamma; ec0].

Lemma gready_ok hs c s mat tol : builtin hs c -> comp_inv c s -> mm_ready s = Some (mat, tol) -> gmat_ok c mat.
Proof.
  intros HB (I1 & I2 & I3 & I4) H. destruct (builtin_parts hs c HB) as (B1 & B2 & B3).
  unfold mm_ready in H.
  destruct (mm_sg s) as [sg|] eqn:E1; [|discriminate]. destruct (mm_kin s) as [kin|] eqn:E2; [|discriminate].
  destruct (mm_el s) as [el|] eqn:E3; [|discriminate]. destruct (mm_eos s) as [eos|] eqn:E4; [|discriminate].
  destruct (mm_tol s) as [tl|]; [|discriminate].
  apply (f_equal (option_map fst)) in H. cbn [option_map fst] in H.
  assert (E : mat = {| m_sg := sg; m_kin := kin; m_el := el; m_eos := eos |}) by congruence. subst mat. clear H.
  destruct (I1 _ eq_refl) as (p1 & H1). destruct (I2 _ eq_refl) as (p2 & h2 & H2).
  destruct (I4 _ eq_refl) as (el' & bulk & rho & cv & tl' & H4 & H5 & H6).
  specialize (B1 _ _ H1). destruct (B2 _ _ _ H2) as [B4 B5].
  unfold gmat_ok. cbn [m_sg m_kin m_eos]. split; [assumption|]. split; [assumption|]. rewrite B1.
  split; [assumption|].
  destruct tl' as [|gamma [|ec0 [|]]]; try discriminate H5.
  exists el', rho, bulk, cv, gamma, ec0. split; [exact H4 | exact H6].
Qed.

Lemma gapi_done hs (c : MClass T) s solver lu dt mtan n m m1 :
  builtin hs c -> reachable c s -> batch_ok c s mtan n m ->
  mm_getResponse solver lu c s dt mtan (Z.of_nat n) m = (BRet Done, m1) ->
  untouched (mm_strides s) (c_nH c) (c_nslip c) mtan n m m1 /\ (n = 0%nat \/
  exists mat tol, mm_ready s = Some (mat, tol) /\ gmat_ok c mat /\
    forall i, (i < n)%nat -> pt_shapes mat (pt_of c s mtan m i) /\
      getResponseSngl solver lu mat dt tol (cell_of c s mtan m AD i) (cell_of c s mtan m AW i)
                  (cell_of c s mtan m AV i) (pt_of c s mtan m i) = (Done, pt_of c s mtan m1 i)).
Proof.
  intros HB HR HO H. pose proof (reach_inv c s HR) as [HI _].
  destruct (mm_complete s) eqn:EC.
  2:{ unfold mm_getResponse in H. rewrite EC in H. cbn [negb] in H. discriminate. }
  destruct (mm_ready s) as [[mat tol]|] eqn:EM.
  2:{ unfold mm_getResponse in H. rewrite EC, EM, Nat2Z.id in H. cbn [negb] in H.
      destruct n as [|n]; [|discriminate]. cbn [seq] in H. apply (f_equal snd) in H. cbn [snd] in H. subst m1.
      split; [split; auto|]. now left. }
  destruct (api_batch c s solver lu dt mtan n m mat tol HR EC EM HO) as (o & m1' & E & U & P).
  rewrite H in E. assert (m1' = m1) by congruence. assert (o = Done) by congruence. subst.
  split; [assumption|]. right. exists mat, tol. split; [reflexivity|].
  pose proof (gready_ok hs c s mat tol HB HI EM) as MO. split; [assumption|].
  intros i Hi. split; [|now apply P].
  destruct MO as (M1 & M2 & _). destruct HO as [HW HBu].
  unfold pt_shapes, pt_of, pt_at. cbn [pt_eInt pt_stress pt_hist pt_sdd pt_mtan]. rewrite M1, M2.
  assert (L : forall a, (0 < width (c_nH c) (c_nslip c) mtan a)%nat -> List.length (cell (mm_strides s) (c_nH c) (c_nslip c) mtan m a i) = width (c_nH c) (c_nslip c) mtan a).
  { intros a Ha. apply sub_length. rewrite (offs_eq (mm_strides s) mtan n HW) by assumption. rewrite width_eq in *. now apply HBu. }
  split; [apply (L AE); cbn; lia|]. split; [apply (L AS); cbn; lia|]. split; [apply (L AH); cbn; lia|]. split; [apply (L AB); cbn; lia|].
  intros mt E2. destruct mtan; [|discriminate]. assert (EE : mt = cell (mm_strides s) (c_nH c) (c_nslip c) true m AM i) by congruence.
  rewrite EE. apply (L AM). cbn; lia.
Qed.
End G.
