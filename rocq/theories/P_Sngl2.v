(** Consequences for one call and for histories of calls: C01, C02, C07 - C10, C12, C14 (driver part). *)
From Coq Require Import List ZArith Bool Lia Reals Lra.
From Verif Require Import Num Arr NumR Util SlipGeom Eos Hard KinVoce KinKMBalD Elast Evptn SpecTensor P_Tensor P_Eos P_Sngl.
Import ListNotations.
Local Open Scope R_scope.

(** ** Orientation *)
Lemma norm2_sum4 q : length q = 4%nat -> sum 4 (fun i => get q i * get q i) = norm2 q.
Proof. intros. explode q. unfold norm2. rarr. cbn [fold_right]. ring. Qed.
Lemma norm2_nonneg q : 0 <= norm2 q.
Proof. induction q as [|x q IH]; cbn [norm2 fold_right]; [lra|]. fold (norm2 q). nra. Qed.

Lemma vecsVsa4 (a b c d s : R) : vecsVsa 4 [a;b;c;d] s = [a*s;b*s;c*s;d*s].
Proof. reflexivity. Qed.

Lemma normalize_unit q : length q = 4%nat -> norm2 q <> 0 ->
  norm2 (vecsVNormalize 4 q) = 1 /\ length (vecsVNormalize 4 q) = 4%nat.
Proof.
  intros L H. split; [|apply tab_length].
  assert (S : 0 < norm2 q) by (pose proof (norm2_nonneg q); lra).
  unfold vecsVNormalize, vecNorm. change (@nmul R RNum) with Rmult.
  rewrite norm2_sum4 by assumption. cbn [nsqrt ndiv nZ RNum].
  assert (E : 1 / sqrt (norm2 q) * (1 / sqrt (norm2 q)) = / norm2 q).
  { rewrite <- (sqrt_sqrt (norm2 q)) at 3 by lra. field. apply Rgt_not_eq, sqrt_lt_R0; lra. }
  set (s := 1 / sqrt (norm2 q)) in *. clearbody s.
  transitivity (s * s * norm2 q); [|rewrite E; field; lra].
  clear - L. explode q. rewrite vecsVsa4. unfold norm2. cbn [fold_right]. ring.
Qed.

Lemma vecsVxa3_V3 (c : R) l : vecsVxa 3 c l = ofV3 (mkV (c * get l 0) (c * get l 1) (c * get l 2)).
Proof. reflexivity. Qed.

Lemma stateFromX_quat (p : Prob R) x : length (pb_Cn_quat p) = 4%nat ->
  norm2 (snd (stateFromX p x)) = norm2 (pb_Cn_quat p).
Proof.
  intros L. unfold stateFromX. cbn [snd]. unfold get_c_quat.
  rewrite vecsVxa3_V3. destruct (emap_quat_unit (mkV (r_scale * get (x_r x) 0) (r_scale * get (x_r x) 1) (r_scale * get (x_r x) 2))) as [U LU].
  rewrite norm2_prod by assumption. rewrite U. ring.
Qed.

Lemma norm2_opp q : norm2 (map Ropp q) = norm2 q.
Proof. induction q as [|x q IH]; cbn [map norm2 fold_right]; [reflexivity|]. fold (norm2 q). fold (norm2 (map Ropp q)). rewrite IH. ring. Qed.
Lemma quat_final_norm q qn : norm2 (quat_final q qn) = norm2 q.
Proof. unfold quat_final. destruct Rltb; [apply norm2_opp|reflexivity]. Qed.

Definition quat_of (hist : list R) : list R := sub hist iHistLbQ 4.

Lemma snglProb_Cn m dt d w vr pt h_u : pb_Cn_quat (snglProb m dt d w vr pt h_u) = snglQuatN (pt_hist pt).
Proof. reflexivity. Qed.

Lemma hist_quat_length m pt : pt_shapes m pt -> length (quat_of (pt_hist pt)) = 4%nat.
Proof.
  intros (_ & _ & L & _). apply sub_length. rewrite L. unfold numHist, iHistLbH, iHistLbQ. lia.
Qed.

Lemma sngl_quat_unit solver lu m dt tol d w vr pt pt' :
  kin_shapes (m_kin m) (sg_nslip (m_sg m)) -> pt_shapes m pt -> norm2 (quat_of (pt_hist pt)) <> 0 ->
  getResponseSngl solver lu m dt tol d w vr pt = (Done, pt') ->
  norm2 (quat_of (pt_hist pt')) = 1 /\ pt_shapes m pt'.
Proof.
  intros HK HS HQ H. pose proof (hist_quat_length _ _ HS) as L.
  destruct (sngl_done _ _ _ _ _ _ _ _ _ _ HK HS H) as (h_u & v & nf & gm & Rs). cbv zeta in Rs.
  split; [|exact (r_shapes _ _ _ _ _ _ _ _ _ _ _ _ _ _ Rs)].
  unfold quat_of. rewrite (r_Q _ _ _ _ _ _ _ _ _ _ _ _ _ _ Rs). rewrite quat_final_norm.
  destruct (normalize_unit _ L HQ) as [N LN].
  rewrite stateFromX_quat; rewrite snglProb_Cn; unfold snglQuatN; fold (quat_of (pt_hist pt)); assumption.
Qed.

(** *** Histories: one record per call; everything but the history array may be replaced by the
    caller between calls, and the solver may behave differently at every call. *)
Record Call := {
  c_solver : Solver R; c_lu : LUSolver R; c_dt : R; c_tol : R; c_d : list R; c_w : list R; c_vr : list R;
  c_eInt : list R; c_stress : list R; c_tkelv : R; c_sdd : list R; c_mtan : option (list R)
}.
Definition call_pt (c : Call) (hist : list R) : Pt R :=
  {| pt_eInt := c_eInt c; pt_stress := c_stress c; pt_hist := hist; pt_tkelv := c_tkelv c;
     pt_sdd := c_sdd c; pt_mtan := c_mtan c |}.
Definition call_ok (c : Call) : Prop :=
  length (c_eInt c) = 1%nat /\ length (c_stress c) = 7%nat /\ length (c_sdd c) = 2%nat /\
  (forall mt, c_mtan c = Some mt -> length mt = 36%nat).
(** [run m calls hist hist']: all the calls succeed and lead from [hist] to [hist'] *)
Inductive run (m : Mat R) : list Call -> list R -> list R -> Prop :=
| run_nil h : run m [] h h
| run_cons c cs h pt' h' :
    call_ok c ->
    getResponseSngl (c_solver c) (c_lu c) m (c_dt c) (c_tol c) (c_d c) (c_w c) (c_vr c) (call_pt c h) = (Done, pt') ->
    run m cs (pt_hist pt') h' -> run m (c :: cs) h h'.

Lemma call_shapes m c h : call_ok c -> length h = numHist (k_nH (m_kin m)) (sg_nslip (m_sg m)) ->
  pt_shapes m (call_pt c h).
Proof. intros (H1 & H2 & H3 & H4) L. repeat split; assumption. Qed.

Lemma run_quat_unit m calls h h' :
  kin_shapes (m_kin m) (sg_nslip (m_sg m)) ->
  length h = numHist (k_nH (m_kin m)) (sg_nslip (m_sg m)) -> norm2 (quat_of h) <> 0 ->
  run m calls h h' -> (calls <> [] -> norm2 (quat_of h') = 1) /\ norm2 (quat_of h') <> 0.
Proof.
  intros HK L HQ HR. induction HR as [h | c cs h pt' h' Hc HD HR IH]; [split; [congruence|assumption]|].
  destruct (sngl_quat_unit _ _ _ _ _ _ _ _ _ _ HK (call_shapes m c h Hc L) HQ HD) as [U S].
  assert (L' : length (pt_hist pt') = numHist (k_nH (m_kin m)) (sg_nslip (m_sg m))) by apply S.
  assert (NZ : norm2 (quat_of (pt_hist pt')) <> 0) by lra.
  destruct (IH L' NZ) as [I1 I2]. split; [|assumption]. intros _.
  destruct cs as [|c' cs']; [|now apply I1]. inversion HR; subst. exact U.
Qed.

(** accumulated shear *)
Lemma shrateEff_nonneg (p : Prob R) x : 0 <= ev_shrateEff (evalEv p x).
Proof. unfold evalEv. cbn [ev_shrateEff]. unfold vecsssumabs. apply sum_nonneg. intros. apply Rabs_pos. Qed.

Lemma sngl_shear solver lu m dt tol d w vr pt pt' :
  kin_shapes (m_kin m) (sg_nslip (m_sg m)) -> pt_shapes m pt -> 0 <= dt ->
  getResponseSngl solver lu m dt tol d w vr pt = (Done, pt') ->
  0 <= get (pt_hist pt') iHistA_shrateEff /\
  get (pt_hist pt') iHistA_shrEff = get (pt_hist pt) iHistA_shrEff + dt * get (pt_hist pt') iHistA_shrateEff /\
  get (pt_hist pt') iHistA_shrateEff =
    sum (sg_nslip (m_sg m)) (fun i => Rabs (get (pt_hist pt') (iHistLbGdot (k_nH (m_kin m)) + i))).
Proof.
  intros HK HS Hdt H.
  destruct (sngl_done _ _ _ _ _ _ _ _ _ _ HK HS H) as (h_u & v & nf & gm & Rs). cbv zeta in Rs.
  rewrite (r_shrateEff _ _ _ _ _ _ _ _ _ _ _ _ _ _ Rs), (r_shrEff _ _ _ _ _ _ _ _ _ _ _ _ _ _ Rs).
  pose proof (r_G _ _ _ _ _ _ _ _ _ _ _ _ _ _ Rs) as G.
  rewrite (r_v _ _ _ _ _ _ _ _ _ _ _ _ _ _ Rs) in *.
  split; [apply shrateEff_nonneg|]. split; [ring|].
  unfold evalEv at 1. cbn [ev_shrateEff]. unfold vecsssumabs. apply sum_ext. intros i Hi.
  cbn [nabs RNum]. f_equal.
  match type of G with _ = ev_gdot (evalEv ?p ?x) =>
    change (get (ev_gdot (evalEv p x)) i = get (pt_hist pt') (iHistLbGdot (k_nH (m_kin m)) + i)) end.
  rewrite <- G. now apply get_sub.
Qed.

Lemma run_shear m calls h h' :
  kin_shapes (m_kin m) (sg_nslip (m_sg m)) ->
  length h = numHist (k_nH (m_kin m)) (sg_nslip (m_sg m)) ->
  (forall c, In c calls -> 0 <= c_dt c) ->
  run m calls h h' -> get h iHistA_shrEff <= get h' iHistA_shrEff.
Proof.
  intros HK L Hdt HR. induction HR as [h | c cs h pt' h' Hc HD HR IH]; [lra|].
  assert (Hc0 : 0 <= c_dt c) by (apply Hdt; left; reflexivity).
  destruct (sngl_shear _ _ _ _ _ _ _ _ _ _ HK (call_shapes m c h Hc L) Hc0 HD) as (A & B & _).
  destruct (sngl_done _ _ _ _ _ _ _ _ _ _ HK (call_shapes m c h Hc L) HD) as (h_u & v & nf & gm & Rs). cbv zeta in Rs.
  assert (L' : length (pt_hist pt') = numHist (k_nH (m_kin m)) (sg_nslip (m_sg m)))
    by apply (r_shapes _ _ _ _ _ _ _ _ _ _ _ _ _ _ Rs).
  specialize (IH L' (fun c' Hin => Hdt c' (or_intror Hin))).
  cbn [pt_hist call_pt] in B. nra.
Qed.

(** C02 *)
Lemma yadotb_opp q n : length q = 4%nat -> length n = 4%nat -> vecsyadotb 4 (map Ropp q) n = - vecsyadotb 4 q n.
Proof. intros. explode q. explode n. unfold vecsyadotb. cbn [map]. rarr. ring. Qed.
Lemma quat_final_dot q n : length q = 4%nat -> length n = 4%nat -> 0 <= vecsyadotb 4 (quat_final q n) n.
Proof.
  intros. unfold quat_final. destruct Rltb eqn:E.
  - apply Rltb_true in E. rewrite yadotb_opp by assumption. lra.
  - now apply Rltb_false in E.
Qed.
Lemma quat_to_tensor_opp q : length q = 4%nat -> quat_to_tensor (map Ropp q) = quat_to_tensor q.
Proof. intros. explode q. unfold quat_to_tensor. cbn [map]. rarr. meq; ring. Qed.
Lemma quat_final_tensor q n : length q = 4%nat -> quat_to_tensor (quat_final q n) = quat_to_tensor q.
Proof. intros. unfold quat_final. destruct Rltb; [now apply quat_to_tensor_opp|reflexivity]. Qed.

Lemma sngl_sign solver lu m dt tol d w vr pt pt' :
  kin_shapes (m_kin m) (sg_nslip (m_sg m)) -> pt_shapes m pt ->
  getResponseSngl solver lu m dt tol d w vr pt = (Done, pt') ->
  let qn := vecsVNormalize 4 (quat_of (pt_hist pt)) in
  let q := quat_of (pt_hist pt') in
  0 <= vecsyadotb 4 q qn /\
  quat_to_tensor (map Ropp q) = quat_to_tensor q /\
  exists h_u x, let p := snglProb m dt d w vr pt h_u in
    let q0 := snd (stateFromX p x) in
    (q = q0 \/ q = map Ropp q0) /\ quat_to_tensor q = quat_to_tensor q0 /\
    pt_stress pt' = stress_out q (elastNEtoC p (fst (stateFromX p x))).
Proof.
  intros HK HS H qn q.
  destruct (sngl_done _ _ _ _ _ _ _ _ _ _ HK HS H) as (h_u & v & nf & gm & Rs). cbv zeta in Rs.
  pose proof (r_Q _ _ _ _ _ _ _ _ _ _ _ _ _ _ Rs) as EQ.
  change (sub (pt_hist pt') iHistLbQ 4) with q in EQ.
  change (snglQuatN (pt_hist pt)) with qn in EQ.
  pose proof (r_stress _ _ _ _ _ _ _ _ _ _ _ _ _ _ Rs) as ES.
  set (r := solver _ _ _ _ _) in *. set (p := snglProb m dt d w vr pt h_u) in *.
  destruct (stateFromX_length p (so_x r)) as [_ L4].
  set (q0 := snd (stateFromX p (so_x r))) in *.
  assert (Lqn : length qn = 4%nat) by apply tab_length.
  assert (Lq : length q = 4%nat) by (rewrite EQ; unfold quat_final; destruct Rltb; [now rewrite map_length|assumption]).
  split; [rewrite EQ; now apply quat_final_dot|].
  split; [now apply quat_to_tensor_opp|].
  exists h_u, (so_x r). cbv zeta. fold p q0.
  split; [rewrite EQ; unfold quat_final; destruct Rltb; auto|].
  assert (ET : quat_to_tensor q = quat_to_tensor q0) by (rewrite EQ; now apply quat_final_tensor).
  split; [exact ET|]. rewrite ES. unfold stress_out. rewrite ET. reflexivity.
Qed.

(** ** Stress *)
Lemma stress_out_trace q c : get (stress_out q c) 0 + get (stress_out q c) 1 + get (stress_out q c) 2 = 0.
Proof. apply svecP_trace. Qed.

Lemma stress_out_p q c : get (stress_out q c) 6 = - (s3 / 3) * get c 5.
Proof. reflexivity. Qed.

Lemma Rpow_pos x y : 0 < x -> Rpow x y = Rpower x y.
Proof. intros. unfold Rpow. destruct Rlt_dec; [reflexivity|lra]. Qed.

(** exp (3 log v^(1/3)) = v *)
Lemma J_is_v v : 0 < v -> exp (s3 * (s3 * ln (Rpow v (1 / 3)))) = v.
Proof.
  intros. rewrite Rpow_pos by assumption. unfold Rpower. rewrite ln_exp.
  replace (s3 * (s3 * (1 / 3 * ln v))) with (s3 * s3 * (1 / 3 * ln v)) by ring. rewrite s3_sq.
  replace (3 * (1 / 3 * ln v)) with (ln v) by field. now apply exp_ln.
Qed.

Definition pres_coupling (el : Elast R) (v e2 : R) : R :=
  if el_hex el then - (s3 / 3) * (/ v * (el_K_sdax3 el * (/ Rpower v (1/3) * e2))) else 0.

Lemma get_el_eval_5 (el : Elast R) Ee p e : length Ee = 6%nat ->
  get (el_eval el Ee p e) 5 =
  - s3 * exp (s3 * get Ee 5) * p + (if el_hex el then el_K_sdax3 el * get Ee 1 else 0).
Proof.
  intros L. unfold el_eval. destruct (el_hex el); explode Ee; unfold vecsVAdiagB; rarr; unfold iTvecHex; rarr; ring.
Qed.

Lemma pressure_formula (p : Prob R) q e : 0 < pb_detV p ->
  pb_a_V p = Rpow (pb_detV p) (1/3) -> pb_a_V_ri p = 1 / pb_a_V p -> pb_detV_ri p = 1 / pb_detV p ->
  length e = 5%nat ->
  get (stress_out q (elastNEtoC p e)) 6 = pb_p_EOS p + pres_coupling (pb_el p) (pb_detV p) (get e 1).
Proof.
  intros Hv Ha Har Hdr Le. rewrite stress_out_p. unfold elastNEtoC, el_getCauchy. rewrite get_tab by lia.
  unfold elastNEtoT. rewrite get_el_eval_5 by (rewrite app_length; unfold vecsVxa; rewrite tab_length; reflexivity).
  rewrite get_app2; unfold vecsVxa; rewrite tab_length; [|lia]. change (5 - 5)%nat with 0%nat.
  rewrite get_app1 by (rewrite tab_length; lia). rewrite get_tab by lia.
  cbn [nmul nlog RNum get nth sqr3]. change (s3 * nlog (pb_a_V p))%num with (s3 * ln (pb_a_V p)).
  rewrite Ha at 1. rewrite (J_is_v _ Hv), Har, Hdr, Ha. unfold pres_coupling.
  rewrite Rpow_pos by assumption. pose proof s3_sq as E3.
  assert (HP : 0 < Rpower (pb_detV p) (1/3)) by (unfold Rpower; apply exp_pos).
  destruct (el_hex (pb_el p)).
  - unfold nth. field_simplify_eq; [ring [E3]|split; lra].
  - field_simplify_eq; [ring [E3]|lra].
Qed.
