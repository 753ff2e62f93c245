(** C42: the call theorem, the residual at every iterate, and a hardening law that meets an undefined power. *)
From Coq Require Import List ZArith Bool Lia PeanoNat Reals Lra String.
From Verif Require Import Num Arr NumR NumO Util SlipGeom Eos Hard KinVoce KinKMBalD Elast Evptn MatModel Cases SpecTensor SpecApi SpecDef SpecDefApi
  P_Batch P_Batch2 P_Batch3 P_Builtin P_Api P_Hist P_Sngl2 P_KinV P_Def P_Def3 P_Def4 P_Def5 P_Demo P_Demo2 P_Demo3 P_Demo4 P_Rigid2 P_Rigid3 SpecStep SpecEnergy SpecStress SpecSlip P_Demo4.
Import ListNotations.
Local Open Scope R_scope.

Section Def6.
Variable u : bool.
Local Notation ON := (P_Def.ON u).
Local Hint Extern 0 (Num (option R)) => exact (P_Def.ON u) : typeclass_instances.
Variables (hso : Solver (option R)) (hsr : Solver R).
Hypothesis HHS : same_solver hso hsr.

Lemma fresh_same (co : MClass (option R)) (cr : MClass R) oo orr : c_nslip co = c_nslip cr -> c_nH co = c_nH cr -> fresh u co cr oo orr ->
  mm_strides oo = mm_strides orr /\ mm_complete oo = mm_complete orr /\ reachable cr orr.
Proof.
  intros E1 E2 [|st len so sr H1 H2].
  - unfold mm_new, mm_numHist. rewrite E1, E2. split; [reflexivity|]. split; [reflexivity|]. exact (reach_default cr []).
  - pose proof (reach_strides cr st len sr [] H2) as RR. cbn [mm_run fst] in RR. unfold mm_newStrides, mm_numHist in H1, H2. rewrite E1, E2 in H1.
    repeat match type of H1 with (if ?b then _ else _) = _ => destruct b; [discriminate|] end.
    apply some_inj in H1. apply some_inj in H2. rewrite <- H1, <- H2. split; [reflexivity|]. split; [reflexivity|]. rewrite H2. exact RR.
Qed.
Lemma valid_shape pars co cr : valid_class u hso hsr pars co cr ->
  c_nslip co = c_nslip cr /\ c_nH co = c_nH cr /\ mm_nParams co = mm_nParams cr.
Proof. intros []; repeat split; reflexivity. Qed.

Lemma call_L pars co cr oo orr opts strs : valid_class u hso hsr pars co cr -> fresh u co cr oo orr ->
  let io := mm_init co oo opts (L pars) strs in let ir := mm_init cr orr opts pars strs in
  fst io = fst ir /\
  (fst ir = Done -> forall so sr luo lur dt mtan n m, same_solver so sr -> same_lu luo lur -> dt <> 0 ->
   let s := mm_doComplete (snd ir) in
   batch_ok cr s mtan n m -> (forall i, (i < n)%nat -> valid_point cr pars s m i) ->
   mm_getResponse so luo co (mm_doComplete (snd io)) (Some dt) mtan (Z.of_nat n) (liftM m) =
   liftB (mm_getResponse sr lur cr s dt mtan (Z.of_nat n) m)).
Proof.
  intros HV HF io ir. destruct (valid_shape _ _ _ HV) as (E1 & E2 & E3).
  destruct (fresh_same co cr oo orr E1 E2 HF) as (S1 & S2 & S3).
  destruct (Nat.eq_dec (List.length pars) (mm_nParams cr)) as [HP|HP].
  2:{ unfold io, ir, mm_init. rewrite E3, L_length. destruct (Nat.eqb_spec (List.length pars) (mm_nParams cr)); [contradiction|].
      cbn [negb]. split; [reflexivity|discriminate]. }
  pose proof (class_L u hso hsr HHS pars co cr HV HP) as CD.
  destruct (init_L u co cr pars oo orr opts strs CD S1 S2) as [I1 I2]. fold io ir in I1, I2.
  split; [exact I1|]. intros HD so sr luo lur dt mtan n m HS HL Hdt s [HW HB] HVP.
  assert (RS : reachable cr s).
  { unfold s. change (mm_doComplete (snd ir)) with (fst (mm_run cr (snd ir) [OComplete])). apply reach_run.
    apply (reach_init cr orr opts pars strs (fst ir) (snd ir) S3). unfold ir. apply surjective_pairing. }
  destruct (I2 HD) as (T1 & T2 & mo & mr & R1 & R2 & MD & K1 & K2 & PT).
  unfold mm_getResponse. cbn [mm_complete mm_doComplete negb].
  replace (mm_complete s) with true by reflexivity. cbn [negb].
  replace (mm_ready (mm_doComplete (snd io))) with (mm_ready (snd io)) by reflexivity.
  replace (mm_ready s) with (mm_ready (snd ir)) by reflexivity. rewrite R1, R2.
  replace (mm_strides (mm_doComplete (snd io))) with (mm_strides s) by (symmetry; exact T1). rewrite E1, E2.
  rewrite Nat2Z.id.
  assert (G : runSeq (pointProg so luo mo (Some dt) (Some (nth 2 pars 0)) (mm_strides s) (c_nH cr) (c_nslip cr) mtan) (seq 0 n) (liftM m) =
    liftB (runSeq (pointProg sr lur mr dt (nth 2 pars 0) (mm_strides s) (c_nH cr) (c_nslip cr) mtan) (seq 0 n) m)).
  { apply (seq_lift u so sr luo lur HS HL mo mr MD dt (nth 2 pars 0) Hdt (mm_strides s) (c_nH cr) (c_nslip cr) mtan K1 K2 n
      (reach_strides_ok cr s mtan RS) HW (seq 0 n) m (seq_NoDup n 0)); [intros i Hi; apply in_seq in Hi; lia|exact HB|].
    intros i Hi. apply in_seq in Hi. destruct Hi as [_ Hi]. cbn [plus] in Hi. destruct (HVP i Hi) as (V1 & V2 & V3 & V4).
    assert (CV : forall a k, (k < per_point (c_nH cr) (c_nslip cr) mtan a)%nat ->
       get (cell (mm_strides s) (c_nH cr) (c_nslip cr) mtan m a i) k = val s m a i k)
      by (intros; apply (cell_val cr s mtan n); assumption).
    assert (LHi : List.length (cell (mm_strides s) (c_nH cr) (c_nslip cr) mtan m AH i) = (13 + c_nH cr + c_nslip cr)%nat).
    { unfold cell. rewrite sub_length; [cbn [width]; unfold numHist, iHistLbH; lia|].
      rewrite (offs_eq (mm_strides s) mtan n HW), width_eq by assumption. apply HB; [assumption|]. cbn [per_point]. unfold numHist, iHistLbH. lia. }
    unfold vcell. rewrite !CV by (cbn [per_point]; lia). rewrite PT.
    split; [exact V1|]. split; [exact V2|]. split; [|exact V4].
    assert (EQ : sub (cell (mm_strides s) (c_nH cr) (c_nslip cr) mtan m AH i) 9 4 = quat s m i).
    { rewrite sub_tab by lia. unfold tab, quat. cbn [seq map]. rewrite !CV by (cbn [per_point]; unfold numHist, iHistLbH; lia). reflexivity. }
    rewrite EQ. unfold vecNorm. change (@nmul R RNum) with Rmult. rewrite norm2_sum4 by reflexivity. intros Z. apply V3. apply sqrt_eq_0 in Z; [exact Z|].
    unfold SpecTensor.norm2, quat. cbn [map fold_right]. nra. }
  destruct (seq 0 n) eqn:ES; [reflexivity|exact G].
Qed.

(** the system of equations of one point is defined at every iterate *)
Lemma iterate_L mo mr (MD : MatDef mo mr) dt d w vr pt h_new :
  dt <> 0 -> (6 <= List.length d)%nat -> List.length w = 3%nat -> List.length vr = 4%nat -> get vr 0 <> 0 -> 0 < get vr 1 ->
  List.length (pt_eInt pt) = 1%nat -> List.length (pt_stress pt) = 7%nat -> List.length (pt_hist pt) = (13 + k_nH (m_kin mr) + k_nslip (m_kin mr))%nat ->
  vecNorm 4 (sub (pt_hist pt) 9 4) <> 0 -> 0 < snd (evalPT (m_eos mr) (get vr 0) (get (pt_eInt pt) 0)) ->
  forall g n, List.length g = k_nslip (m_kin mr) ->
  k_updateH (m_kin mr) (sub (pt_hist pt) 13 (k_nH (m_kin mr))) dt g = Some (h_new, n) ->
  k_valsOk (m_kin mr) (u_press (snglUpd mr vr (pt_eInt pt) (pt_stress pt))) (snglTkelv mr vr (pt_eInt pt)) h_new = true ->
  forall x, List.length x = 8%nat ->
  computeRJ (snglProb mo (Some dt) (L d) (L w) (L vr) (liftPt pt) (L h_new)) (L x) = L2 (computeRJ (snglProb mr dt d w vr pt h_new) x).
Proof.
  intros H1 H2 H3 H4 H5 H6 H7 H8 H9 H10 H11 g n Hg EU OK x Hx. destruct MD as [M1 M2 M3 [hnew M4] M5 M6 M7 M8].
  assert (LH : List.length (sub (pt_hist pt) 13 (k_nH (m_kin mr))) = k_nH (m_kin mr)) by (apply sub_length; lia).
  destruct (proj2 (kd_upd _ _ _ M4 _ dt g LH Hg) _ _ EU) as [LN HN].
  apply RJ_L; [|exact Hx].
  exact (pb_lift u mo mr hnew M1 M2 M3 M4 M5 M6 M7 M8 dt d w vr pt H1 H2 H3 H4 H5 H6 H7 H8 H9 H10 H11 h_new LN HN OK).
Qed.

(** nonlinear Voce hardening with exponent 3/2 and a strength above its saturation value *)
Definition nl_pars : list R := [1; / 10; 1; 1; 1; 2; 3 / 2; 1; 1; 1].
Definition nl_rates : list R := [1; 0; 0; 0; 0; 0; 0; 0; 0; 0; 0; 0].
Lemma nl_undefined : let v := voce_setParams true (L nl_pars) in
  fst (voce_getSdot1 v (voce_getEvolVals v 12 (L nl_rates)) (Some 3)) = None.
Proof.
  intros v. assert (EV : v = liftV (voce_setParams true nl_pars)).
  { unfold v. apply voce_L; [cbn; lia|]. unfold nl_pars, get. cbn. lra. }
  assert (E : voce_getEvolVals v 12 (L nl_rates) = (Some 1, Some 2)).
  { unfold voce_getEvolVals. rewrite EV. rewrite sumabs_L by (cbn; lia).
    assert (SA : vecsssumabs 12 nl_rates = 1).
    { unfold vecsssumabs, sum, nl_rates, get. cbn. rewrite !Rabs_R0, Rabs_R1. ring. }
    rewrite SA. cbn [nltb P_Def.ON ONum ocmp].
    assert (TI : Rltb idp_tiny_sqrt 1 = true).
    { apply Rltb_true. rewrite lit_tiny. rewrite <- Rinv_1. apply Rinv_lt_contravar; [rewrite Rmult_1_l; apply pow10_pos|].
      apply (Rlt_pow_R1 10 90); [lra|lia]. }
    change (@idp_tiny_sqrt (option R) ON) with (Some (idp_tiny_sqrt : R)). cbn [ocmp]. rewrite TI.
    cbn [liftV v_taus0 v_gamss0 v_xms voce_setParams]. unfold nl_pars, get. cbn [nth Nat.add].
    rewrite div_L by lra. rewrite pow_L by lra. f_equal. f_equal. cbn [nmul RNum P_Def.ON ONum o2]. f_equal. unfold Rpow.
    destruct Rlt_dec as [_|N]; [|lra]. replace (1 / 1) with 1 by lra. unfold Rpower. rewrite ln_1, Rmult_0_r, exp_0. lra. }
  rewrite E. unfold voce_getSdot1. rewrite EV. cbn [liftV v_nonlinear voce_setParams v_tausi v_xmprime1 v_h0 v_xmprime]. unfold nl_pars, get. cbn [nth Nat.add].
  cbn [nleb nsub nmul P_Def.ON ONum ocmp o2].
  assert (LE : Rleb 2 1 = false) by (apply Rleb_false; lra). rewrite LE.
  change (@one (option R) ON) with (Some (1 : R)). rewrite div_L by lra. cbn [o2 npow P_Def.ON ONum].
  assert (NP : opow (Some ((2 - 3) * (1 / (2 - 1)))) (Some (3 / 2 - 1)) = None).
  { unfold opow. destruct Rlt_dec as [X|_]; [lra|]. destruct Req_EM_T as [X|_]; [lra|]. destruct Req_EM_T as [X|_]; [|reflexivity].
    exfalso. assert (H2 : IZR (2 * Int_part (3 / 2 - 1)) = IZR 1) by (rewrite mult_IZR; lra). apply eq_IZR in H2. lia. }
  change (nsub (3 / 2) one) with (3 / 2 - 1). rewrite NP. reflexivity.
Qed.
End Def6.

(** ** The example of Prop_Def.v: the checking solver of P_Demo4.v over both scalars *)
Definition offer8 (g : list R) : Solver R := fun n rj tol it x0 => offer (if Nat.eqb n 8 then g else x0) n rj tol it x0.
Definition ooffer8 (u : bool) (g : list R) : Solver (option R) := fun n rj tol it x0 =>
  let x := if Nat.eqb n 8 then L g else x0 in
  {| so_converged := forallb (fun i => ocmp u Rleb (o1 Rabs (nth i (fst (rj x)) (Some 0))) tol) (seq 0 n);
     so_x := x; so_xlast := x; so_nfev := 1; so_nfev_rj := 2 |}.
Lemma nth_L r i : nth i (L r) (Some 0) = Some (nth i r 0).
Proof. unfold L. apply map_nth. Qed.
Lemma offer8_same u g : List.length g = 8%nat -> same_solver (ooffer8 u g) (offer8 g).
Proof.
  intros Hg n rjo rjr tol it x0 H HL. unfold ooffer8, offer8, offer, liftSO. cbn [so_converged so_x so_xlast so_nfev so_nfev_rj].
  set (x := if Nat.eqb n 8 then g else x0).
  assert (E : (if Nat.eqb n 8 then L g else L x0) = L x) by (unfold x; destruct Nat.eqb; reflexivity).
  assert (LX : List.length x = n) by (unfold x; destruct (Nat.eqb_spec n 8); congruence).
  rewrite E. split; [|split; exact LX]. f_equal. rewrite H by exact LX. unfold L2. cbn [fst].
  induction (seq 0 n) as [|i l IH]; [reflexivity|]. cbn [forallb]. rewrite nth_L, IH. reflexivity.
Qed.
Definition ochecked (u : bool) : Solver (option R) := fun n rj tol it x0 =>
  {| so_converged := forallb (fun i => ocmp u Rleb (o1 Rabs (nth i (fst (rj x0)) (Some 0))) tol) (seq 0 n);
     so_x := x0; so_xlast := x0; so_nfev := 1; so_nfev_rj := 2 |}.
Lemma checked_same u : same_solver (ochecked u) checked.
Proof.
  intros n rjo rjr tol it x0 H HL. unfold ochecked, checked, offer, liftSO. cbn [so_converged so_x so_xlast so_nfev so_nfev_rj].
  split; [|split; exact HL]. f_equal. rewrite H by exact HL. unfold L2. cbn [fst].
  induction (seq 0 n) as [|i l IH]; [reflexivity|]. cbn [forallb]. rewrite nth_L, IH. reflexivity.
Qed.
Lemma noLU_same : same_lu (fun _ _ _ _ => None) noLU.
Proof. intros n a b k. split; [reflexivity|discriminate]. Qed.

(** the spinning crystal of P_Demo4.v *)
Definition d42_x : list R := P_Rigid3.rest_x (d2_s checked) (d4_m d4_w) (/ 10) 0.
Lemma d42_len : List.length d42_x = 8%nat. Proof. reflexivity. Qed.
Lemma d42_good : good checked (d2_c checked) (call_of (d2_c checked) (d2_s checked) (offer8 d42_x) noLU false 1 (/ 10) (d4_m d4_w)).
Proof.
  destruct (d4_systems checked) as (md & sd & HS). pose proof (d4_spins checked) as HW. set (w := d4_w) in *. assert (HL : List.length w = 3%nat) by reflexivity.
  assert (A1 : 0 < / 10) by lra.
  assert (A2 : forall i, (i < 1)%nat -> at_rest checked (d2_c checked) demo_pars (d2_s checked) (d4_m w) i)
    by (intros i Hi; assert (i = 0%nat) by lia; subst i; now apply d4_at_rest).
  assert (A3 : forall i, (i < 1)%nat -> / 10 ^ 90 < norm3 (scalv (/ 10) (spin (d2_s checked) (d4_m w) i)) \/ spin (d2_s checked) (d4_m w) i = mkV 0 0 0)
    by (intros i Hi; assert (i = 0%nat) by lia; subst i; left; exact HW).
  assert (A4 : forall i, (i < 1)%nat -> forall rj it, (forall j, (j < 8)%nat -> nth j (fst (rj (rest_x (d2_s checked) (d4_m w) (/ 10) i))) 0 = 0) ->
    so_converged (offer8 d42_x 8%nat rj (nth 2 demo_pars 0) it (tab 8 (fun _ => 0))) = true).
  { intros i Hi rj it HZ. assert (i = 0%nat) by lia. subst i.
    assert (T : 0 <= nth 2 demo_pars 0) by (cbn; lra). exact (proj1 (offer_finds _ rj _ it (tab 8 (fun _ => 0)) T HZ)). }
  exact (rest_good checked (d2_c checked) (d2_s checked) demo_pars (d2_builtin checked) (d2_in_use checked) (d2_complete checked) _ noLU 1 (/ 10) (d4_m w)
    (d4_batch checked w HL) md sd HS (d4_pd checked) checked_keeps A1 A2 A3 A4).
Qed.
Lemma d42_s : d2_s checked = mm_doComplete (snd (mm_init (d2_c checked) (mm_new (d2_c checked)) [] demo_pars [])).
Proof. destruct (d2_init checked) as [s1 H]. unfold d2_s. rewrite mm_run_cons. cbn [mm_step]. rewrite H. reflexivity. Qed.
Lemma d42_point : valid_point (d2_c checked) demo_pars (d2_s checked) (d4_m d4_w) 0.
Proof.
  unfold valid_point, vOld, vNew, quat, eInt, val. rewrite d2_strides. cbn [nth Nat.mul Nat.add d4_m firstn demo_m map stride_of].
  unfold p_ec0, p_cv, SpecTensor.norm2. cbn. repeat split; try lra.
Qed.
Lemma d42_class u : valid_class u (ochecked u) checked demo_pars (@cls_FCC_A _ (ONum u) (ochecked u)) (d2_c checked).
Proof.
  apply v_FCC_A; [cbn; lra|]. unfold voce_valid, kin_pars. cbn. repeat split; try lra.
Qed.

Section Iter.
Variable u : bool.
Local Hint Extern 0 (Num (option R)) => exact (ONum u) : typeclass_instances.
Variables (hso : Solver (option R)) (hsr : Solver R).
Hypothesis HHS : same_solver hso hsr.
Lemma iterate_call pars co cr oo orr opts strs : valid_class u hso hsr pars co cr -> fresh u co cr oo orr ->
  fst (mm_init cr orr opts pars strs) = Done ->
  exists mo mr tol, mm_ready (snd (mm_init co oo opts (L pars) strs)) = Some (mo, Some tol) /\ mm_ready (snd (mm_init cr orr opts pars strs)) = Some (mr, tol) /\
  forall dt d w vr pt, dt <> 0 -> List.length d = 7%nat -> List.length w = 3%nat -> List.length vr = 4%nat ->
  List.length (pt_eInt pt) = 1%nat -> List.length (pt_stress pt) = 7%nat -> List.length (pt_hist pt) = mm_numHist cr ->
  nth 0 vr 0 <> 0 -> 0 < nth 1 vr 0 -> SpecTensor.norm2 (sub (pt_hist pt) 9 4) <> 0 -> 0 < (nth 0 (pt_eInt pt) 0 - p_ec0 cr pars) / p_cv pars ->
  forall g h_new n, List.length g = c_nslip cr -> k_updateH (m_kin mr) (sub (pt_hist pt) 13 (c_nH cr)) dt g = Some (h_new, n) ->
  k_valsOk (m_kin mr) (u_press (snglUpd mr vr (pt_eInt pt) (pt_stress pt))) (snglTkelv mr vr (pt_eInt pt)) h_new = true ->
  forall x, List.length x = 8%nat ->
  computeRJ (snglProb mo (Some dt) (L d) (L w) (L vr) (liftPt pt) (L h_new)) (L x) = L2 (computeRJ (snglProb mr dt d w vr pt h_new) x).
Proof.
  intros HV HF HD. destruct (valid_shape u hso hsr _ _ _ HV) as (E1 & E2 & E3).
  destruct (fresh_same u co cr oo orr E1 E2 HF) as (S1 & S2 & S3).
  destruct (mm_init cr orr opts pars strs) as [o1 s1] eqn:EI. cbn [fst snd] in HD |- *. subst o1.
  destruct (init_done _ _ _ _ _ _ EI) as ((HL & _) & _).
  pose proof (class_L u hso hsr HHS pars co cr HV HL) as CD.
  destruct (init_L u co cr pars oo orr opts strs CD S1 S2) as [I1 I2]. rewrite EI in I2. cbn [fst snd] in I2.
  destruct (I2 eq_refl) as (T1 & T2 & mo & mr & R1 & R2 & MD & K1 & K2 & PT).
  exists mo, mr, (nth 2 pars 0). split; [exact R1|]. split; [exact R2|].
  intros dt d w vr pt H1 H2 H3 H4 H5 H6 H7 H8 H9 H10 H11 g h_new n Hg EU OK x Hx.
  unfold mm_numHist, numHist, iHistLbH in H7. rewrite <- K1 in EU.
  refine (iterate_L u mo mr MD dt d w vr pt h_new H1 _ H3 H4 H8 H9 H5 H6 _ _ _ g n _ EU OK x Hx).
  - rewrite H2. lia.
  - rewrite K1, K2. lia.
  - unfold vecNorm. change (@nmul R RNum) with Rmult. rewrite norm2_sum4 by (apply sub_length; lia).
    intros Z. apply H10. apply sqrt_eq_0 in Z; [exact Z|]. clear. induction (sub (pt_hist pt) 9 4) as [|a l IH]; cbn [SpecTensor.norm2 fold_right]; [lra|].
    unfold SpecTensor.norm2 in IH. nra.
  - rewrite PT. exact H11.
  - now rewrite K2.
Qed.
End Iter.
