(** The developer interface against the library call. *)
From Coq Require Import List ZArith Bool Lia PeanoNat Reals Lra String.
From Verif Require Import Num Arr NumR Util SlipGeom Eos Hard KinVoce KinKMBalD Elast Evptn MatModel Cases Py SpecTensor
  P_Tensor P_Eos P_Sngl P_Sngl2 P_Sngl3 P_Batch P_Batch2 P_Batch3 P_Api P_Builtin SpecApi P_Hist SpecBatch P_Batch4 SpecObj P_Api2 P_Demo SpecPy P_Py.
Import ListNotations.
Local Open Scope R_scope.

(** ** The object *)
Lemma dev_step_mat (v v' : Dev R) op : dev_step v op = Some v' -> dv_mat v' = dv_mat v /\ dv_halfVMidDt v' = dv_halfVMidDt v.
Proof.
  destruct op as [dt d w vr e s h|x|x pt]; cbn [dev_step].
  - intros H. apply some_inj in H. subst v'. unfold dev_setup. cbv zeta.
    destruct k_updateH as [[hu ?]|]; [|split; reflexivity]. destruct negb; split; reflexivity.
  - unfold dev_computeRJ. destruct (dv_in v) as [i|]; [|discriminate]. cbn [option_map snd].
    intros H. apply some_inj in H. subst v'. split; reflexivity.
  - unfold dev_getState. destruct (dv_in v) as [i|]; [|discriminate]. destruct (di_last i) as [ev|]; [|discriminate].
    cbv zeta. destruct stateFromX as [e q]. destruct el_getGmod; cbn [option_map fst snd]; intros H; apply some_inj in H; subst v'; split; reflexivity.
Qed.
Lemma dev_run_mat ops : forall v v' : Dev R, dev_run v ops = Some v' -> dv_mat v' = dv_mat v /\ dv_halfVMidDt v' = dv_halfVMidDt v.
Proof.
  induction ops as [|op r IH]; intros v v' H; cbn [dev_run] in H.
  - apply some_inj in H. now subst.
  - destruct (dev_step v op) as [v1|] eqn:E; [|discriminate]. destruct (dev_step_mat _ _ _ E), (IH _ _ H). split; congruence.
Qed.

Lemma evals_last xs : forall (v v2 : Dev R) i, dv_in v = Some i -> xs <> [] -> dev_evals v xs = Some v2 ->
  dv_mat v2 = dv_mat v /\ dv_eDevTot v2 = dv_eDevTot v /\ dv_halfVMidDt v2 = dv_halfVMidDt v /\ dv_eNew v2 = dv_eNew v /\
  dv_in v2 = Some {| di_dt := di_dt i; di_d := di_d i; di_d_vecd := di_d_vecd i; di_quat_n := di_quat_n i;
    di_tkelv := di_tkelv i; di_pEOS := di_pEOS i; di_bulkNew := di_bulkNew i;
    di_hard_u := di_hard_u i; di_prob := di_prob i; di_last := Some (evalEv (di_prob i) (last xs [])) |}.
Proof.
  induction xs as [|x r IH]; intros v v2 i Hi HN H; [contradiction|].
  unfold dev_evals in *. cbn [map dev_run dev_step] in H. unfold dev_computeRJ in H. rewrite Hi in H. cbn [option_map snd] in H.
  destruct r as [|y r].
  - cbn [map dev_run] in H. apply some_inj in H. subst v2. cbn. auto.
  - assert (NN : y :: r <> []) by discriminate.
    match type of H with dev_run ?V _ = _ => destruct (IH V v2 _ eq_refl NN H) as (A1 & A2 & A3 & A4 & A5) end.
    cbn [dv_mat dv_eDevTot dv_halfVMidDt dv_eNew di_dt di_d di_d_vecd di_quat_n di_tkelv di_pEOS di_bulkNew di_hard_u di_prob] in *.
    refine (conj A1 (conj A2 (conj A3 (conj A4 _)))). rewrite A5. reflexivity.
Qed.
Lemma evals_some xs : forall (v : Dev R) i, dv_in v = Some i -> exists v2, dev_evals v xs = Some v2.
Proof.
  induction xs as [|x r IH]; intros v i Hi; [now exists v|].
  unfold dev_evals in *. cbn [map dev_run dev_step]. unfold dev_computeRJ. rewrite Hi. cbn [option_map snd].
  eapply IH. reflexivity.
Qed.

(** ** One point *)
Lemma count_only (h q : list R) x y k : k <> 3%nat -> (4 <= List.length h)%nat ->
  get (upd h 3 x) k = get (upd h 3 y) k /\ get (updl (upd h 3 x) 9 q) k = get (updl (upd h 3 y) 9 q) k.
Proof.
  intros Hk HL.
  assert (A : forall z, get (upd h 3 z) k = get h k) by (intros z; now rewrite get_upd_other by lia).
  split; [now rewrite !A|].
  destruct (le_lt_dec 9 k) as [H9|H9]; [destruct (lt_dec k (9 + List.length q)) as [H2|H2]|].
  - destruct (lt_dec k (List.length h)) as [H3|H3].
    + rewrite !get_updl_in by (rewrite ?upd_length; lia). reflexivity.
    + unfold get. rewrite !nth_overflow by (rewrite updl_length, upd_length; lia). reflexivity.
  - rewrite !get_updl_out by lia. now rewrite !A.
  - rewrite !get_updl_out by lia. now rewrite !A.
Qed.

Lemma dev_point solver lu m dt tol d w vr (pt pt' : Pt R) (v : Dev R) :
  pt_mtan pt = None -> pt_shapes m pt -> dv_mat v = m ->
  getResponseSngl solver lu m dt tol d w vr pt = (Done, pt') ->
  exists v1, dev_setup v dt d w vr (pt_eInt pt) (pt_stress pt) (pt_hist pt) = (Done, v1) /\
    let r := solver 8%nat (dev_rj v1) tol 200%nat (repeat 0 8) in so_converged r = true /\
    forall xs v2 e0 s0 b0, xs <> [] -> last xs [] = so_xlast r -> dev_evals v1 xs = Some v2 ->
      List.length e0 = 1%nat -> List.length s0 = 7%nat -> List.length b0 = 2%nat ->
      exists v3 q, dev_getState v2 (so_x r) {| pt_eInt := e0; pt_stress := s0; pt_hist := pt_hist pt; pt_tkelv := pt_tkelv pt; pt_sdd := b0; pt_mtan := None |} = Some (Done, v3, q) /\
        pt_stress q = pt_stress pt' /\ pt_tkelv q = pt_tkelv pt' /\ pt_sdd q = pt_sdd pt' /\
        List.length (pt_hist q) = List.length (pt_hist pt') /\
        (forall k, k <> 3%nat -> get (pt_hist q) k = get (pt_hist pt') k) /\ get (pt_hist q) 3 = 0 /\
        get (pt_eInt q) 0 = u_eNew (snglUpd m vr (pt_eInt pt) (pt_stress pt)) + (dv_eDevTot v + dv_halfVMidDt v * vecsInnerSvecDev (pt_stress pt') d).
Proof.
  intros HM (S1 & S2 & S3 & S4 & _) <- H. set (m := dv_mat v) in *.
  unfold getResponseSngl in H. rewrite HM in H. cbv zeta in H.
  unfold dev_setup. fold m. cbv zeta.
  change (vecsVNormalize 4 (sub (pt_hist pt) iHistLbQ 4)) with (snglQuatN (pt_hist pt)).
  change (snd (evalPT (m_eos m) (get vr 0) (get (pt_eInt pt) 0))) with (snglTkelv m vr (pt_eInt pt)).
  change (updateSimple (m_eos m) (get vr 1) (get vr 3) (get (pt_eInt pt) 0) (get (pt_stress pt) 6)) with (snglUpd m vr (pt_eInt pt) (pt_stress pt)).
  destruct k_updateH as [[h_u nu]|]; [|discriminate H].
  destruct (negb (k_valsOk _ _ _ _)); [discriminate H|].
  eexists. split; [reflexivity|].
  set (p := snglProb m dt d w vr pt h_u) in *.
  assert (ES : @repeat R 0 8 = tab 8 (fun _ => nZ 0)) by reflexivity.
  cbv zeta. unfold dev_rj. unfold dev_computeRJ. cbn [dv_in di_prob].
  match goal with |- context [solver 8%nat ?f tol 200%nat ?x] => change (solver 8%nat f tol 200%nat x) with (solver 8%nat (computeRJ p) tol 200%nat (tab 8 (fun _ => nZ 0))) end.
  set (r := solver 8%nat (computeRJ p) tol 200%nat (tab 8 (fun _ => nZ 0))) in *. clearbody r.
  destruct (so_converged r); cbn [negb] in H; [|discriminate H]. split; [reflexivity|].
  intros xs v2 e0 s0 b0 HX HL HE Le Ls Lb.
  match type of HE with dev_evals ?v1 _ = _ => set (V1 := v1) in * end.
  destruct (evals_last xs V1 v2 _ eq_refl HX HE) as (A1 & A2 & A3 & A4 & A5).
  unfold V1 in A1, A2, A3, A4, A5.
  cbn [dv_mat dv_eDevTot dv_halfVMidDt dv_eNew di_dt di_d di_d_vecd di_quat_n di_tkelv di_pEOS di_bulkNew di_hard_u di_prob] in A1, A2, A3, A4, A5.
  unfold dev_getState. rewrite A5. cbn [di_last di_dt di_d di_d_vecd di_quat_n di_tkelv di_pEOS di_bulkNew di_hard_u di_prob]. cbv zeta.
  rewrite A1, A2, A3, A4, HL. fold m.
  change (mkProb (m_sg m) (m_kin m) (m_el m) dt (get vr 1) (u_eNew (snglUpd m vr (pt_eInt pt) (pt_stress pt)))
    (u_press (snglUpd m vr (pt_eInt pt) (pt_stress pt))) (snglTkelv m vr (pt_eInt pt)) h_u (sub (pt_hist pt) iHistLbE 5) (snglQuatN (pt_hist pt)) (svecToVecd d) w) with p.
  pose proof (stateFromX_length p (so_x r)) as [LE LQ].
  destruct (stateFromX p (so_x r)) as [e_u q_u]. cbn [fst snd] in LE, LQ.
  destruct (el_getGmod (m_el m)) as [g|]; [|discriminate H].
  apply (f_equal snd) in H. cbn [snd] in H. subst pt'. cbn [pt_stress pt_tkelv pt_sdd pt_hist pt_eInt].
  eexists. eexists. split; [reflexivity|]. cbn [pt_stress pt_tkelv pt_sdd pt_hist pt_eInt].
  set (sn := stress_out q_u (elastNEtoC p e_u)).
  assert (LS : List.length sn = 7%nat) by reflexivity.
  set (ev := evalEv p (so_xlast r)). clearbody ev.
  split; [|split; [reflexivity|split; [|split; [|split; [|split]]]]].
  - rewrite !updl_all by (rewrite ?S2, ?Ls; exact LS). reflexivity.
  - destruct b0 as [|x0 [|x1 [|]]]; try discriminate Lb. destruct (pt_sdd pt) as [|y0 [|y1 [|]]]; try discriminate S4. reflexivity.
  - destruct (vecsyadotb 4 q_u (snglQuatN (pt_hist pt)) <? zero)%num; unfold hist_out; rewrite ?updl_length, ?upd_length, ?updl_length; reflexivity.
  - intros k Hk. unfold hist_out, iHistA_nFEval. cbv zeta.
    match goal with |- get (if ?c then updl (upd ?h 3 ?x) ?i ?q else _) k = _ =>
      destruct (count_only h q x (nZ (Z.of_nat (so_nfev r))) k Hk) as [C1 C2];
      [rewrite ?upd_length, ?updl_length, S3; unfold numHist, iHistLbH; lia|];
      destruct c; [exact C2|exact C1] end.
  - unfold hist_out, iHistA_nFEval. cbv zeta.
    match goal with |- get (if ?c then updl (upd ?h 3 ?x) ?i ?q else _) 3 = _ =>
      assert (L : (3 < List.length h)%nat) by (rewrite ?upd_length, ?updl_length, S3; unfold numHist, iHistLbH; lia);
      destruct c; [rewrite get_updl_out by (unfold iHistLbQ; lia)|]; now rewrite get_upd_same by exact L end.
  - destruct e0 as [|x0 [|]]; try discriminate Le. cbn [upd get nth].
    rewrite updl_all by (rewrite S2; exact LS). reflexivity.
Qed.

(** ** The parts of a developer object are those of the library object *)
Lemma in_use_mat c s pars : in_use c s pars -> exists a, parts_of c pars a /\ List.length pars = mm_nParams c /\
  mm_ready s = Some ({| m_sg := pa_sg a; m_kin := pa_kin a; m_el := pa_el a; m_eos := parts_eos c pars a |}, get pars 2).
Proof.
  intros [s0 o p st s1 ops HR HI HF]. destruct (init_done _ _ _ _ _ _ HI) as ((HL & _) & a & P & _ & ES).
  exists a. split; [exact P|]. split; [exact HL|].
  destruct (run_harmless c ops s1 HF) as (E & _). rewrite E, ES. reflexivity.
Qed.

Lemma dev_make_ok c pars j1 j2 j3 (v : Dev R) a : dev_make c pars j1 j2 j3 = POk v -> parts_of c pars a ->
  c_sgNP c = 0%nat /\ List.length pars = mm_nParams c /\
  dv_mat v = {| m_sg := pa_sg a; m_kin := pa_kin a; m_el := pa_el a; m_eos := parts_eos c pars a |} /\
  dv_eDevTot v = j1 /\ dv_halfVMidDt v = j2 /\ dv_in v = None.
Proof.
  intros H (P1 & P2 & P3 & P4). unfold dev_make in H. cbv zeta in H.
  destruct (Nat.eqb_spec (List.length pars) (dev_nParams c)) as [EL|]; cbn [negb] in H; [|discriminate H].
  rewrite P1 in H. rewrite P3 in H. rewrite <- P2, P4 in H.
  destruct Nat.ltb; [discriminate H|].
  destruct (Nat.eqb_spec (3 + c_sgNP c + c_elNP c + c_kinNP c + (eos_nParams - 3)) (dev_nParams c)) as [EN|]; cbn [negb] in H; [|discriminate H].
  destruct negb; [discriminate H|].
  assert (E : v = {| dv_mat := {| m_sg := pa_sg a; m_kin := pa_kin a; m_el := pa_el a; m_eos := parts_eos c pars a |};
     dv_rhv := dev_histInfo c (pa_hist a); dv_eDevTot := j1; dv_halfVMidDt := j2; dv_eNew := j3; dv_in := None |}).
  { clear - H. unfold parts_eos. change (Some v) with (match POk v with POk x => Some x | _ => None end). 
    assert (X : forall A (x y : A), POk x = POk y -> x = y) by (intros; congruence). apply X in H. symmetry. exact H. }
  unfold dev_nParams in EN, EL. unfold mm_nParams. rewrite E. repeat split; try reflexivity; lia.
Qed.
