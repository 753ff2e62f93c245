(** From single points to successful batch calls and histories of calls on reachable objects. *)
From Coq Require Import List ZArith Bool Lia PeanoNat Reals Lra String.
From Verif Require Import Num Arr NumR Util SlipGeom Eos Hard KinVoce KinKMBalD Elast Evptn MatModel Cases SpecTensor
  P_Tensor P_Eos P_Sngl P_Sngl2 P_Sngl3 P_Batch P_Batch2 P_Batch3 P_Api P_Builtin SpecApi.
Import ListNotations.
Local Open Scope R_scope.

Lemma cell_val (c : MClass R) s mtan n m a i k : no_wrap (mm_strides s) mtan n -> (i < n)%nat ->
  (k < per_point (c_nH c) (c_nslip c) mtan a)%nat -> get (cell_of c s mtan m a i) k = val s m a i k.
Proof.
  intros HW Hi Hk. unfold cell_of, cell. rewrite get_sub by (rewrite width_eq; exact Hk).
  rewrite (offs_eq (mm_strides s) mtan n HW) by assumption. reflexivity.
Qed.

Definition buf_ok (hs : Solver R) (c : MClass R) (b : BCall) := batch_ok c (b_s b) (b_mtan b) (b_n b) (b_m1 b).

Lemma good_after hs c b : good hs c b -> batch_ok c (b_s b) (b_mtan b) (b_n b) (b_m1 b).
Proof.
  intros (HB & HR & [HW HO] & H).
  destruct (api_done hs c (b_s b) _ _ _ _ _ _ _ HB HR (conj HW HO) H) as [[U _] _].
  split; [assumption|]. intros a i Hi Hp. rewrite U. now apply HO.
Qed.

(** everything the per-point lemmas need, for point [i] of a successful call *)
Lemma good_point hs c b i : good hs c b -> (i < b_n b)%nat ->
  exists mat tol, mm_ready (b_s b) = Some (mat, tol) /\ mat_ok c mat /\
    let P := pt_of c (b_s b) (b_mtan b) (b_m b) i in
    let P' := pt_of c (b_s b) (b_mtan b) (b_m1 b) i in
    let cl := fun a => cell_of c (b_s b) (b_mtan b) (b_m b) a i in
    kin_shapes (m_kin mat) (sg_nslip (m_sg mat)) /\ pt_shapes mat P /\
    getResponseSngl (b_solver b) (b_lu b) mat (b_dt b) tol (cl AD) (cl AW) (cl AV) P = (Done, P').
Proof.
  intros (HB & HR & HO & H) Hi.
  destruct (api_done hs c (b_s b) _ _ _ _ _ _ _ HB HR HO H) as [_ [E0|(mat & tol & H1 & H2 & H3)]]; [lia|].
  exists mat, tol. split; [assumption|]. split; [assumption|]. cbv zeta. destruct H2 as (_ & _ & H2 & _).
  split; [assumption|]. now apply H3.
Qed.

Lemma numHist_ge nH ns k : (k < 13)%nat -> (k < numHist nH ns)%nat.
Proof. unfold numHist, iHistLbH. lia. Qed.

Section B.
  Variables (hs : Solver R) (c : MClass R) (b : BCall) (i : nat).
  Hypothesis G : good hs c b.
  Hypothesis Hi : (i < b_n b)%nat.
  Let s := b_s b. Let m := b_m b. Let m1 := b_m1 b.

  Lemma vin a k : (k < per_point (c_nH c) (c_nslip c) (b_mtan b) a)%nat -> get (cell_of c s (b_mtan b) m a i) k = val s m a i k.
  Proof. intros. apply (cell_val c s (b_mtan b) (b_n b)); auto. apply G. Qed.
  Lemma vout a k : (k < per_point (c_nH c) (c_nslip c) (b_mtan b) a)%nat -> get (cell_of c s (b_mtan b) m1 a i) k = val s m1 a i k.
  Proof. intros. apply (cell_val c s (b_mtan b) (b_n b)); auto. apply G. Qed.

  Lemma quat_in : quat_of (pt_hist (pt_of c s (b_mtan b) m i)) = quat s m i.
  Proof.
    unfold quat_of, quat. pose proof (good_point hs c b i G Hi) as (mat & tol & _ & _ & _ & S & _).
    pose proof (hist_quat_length _ _ S) as L. fold s m in L. unfold quat_of in L.
    apply list_get_ext; [now rewrite L|]. intros k Hk. rewrite L in Hk. rewrite get_sub by assumption.
    cbn [pt_of pt_at pt_hist]. change (cell (mm_strides s) (c_nH c) (c_nslip c) (b_mtan b) m AH i) with (cell_of c s (b_mtan b) m AH i).
    unfold pt_of, pt_at. cbn [pt_hist].
    change (cell (mm_strides s) (c_nH c) (c_nslip c) (b_mtan b) m AH i) with (cell_of c s (b_mtan b) m AH i).
    rewrite vin by (cbn [per_point]; unfold iHistLbQ; apply numHist_ge; lia).
    unfold iHistLbQ. do 4 (destruct k as [|k]; [reflexivity|]). lia.
  Qed.
  Lemma quat_out : quat_of (pt_hist (pt_of c s (b_mtan b) m1 i)) = quat s m1 i.
  Proof.
    unfold quat_of, quat. pose proof (good_point hs c b i G Hi) as (mat & tol & _ & _ & K & S & E).
    destruct (sngl_done _ _ _ _ _ _ _ _ _ _ K S E) as (h_u & v & nf & gm & Rs). cbv zeta in Rs.
    pose proof (hist_quat_length _ _ (r_shapes _ _ _ _ _ _ _ _ _ _ _ _ _ _ Rs)) as L. fold s m1 in L. unfold quat_of in L.
    apply list_get_ext; [now rewrite L|]. intros k Hk. rewrite L in Hk. rewrite get_sub by assumption.
    unfold pt_of, pt_at. cbn [pt_hist].
    change (cell (mm_strides s) (c_nH c) (c_nslip c) (b_mtan b) m1 AH i) with (cell_of c s (b_mtan b) m1 AH i).
    rewrite vout by (cbn [per_point]; unfold iHistLbQ; apply numHist_ge; lia).
    unfold iHistLbQ. do 4 (destruct k as [|k]; [reflexivity|]). lia.
  Qed.

  Ltac gp := destruct (good_point hs c b i G Hi) as (mat & tol & HM & HMo & K & S & E); cbv zeta in *.
  Ltac vals := unfold pt_of, pt_at in *; cbn [pt_hist pt_eInt pt_stress pt_sdd pt_tkelv] in *;
    repeat match goal with
    | |- context [cell (mm_strides (b_s b)) (c_nH c) (c_nslip c) (b_mtan b) (b_m b) ?a i] =>
        change (cell (mm_strides (b_s b)) (c_nH c) (c_nslip c) (b_mtan b) (b_m b) a i) with (cell_of c s (b_mtan b) m a i)
    | |- context [cell (mm_strides (b_s b)) (c_nH c) (c_nslip c) (b_mtan b) (b_m1 b) ?a i] =>
        change (cell (mm_strides (b_s b)) (c_nH c) (c_nslip c) (b_mtan b) (b_m1 b) a i) with (cell_of c s (b_mtan b) m1 a i)
    | |- context [cell_of c (b_s b) (b_mtan b) (b_m b) ?a i] =>
        change (cell_of c (b_s b) (b_mtan b) (b_m b) a i) with (cell_of c s (b_mtan b) m a i)
    | H : context [cell (mm_strides (b_s b)) (c_nH c) (c_nslip c) (b_mtan b) (b_m b) ?a i] |- _ =>
        change (cell (mm_strides (b_s b)) (c_nH c) (c_nslip c) (b_mtan b) (b_m b) a i) with (cell_of c s (b_mtan b) m a i) in H
    | H : context [cell (mm_strides (b_s b)) (c_nH c) (c_nslip c) (b_mtan b) (b_m1 b) ?a i] |- _ =>
        change (cell (mm_strides (b_s b)) (c_nH c) (c_nslip c) (b_mtan b) (b_m1 b) a i) with (cell_of c s (b_mtan b) m1 a i) in H
    | H : context [cell_of c (b_s b) (b_mtan b) (b_m b) ?a i] |- _ =>
        change (cell_of c (b_s b) (b_mtan b) (b_m b) a i) with (cell_of c s (b_mtan b) m a i) in H
    end.
  Ltac side := cbn [per_point]; first [lia | apply numHist_ge; lia].
  Ltac vv H := rewrite ?vin, ?vout in H by side.

  Lemma call_quat : norm2 (quat s m i) <> 0 -> norm2 (quat s m1 i) = 1.
  Proof.
    intros Hq. gp. rewrite <- quat_out. eapply sngl_quat_unit; eauto. fold s m. now rewrite quat_in.
  Qed.

  Lemma call_dot : norm2 (quat s m i) <> 0 -> 0 <= dot4 (quat s m1 i) (quat s m i) /\ dot4 (quat s m1 i) (quat s m i) <= sqrt (norm2 (quat s m i)).
  Proof.
    intros Hq. pose proof (call_quat Hq) as HU. gp.
    destruct (sngl_sign _ _ _ _ _ _ _ _ _ _ K S E) as (D & _). cbv zeta in D.
    fold s m m1 in D. rewrite quat_out, quat_in in D.
    set (q := quat s m i) in *. set (q' := quat s m1 i) in *.
    assert (P : 0 < norm2 q) by (pose proof (norm2_nonneg q); lra).
    assert (EQ : dot4 q' q = sqrt (norm2 q) * vecsyadotb 4 q' (vecsVNormalize 4 q)).
    { unfold vecsVNormalize, vecNorm. change (@nmul R RNum) with Rmult. rewrite norm2_sum4 by reflexivity.
      cbn [nsqrt ndiv nZ RNum]. assert (PS : 0 < sqrt (norm2 q)) by now apply sqrt_lt_R0.
      set (r := sqrt (norm2 q)) in *. unfold dot4, vecsyadotb, vecsVsa. clearbody r. unfold q, q', quat. cbn [map]. rarr. field. lra. }
    rewrite EQ. assert (PS : 0 < sqrt (norm2 q)) by now apply sqrt_lt_R0.
    split; [apply Rmult_le_pos; lra|].
    assert (HC : vecsyadotb 4 q' (vecsVNormalize 4 q) <= 1).
    { destruct (normalize_unit q eq_refl Hq) as [U L]. set (n := vecsVNormalize 4 q) in *. clearbody n.
      clear - HU U L. unfold vecsyadotb. destruct n as [|n0 [|n1 [|n2 [|n3 [|]]]]]; try discriminate L.
      unfold q', quat in *. cbn [map] in *. unfold norm2 in *. cbn [fold_right] in *. rarr.
      set (a := val s m1 AH i 9) in *. set (b0 := val s m1 AH i 10) in *. set (c0 := val s m1 AH i 11) in *.
      set (e := val s m1 AH i 12) in *. clearbody a b0 c0 e.
      pose proof (Rle_0_sqr (a - n0)). pose proof (Rle_0_sqr (b0 - n1)). pose proof (Rle_0_sqr (c0 - n2)). pose proof (Rle_0_sqr (e - n3)).
      unfold Rsqr in *. lra. }
    nra.
  Qed.

  Lemma call_trace : val s m1 AS i 0 + val s m1 AS i 1 + val s m1 AS i 2 = 0.
  Proof. gp. pose proof (sngl_trace _ _ _ _ _ _ _ _ _ _ K S E) as H. vals. vv H. exact H. Qed.

  Lemma call_energy : eInt s m1 i = eInt s m i + work b i.
  Proof.
    gp. pose proof (sngl_energy _ _ _ _ _ _ _ _ _ _ K S E) as H. rewrite !innerSvec in H. vals. vv H.
    unfold eInt, work, devStress, devRate, delv, pres, vOld, vNew, sym6. fold s m m1. rewrite H. ring.
  Qed.

  Lemma call_shear : 0 <= b_dt b ->
    0 <= val s m1 AH i 0 /\ val s m1 AH i 1 = val s m AH i 1 + b_dt b * val s m1 AH i 0 /\
    val s m1 AH i 0 = sum (c_nslip c) (fun k => Rabs (val s m1 AH i (13 + c_nH c + k))).
  Proof.
    intros Hdt. gp. destruct (sngl_shear _ _ _ _ _ _ _ _ _ _ K S Hdt E) as (A1 & A2 & A3).
    unfold iHistA_shrateEff, iHistA_shrEff in *.
    destruct HMo as (M1 & M2 & _). rewrite M1, M2 in *.
    vals. vv A1. vv A2. split; [assumption|]. split; [assumption|].
    rewrite vout in A3 by side. rewrite A3. apply sum_ext. intros k Hk.
    rewrite vout; [reflexivity|]. cbn [per_point]. unfold numHist, iHistLbGdot, iHistLbH. lia.
  Qed.
End B.

(** ** The parameters in use *)
Lemma reach_run {T} {N : Num T} (c : MClass T) s ops : reachable c s -> reachable c (fst (mm_run c s ops)).
Proof.
  intros [ops0 | st len s0 ops0 H].
  - pose proof (mm_run_app c ops0 (mm_new c) ops) as E. apply (f_equal fst) in E. cbn [fst] in E. rewrite <- E. apply reach_default.
  - pose proof (mm_run_app c ops0 s0 ops) as E. apply (f_equal fst) in E. cbn [fst] in E. rewrite <- E. eapply reach_strides; eassumption.
Qed.
Lemma reach_init {T} {N : Num T} (c : MClass T) s o pars st r s1 : reachable c s -> mm_init c s o pars st = (r, s1) -> reachable c s1.
Proof.
  intros H E. pose proof (reach_run c s [OInit o pars st] H) as G. cbn [mm_run mm_step] in G. rewrite E in G. exact G.
Qed.

Lemma sub2 (l : list R) j : (j + 2 <= List.length l)%nat -> sub l j 2 = [nth j l 0; nth (S j) l 0].
Proof.
  intros H. apply list_get_ext; [now rewrite sub_length|]. intros k Hk. rewrite sub_length in Hk by assumption.
  rewrite get_sub by assumption. destruct k as [|[|k]]; [now rewrite Nat.add_0_r|now rewrite Nat.add_1_r|lia].
Qed.

Definition el_of (c : MClass R) (pars : list R) : Elast R := c_elSet c (sub pars (3 + c_sgNP c) (c_elNP c)).

Lemma bulk_of hs c pars b : builtin hs c -> List.length pars = mm_nParams c ->
  el_getBulkMod (el_of c pars) = Some b -> b = p_bulk c pars /\ 0 < b.
Proof.
  intros HB HL H. split; [|exact (bulk_pos _ _ H)].
  unfold el_getBulkMod in H. destruct nleb; [discriminate|]. injection H as <-.
  destruct HB as [ -> | [ -> | [ -> | [ -> | [ -> | [ -> | -> ]]]]]];
    unfold el_of, p_bulk, hexagonal; cbn [cls_FCC_A cls_FCC_AH cls_FCC_B cls_BCC_A cls_HCP_A cls_BCC_B cls_BCC_BH c_elSet c_elNP c_sgNP hexag_nParams cubic_nParams Nat.eqb Nat.add];
    unfold cubic_setParams, hexag_setParams; cbn [el_K_bulkMod];
    rewrite !get_sub by (unfold cubic_nParams, hexag_nParams; lia); cbn [Nat.add]; rops; unfold get; cbn [nundef RNum]; field.
Qed.

Lemma coupling_of hs c pars v e2 : builtin hs c -> 0 < v ->
  pres_coupling (el_of c pars) v e2 = - (sqrt 6 / 9) * p_coupling c pars * e2 / Rpower v (4 / 3).
Proof.
  intros HB Hv.
  assert (EP : Rpower v (4 / 3) = v * Rpower v (1 / 3)).
  { replace (4 / 3) with (1 + 1 / 3) by field. rewrite Rpower_plus, Rpower_1 by assumption. reflexivity. }
  assert (PP : 0 < Rpower v (1 / 3)) by (unfold Rpower; apply exp_pos).
  unfold pres_coupling. rewrite EP. set (w := Rpower v (1 / 3)) in *. clearbody w. clear EP.
  destruct HB as [ -> | [ -> | [ -> | [ -> | [ -> | [ -> | -> ]]]]]];
    unfold el_of, p_coupling, hexagonal; cbn [cls_FCC_A cls_FCC_AH cls_FCC_B cls_BCC_A cls_HCP_A cls_BCC_B cls_BCC_BH c_elSet c_elNP c_sgNP hexag_nParams cubic_nParams Nat.eqb Nat.add];
    unfold cubic_setParams, hexag_setParams; cbn [el_hex el_K_sdax3]; [field; lra .. |].
  rewrite !get_sub by (unfold cubic_nParams, hexag_nParams; lia); cbn [Nat.add]; rops; unfold get; cbn [nundef RNum].
  rewrite sqrt6. fold s2 s3. field. lra.
Qed.

Lemma in_use_ok {T} {N : Num T} (c : MClass T) s pars : in_use c s pars -> reachable c s /\ exists mat tol, mm_ready s = Some (mat, tol).
Proof.
  intros [s0 o pars' st s1 ops HR HI HF]. split; [exact (reach_run c s1 ops (reach_init c s0 o pars' st Done s1 HR HI))|].
  destruct (init_done _ _ _ _ _ _ HI) as (_ & a & _ & _ & ES).
  destruct (run_harmless c ops s1 HF) as (E & _). rewrite E, ES. unfold mm_ready, with_parts, with_scalars, with_vecs.
  cbn [mm_sg mm_kin mm_el mm_eos mm_tol]. eauto.
Qed.

Lemma in_use_parts hs c s pars : builtin hs c -> in_use c s pars ->
  reachable c s /\ List.length pars = mm_nParams c /\ 0 < p_bulk c pars /\ exists sg kin,
    mm_ready s = Some ({| m_sg := sg; m_kin := kin; m_el := el_of c pars;
      m_eos := eos_setParams false [nth 0 pars 0; p_bulk c pars; p_cv pars; p_gamma c pars; p_ec0 c pars] |}, nth 2 pars 0).
Proof.
  intros HB [s0 o pars' st s1 ops HR HI HF].
  pose proof (reach_init c s0 o pars' st Done s1 HR HI) as HR1.
  split; [now apply reach_run|].
  destruct (init_done _ _ _ _ _ _ HI) as ((HL & _) & a & (P1 & P2 & P3 & P4) & _ & ES).
  split; [assumption|]. change (pa_el a = el_of c pars') in P2. rewrite P2 in P4.
  destruct (bulk_of hs c pars' _ HB HL P4) as [EB PB]. rewrite <- EB. split; [assumption|].
  exists (pa_sg a), (pa_kin a).
  destruct (run_harmless c ops s1 HF) as (E & _). rewrite E, ES. unfold mm_ready, with_parts, with_scalars, with_vecs.
  cbn [mm_sg mm_kin mm_el mm_eos mm_tol]. rewrite P2. unfold parts_eos.
  destruct (builtin_parts hs c HB) as (_ & _ & EI). rewrite EI.
  rewrite sub2 by (rewrite HL; unfold mm_nParams, eos_nParams; lia).
  unfold p_gamma, p_ec0, p_cv.
  replace (mm_nParams c - 2)%nat with (3 + c_sgNP c + c_elNP c + c_kinNP c)%nat by (unfold mm_nParams, eos_nParams; lia).
  replace (mm_nParams c - 1)%nat with (S (3 + c_sgNP c + c_elNP c + c_kinNP c))%nat by (unfold mm_nParams, eos_nParams; lia).
  reflexivity.
Qed.

Section B2.
  Variables (hs : Solver R) (c : MClass R) (b : BCall) (i : nat) (pars : list R).
  Hypothesis G : good hs c b.
  Hypothesis Hi : (i < b_n b)%nat.
  Hypothesis U : in_use c (b_s b) pars.
  Let s := b_s b. Let m := b_m b. Let m1 := b_m1 b.
  Let e1 := eInt s m i - delv s m i * pres s m i.

  Lemma call_material : 0 < vNew s m i ->
    pres s m1 i = spec_p false (p_bulk c pars) (p_gamma c pars) (vNew s m i) e1
                  - sqrt 6 / 9 * p_coupling c pars * val s m1 AH i 5 / Rpower (vNew s m i) (4 / 3) /\
    tKel s m1 i = spec_T false (p_cv pars) (p_ec0 c pars) (eInt s m i) /\
    val s m1 AB i 0 = Rmax (/ 100000 * p_bulk c pars)
                        (p_bulk c pars / vNew s m i + p_gamma c pars * pres s m i * vNew s m i) /\
    el_getGmod (el_of c pars) = Some (val s m1 AB i 1).
  Proof.
    intros Hv. destruct (good_point hs c b i G Hi) as (mat & tol & HM & HMo & K & S & E). cbv zeta in *.
    destruct G as (HB & _).
    destruct (in_use_parts hs c (b_s b) pars HB U) as (HR & HL & PB & sg & kin & HM').
    rewrite HM' in HM. apply (f_equal (option_map fst)) in HM. cbn [option_map fst] in HM.
    assert (EM : m_el mat = el_of c pars /\ m_eos mat = eos_setParams false [nth 0 pars 0; p_bulk c pars; p_cv pars; p_gamma c pars; p_ec0 c pars]).
    { assert (X : mat = {| m_sg := sg; m_kin := kin; m_el := el_of c pars; m_eos := eos_setParams false [nth 0 pars 0; p_bulk c pars; p_cv pars; p_gamma c pars; p_ec0 c pars] |}) by congruence.
      rewrite X. split; reflexivity. }
    clear HM HM'. destruct EM as [EL EE].
    pose proof (sngl_press _ _ _ _ _ _ _ _ _ _ K S E) as H1.
    pose proof (sngl_tkelv _ _ _ _ _ _ _ _ _ _ K S E) as H2.
    destruct (sngl_sdd _ _ _ _ _ _ _ _ _ _ K S E) as [H3 H4].
    unfold snglUpd, snglTkelv in *. rewrite EE in H1, H2, H3. rewrite EL in H1, H4.
    unfold pt_of, pt_at in H1, H2, H3, H4. cbn [pt_hist pt_eInt pt_stress pt_sdd pt_tkelv] in H1, H2, H3, H4.
    change (cell (mm_strides (b_s b)) (c_nH c) (c_nslip c) (b_mtan b)) with (cell_of c s (b_mtan b)) in H1, H2, H3, H4.
    change (b_s b) with s in H1, H2, H3, H4. change (b_m b) with m in H1, H2, H3, H4. change (b_m1 b) with m1 in H1, H2, H3, H4.
    assert (VI : forall a k, (k < per_point (c_nH c) (c_nslip c) (b_mtan b) a)%nat -> get (cell_of c s (b_mtan b) m a i) k = val s m a i k)
      by (intros; now apply (vin hs c b i G Hi)).
    assert (VO : forall a k, (k < per_point (c_nH c) (c_nslip c) (b_mtan b) a)%nat -> get (cell_of c s (b_mtan b) m1 a i) k = val s m1 a i k)
      by (intros; now apply (vout hs c b i G Hi)).
    rewrite !VI in H1 by (cbn [per_point]; lia). rewrite !VI in H2 by (cbn [per_point]; lia). rewrite !VI in H3 by (cbn [per_point]; lia).
    rewrite !VO in H1 by (cbn [per_point]; first [lia | apply numHist_ge; lia]). rewrite !VO in H2 by (cbn [per_point]; lia).
    rewrite !VO in H3 by (cbn [per_point]; lia). rewrite !VO in H4 by (cbn [per_point]; lia).
    fold (vNew s m i) in *. fold (pres s m i) in *. fold (pres s m1 i) in *. fold (eInt s m i) in *. fold (delv s m i) in *.
    assert (Hv0 : vNew s m i <> 0) by lra.
    destruct (eos_update false (nth 0 pars 0) (p_bulk c pars) (p_cv pars) (p_gamma c pars) (p_ec0 c pars) _ (delv s m i) (eInt s m i) (pres s m i) Hv0)
      as (_ & U2 & _ & _ & _ & U6 & _).
    specialize (H1 Hv). rewrite U2 in H1. rewrite U6 in H3.
    rewrite (coupling_of hs c pars _ _ HB Hv) in H1.
    split; [rewrite H1; unfold e1, Rdiv; ring|].
    split; [|split; [exact H3|exact H4]].
    fold (tKel s m1 i) in H2. rewrite H2. unfold spec_T, evalPT, eos_setParams. rarr. cbn. unfold Rdiv. ring.
  Qed.

  Lemma call_bulk_floor : 0 < vNew s m i -> / 100000 * p_bulk c pars <= val s m1 AB i 0 /\ 0 < p_bulk c pars.
  Proof.
    intros Hv. destruct (call_material Hv) as (_ & _ & -> & _). split; [apply Rmax_l|].
    destruct G as (HB & _). now destruct (in_use_parts hs c (b_s b) pars HB U) as (_ & _ & PB & _).
  Qed.
End B2.

(** ** Histories *)
Lemma last_default {A} (l : list A) : forall a d d', last (a :: l) d = last (a :: l) d'.
Proof. induction l as [|x l IH]; intros a d d'; [reflexivity|]. exact (IH x d d'). Qed.
Lemma val_eq s s' (m m' : Mem R) a i k : mm_strides s' = mm_strides s -> m' a = m a -> val s' m' a i k = val s m a i k.
Proof. intros H1 H2. unfold val. now rewrite H1, H2. Qed.
Lemma quat_eq s s' (m m' : Mem R) i : mm_strides s' = mm_strides s -> m' AH = m AH -> quat s' m' i = quat s m i.
Proof. intros H1 H2. unfold quat. cbn [map]. now rewrite !(val_eq s s' m m' AH) by assumption. Qed.

Lemma chain_quat hs c i : forall l b0, chain hs c [AH] (b0 :: l) -> (i < b_n b0)%nat ->
  norm2 (quat (b_s b0) (b_m b0) i) <> 0 ->
  forall b, In b (b0 :: l) -> norm2 (quat (b_s b) (b_m1 b) i) = 1 /\ (i < b_n b)%nat.
Proof.
  induction l as [|b1 l IH]; intros b0 (HG & HF & HC) Hi HQ b [<-|HI]; try (split; [eapply call_quat; eassumption|assumption]).
  - destruct HI.
  - destruct HF as (F1 & F2 & F3). apply (IH b1 HC); [lia| |assumption].
    rewrite (quat_eq (b_s b0) (b_s b1) (b_m1 b0) (b_m b1) i F1 (F3 AH (or_introl eq_refl))).
    rewrite (call_quat hs c b0 i HG Hi HQ). lra.
Qed.

(** sum of a quantity over the calls of a history *)
Definition total (f : BCall -> R) (l : list BCall) : R := fold_right (fun b a => f b + a) 0 l.

Lemma chain_energy hs c i : forall l b0, chain hs c [AE] (b0 :: l) -> (i < b_n b0)%nat ->
  let bl := last (b0 :: l) b0 in
  eInt (b_s bl) (b_m1 bl) i = eInt (b_s b0) (b_m b0) i + total (fun b => work b i) (b0 :: l).
Proof.
  induction l as [|b1 l IH]; intros b0 (HG & HF & HC) Hi; cbv zeta.
  - cbn [last total fold_right]. rewrite (call_energy hs c b0 i HG Hi). ring.
  - destruct HF as (F1 & F2 & F3). specialize (IH b1 HC ltac:(lia)). cbv zeta in IH.
    pose proof (last_default l b1 b0 b1 : last (b0 :: b1 :: l) b0 = last (b1 :: l) b1) as EL.
    rewrite EL, IH.
    unfold eInt at 1. rewrite (val_eq (b_s b0) (b_s b1) (b_m1 b0) (b_m b1) AE i 0 F1 (F3 AE (or_introl eq_refl))).
    fold (eInt (b_s b0) (b_m1 b0) i). rewrite (call_energy hs c b0 i HG Hi).
    cbn [total fold_right]. ring.
Qed.

Lemma chain_shear hs c i : forall l b0, chain hs c [AH] (b0 :: l) -> (i < b_n b0)%nat ->
  (forall b, In b (b0 :: l) -> 0 <= b_dt b) ->
  let bl := last (b0 :: l) b0 in
  val (b_s bl) (b_m1 bl) AH i 1 = val (b_s b0) (b_m b0) AH i 1 + total (fun b => b_dt b * val (b_s b) (b_m1 b) AH i 0) (b0 :: l) /\
  val (b_s b0) (b_m b0) AH i 1 <= val (b_s bl) (b_m1 bl) AH i 1.
Proof.
  induction l as [|b1 l IH]; intros b0 (HG & HF & HC) Hi HD; cbv zeta.
  - pose proof (HD b0 (or_introl eq_refl)) as H0. destruct (call_shear hs c b0 i HG Hi H0) as (A & B & _).
    cbn [last total fold_right]. rewrite B. split; [ring|]. nra.
  - destruct HF as (F1 & F2 & F3). destruct (IH b1 HC ltac:(lia)) as [I1 I2]. { intros b Hb. apply HD. now right. }
    pose proof (HD b0 (or_introl eq_refl)) as H0. destruct (call_shear hs c b0 i HG Hi H0) as (A & B & _).
    pose proof (last_default l b1 b0 b1 : last (b0 :: b1 :: l) b0 = last (b1 :: l) b1) as EL.
    rewrite EL.
    rewrite (val_eq (b_s b0) (b_s b1) (b_m1 b0) (b_m b1) AH i 1 F1 (F3 AH (or_introl eq_refl))) in I1, I2.
    rewrite B in I1, I2. rewrite I1. split; [cbn [total fold_right]; ring|]. rewrite <- I1. nra.
Qed.
