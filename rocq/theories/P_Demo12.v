(** A concrete object on doubles and concrete histories of calls. *)
From Coq Require Import List ZArith Bool Lia PeanoNat Reals Lra String.
From Flocq Require Import Core IEEE754.BinarySingleNaN.
From Verif Require Import Num Arr NumR Util SlipGeom Eos Hard KinVoce KinKMBalD Elast Evptn MatModel Cases
  P_Sngl P_Sngl3 P_Batch P_Batch2 P_Batch3 P_Api P_Builtin P_Gen SpecApi P_Api2 NumD P_Dbl P_Dbl2 SpecDbl P_Dbl3 P_Dbl4 P_Dbl5 P_Dbl6 P_Dbl7 P_Dbl8 SpecDblGeom P_Dbl9.
Import ListNotations.
Local Open Scope R_scope.

(** correctly rounded functions *)
Definition xlm : Libm := {|
  lm_exp := fun x => if is_finite x then R2D (exp (B2R x)) else B754_nan;
  lm_log := fun x => if is_finite x then R2D (ln (B2R x)) else B754_nan;
  lm_sin := fun x => if is_finite x then R2D (sin (B2R x)) else B754_nan;
  lm_cos := fun x => if is_finite x then R2D (cos (B2R x)) else B754_nan;
  lm_pow := fun x y => if is_finite x && is_finite y then R2D (Rpower (B2R x) (B2R y)) else B754_nan |}.
Lemma rnd_unit x : -1 <= x <= 1 -> is_finite (R2D x) = true /\ Rabs (B2R (R2D x) - x) <= / 2 ^ 52.
Proof.
  intros H. assert (A : Rabs x <= 1) by (apply abs_le; lra). destruct (R2D_ok x) as [F V]; [pose proof big_10; lra|].
  split; [exact F|]. rewrite V. pose proof (rnd_err x) as E. pose proof eta_uu.
  assert (uu * Rabs x <= uu * 1) by (apply Rmult_le_compat_l; [unfold uu|]; lra).
  apply Rle_trans with (1.001 * uu); [lra|]. unfold uu. cbn [pow]. lra.
Qed.
Lemma xlm_ok : trig_ok xlm.
Proof.
  intros x. split; intros F; cbn [lm_sin lm_cos xlm]; rewrite F; [|reflexivity].
  destruct (rnd_unit _ (SIN_bound (B2R x))) as [S1 S2]. destruct (rnd_unit _ (COS_bound (B2R x))) as [C1 C2]. auto.
Qed.

Notation DX := (DNum xlm).
#[local] Hint Extern 0 (Num (binary_float 53 1024)) => exact (DNum xlm) : typeclass_instances.
Definition zsol : Solver dbl := fun n rj tol it x0 =>
  {| so_converged := true; so_x := repeat dz n; so_xlast := repeat dz n; so_nfev := 1; so_nfev_rj := 2 |}.
Definition xLU : LUSolver dbl := fun _ _ _ _ => None.
Lemma zsol_moderate : moderate_answers zsol.
Proof.
  intros n f tol it x0. cbv zeta. intros _. cbn [zsol so_x]. split; [apply repeat_length|].
  apply Forall_forall. intros x Hx. apply repeat_spec in Hx. subst. split; [reflexivity|]. cbn [B2R dz]. rewrite Rabs_R0. apply pow_le. lra.
Qed.

Definition x_c : MClass dbl := @cls_FCC_A dbl DX zsol.
Definition x_pars : list dbl := map Z2D [3; 2; 1; 3; 1; 1; 1; 1; 1; 1; 1; 4; 1; 1; 1; 2; -600]%Z.
Definition x_s : MM dbl := fst (@mm_run dbl DX x_c (@mm_new dbl DX x_c) [OInit [] x_pars []; OComplete]).
Lemma x_builtin : @builtin dbl DX zsol x_c.
Proof. left. reflexivity. Qed.
Lemma x_reach : @reachable dbl DX x_c x_s.
Proof. apply (@reach_default dbl DX). Qed.

Definition x_kin := @voce_kinetics dbl DX zsol (@voce_setParams dbl DX false (sub x_pars 6 9)) 12.
Lemma x_bulk : @el_getBulkMod dbl DX (@cubic_setParams dbl DX (sub x_pars 3 3)) = Some (el_K_bulkMod (@cubic_setParams dbl DX (sub x_pars 3 3))).
Proof.
  unfold el_getBulkMod. match goal with |- (if ?b then _ else _) = _ => assert (E : b = false) by (vm_compute; reflexivity); rewrite E end. reflexivity.
Qed.
Lemma x_init : exists s1, @mm_init dbl DX x_c (@mm_new dbl DX x_c) [] x_pars [] = (Done, s1).
Proof.
  destruct (dgeom_fcc xlm) as (g & Hg & _).
  eapply (@init_done_conv dbl DX x_c (mm_new x_c) [] x_pars []
    {| pa_sg := g; pa_el := @cubic_setParams dbl DX (sub x_pars 3 3); pa_kin := x_kin;
       pa_hist := voce_histInfo (@voce_setParams dbl DX false (sub x_pars 6 9)); pa_bulk := el_K_bulkMod (@cubic_setParams dbl DX (sub x_pars 3 3)) |}).
  - repeat split; cbn; lia.
  - refine (conj Hg (conj eq_refl (conj eq_refl _))). exact x_bulk.
  - reflexivity.
Qed.
Lemma x_in_use : @in_use dbl DX x_c x_s x_pars.
Proof.
  destruct x_init as [s1 H].
  assert (E : x_s = fst (@mm_run dbl DX x_c s1 [OComplete])).
  { unfold x_s. rewrite mm_run_cons. cbn [mm_step]. rewrite H. reflexivity. }
  rewrite E. econstructor; [exact (@reach_default dbl DX x_c [])|exact H|]. repeat constructor.
Qed.
Lemma x_complete : mm_complete x_s = true.
Proof. unfold x_s. now rewrite run_complete. Qed.
Lemma x_strides : mm_strides x_s = [7; 3; 4; 1; 7; 26; 1; 2]%nat.
Proof. unfold x_s. now rewrite run_strides. Qed.

Lemma x_ready : exists sg eos tol, sg_nslip sg = 12%nat /\ @mm_ready dbl x_s =
  Some ({| m_sg := sg; m_kin := x_kin; m_el := @cubic_setParams dbl DX (sub x_pars 3 3); m_eos := eos |}, tol).
Proof.
  destruct x_init as [s1 H]. destruct (@init_done dbl DX _ _ _ _ _ _ H) as ((HL & _) & a & (P1 & P2 & P3 & P4) & _ & ES).
  assert (E : x_s = fst (@mm_run dbl DX x_c s1 [OComplete])).
  { unfold x_s. rewrite mm_run_cons. cbn [mm_step]. rewrite H. reflexivity. }
  exists (pa_sg a), (parts_eos x_c x_pars a), (get x_pars 2).
  split; [exact (fill_nslip _ _ _ _ P1)|].
  rewrite E. change (mm_ready s1 = Some ({| m_sg := pa_sg a; m_kin := x_kin; m_el := @cubic_setParams dbl DX (sub x_pars 3 3); m_eos := parts_eos x_c x_pars a |}, get x_pars 2)).
  rewrite ES. unfold mm_ready, with_parts, with_scalars, with_vecs.
  cbn [mm_sg mm_kin mm_el mm_eos mm_tol]. rewrite P2 in *.
  assert (EK : pa_kin a = x_kin).
  { apply (f_equal (option_map fst)) in P3. cbn [option_map fst] in P3. change (Some x_kin = Some (pa_kin a)) in P3. congruence. }
  rewrite EK. reflexivity.
Qed.
Lemma x_gmod : exists g, @el_getGmod dbl DX (@cubic_setParams dbl DX (sub x_pars 3 3)) = Some g.
Proof.
  unfold el_getGmod, cubic_setParams. cbn [el_K_gmod].
  set (a := (two * get (sub x_pars 3 3) 0 - two * get (sub x_pars 3 3) 1 + six * get (sub x_pars 3 3) 2)%num).
  change (exists g, (if Bleb (Bmult mode_NE a (R2D (Rlit 2 (-1)))) (Z2D 0) then None else Some (Bmult mode_NE a (R2D (Rlit 2 (-1))))) = Some g).
  assert (A : fin a /\ B2R a = 10).
  { destruct (Z2D_ok 10 ltac:(cbn; lia)) as [F V]. assert (E : a = Z2D 10) by (apply B2SF_inj; vm_compute; reflexivity). rewrite E. split; [exact F|exact V]. }
  clearbody a. destruct A as [FA VA].
  assert (E2 : Rlit 2 (-1) = / 5). { unfold Rlit. change (10 ^ 1)%Z with 10%Z. lra. } rewrite E2.
  destruct (R2D_ok (/ 5)) as [F5 V5]. { rewrite Rabs_pos_eq by lra. pose proof big_10. lra. }
  pose proof (rnd_err (/ 5)) as H5. rewrite <- V5, (Rabs_pos_eq (/ 5)) in H5 by lra. pose proof eta_uu.
  set (f := R2D (/ 5)) in *. clearbody f. apply abs_le in H5.
  assert (B : 1.9 <= B2R a * B2R f <= 2.1) by (rewrite VA; unfold uu in *; lra).
  destruct (mul_ok a f FA F5) as [F V]. { rewrite Rabs_pos_eq by lra. pose proof big_10. lra. }
  pose proof (rnd_err (B2R a * B2R f)) as H6. rewrite <- V, (Rabs_pos_eq (B2R a * B2R f)) in H6 by lra. apply abs_le in H6.
  assert (Bleb (Bmult mode_NE a f) (Z2D 0) = false).
  { rewrite Bleb_correct; [|exact F|reflexivity]. change (B2R (Z2D 0)) with 0. case Rle_bool_spec; [|reflexivity]. intros. unfold uu in *. lra. }
 rewrite H0. eexists; reflexivity.
Qed.

(** a hardness between 1/1000 and 1000 is kept *)
Definition hok (h : dbl) : Prop := fin h /\ / 1000 <= B2R h <= 1000.
Lemma keep_h h : hok h -> hok (@h1_getHn dbl DX h [dz]).
Proof.
  intros (F & P). unfold h1_getHn, h1_x_scale. cbn [nadd nmul nmax nZ DNum get nth].
  assert (S : fin (dmax h (Z2D 1)) /\ Rabs (B2R (dmax h (Z2D 1))) <= 1000).
  { destruct (Z2D_ok 1 ltac:(cbn; lia)) as [F1 V1]. unfold dmax. destruct (is_nan h).
    - split; [exact F1|]. rewrite V1, Rabs_pos_eq; lra.
    - change (is_nan (Z2D 1)) with false. cbv iota. destruct Bltb; (split; [assumption|]); rewrite Rabs_pos_eq; lra. }
  destruct S as [FS BS]. set (s := dmax h (Z2D 1)) in *. clearbody s.
  destruct (mul_ok dz s eq_refl FS) as [FM VM]. { change (B2R dz) with 0. rewrite Rmult_0_l, Rabs_R0. pose proof big_10. lra. }
  change (B2R dz) with 0 in VM. rewrite Rmult_0_l, rnd_0 in VM.
  destruct (add_ok h (Bmult mode_NE dz s) F FM) as [FH VH]. { rewrite VM, Rplus_0_r, Rabs_pos_eq by lra. pose proof big_10. lra. }
  rewrite VM, Rplus_0_r, rnd_B2R in VH. split; [exact FH|]. rewrite VH. exact P.
Qed.
Lemma x_done n dt m : batch_ok x_c x_s false n m -> (forall i, (i < n)%nat -> hok (dval x_s m AH i 13)) ->
  exists m1, @mm_getResponse dbl DX zsol xLU x_c x_s dt false (Z.of_nat n) m = (BRet Done, m1).
Proof.
  intros HO HH. destruct x_ready as (sg & eos & tol & Hsg & HM).
  destruct (@api_batch dbl DX x_c x_s zsol xLU dt false n m _ _ x_reach x_complete HM HO) as (o & m1 & E & _ & P).
  exists m1. rewrite E. f_equal. f_equal. cbv zeta in P.
  assert (G : forall i, (i < n)%nat -> fst (@getResponseSngl dbl DX zsol xLU
     {| m_sg := sg; m_kin := x_kin; m_el := @cubic_setParams dbl DX (sub x_pars 3 3); m_eos := eos |} dt tol
     (cell_of x_c x_s false m AD i) (cell_of x_c x_s false m AW i)
     (cell_of x_c x_s false m AV i) (pt_of x_c x_s false m i)) = Done).
  { intros i Hi. destruct x_gmod as [g Hg].
    assert (EH : get (sub (pt_hist (pt_of x_c x_s false m i)) iHistLbH 1) 0 = dval x_s m AH i 13).
    { rewrite get_sub by lia. unfold pt_of, pt_at. cbn [pt_hist].
      apply (dcell_val xlm x_c x_s false n m AH i 13); [apply HO|assumption|]. cbn. lia. }
    destruct (@sngl_succeeds dbl DX zsol xLU
     {| m_sg := sg; m_kin := x_kin; m_el := @cubic_setParams dbl DX (sub x_pars 3 3); m_eos := eos |} dt tol
     (cell_of x_c x_s false m AD i) (cell_of x_c x_s false m AW i)
     (cell_of x_c x_s false m AV i) (pt_of x_c x_s false m i)
     [@h1_getHn dbl DX (dval x_s m AH i 13) [dz]] 1 g) as [pt' E'].
    - cbn [m_kin x_kin voce_kinetics k_updateH k_nH]. unfold voce_updateH, updateH1. cbn [zsol so_converged]. rewrite EH. reflexivity.
    - cbn [m_kin x_kin voce_kinetics k_valsOk]. unfold voce_valsOk.
      destruct (keep_h _ (HH i Hi)) as (F1 & P1 & _). set (h := h1_getHn _ _) in *. clearbody h. cbn [get nth nltb DNum].
      change (Bltb dz h = true). rewrite Bltb_correct; [|reflexivity|exact F1]. apply Rlt_bool_true. change (B2R dz) with 0. lra.
    - reflexivity.
    - reflexivity.
    - exact Hg.
    - rewrite E'. reflexivity. }
  destruct o; [reflexivity| |]; destruct P as (k & Hk & P & _); specialize (G k Hk); rewrite P in G; discriminate.
Qed.

(** two points; the orientation of the second has not been normalised *)
Definition x_h (q h : list Z) : list Z := [0; 0; 0; 0; 0; 0; 0; 0; 0]%Z ++ q ++ h ++ [0; 0; 0; 0; 0; 0; 0; 0; 0; 0; 0; 0]%Z.
Definition x_m : Mem dbl := fun a => map Z2D
  match a with
  | AD => [1; -1; 0; 0; 0; 2; 0;   0; 1; -1; 1; 0; 0; 0]
  | AW => [0; 0; 1;   1; 0; 0]
  | AV => [1; 1; 0; 0;   1; 1; 0; 0]
  | AE => [1; 2]
  | AS => [1; 0; -1; 0; 0; 2; 1;   0; 0; 0; 1; 1; 1; 3]
  | AH => x_h [1; 0; 0; 0] [1] ++ x_h [1; 2; 0; 0] [2]
  | AT => [300; 300]
  | AB => [0; 0; 0; 0]
  | AM => []
  end%Z.
Lemma x_batch (m : Mem dbl) : (forall a, List.length (m a) = List.length (x_m a)) -> batch_ok x_c x_s false 2 m.
Proof.
  intros H. split.
  - rewrite x_strides. split; [|discriminate]. intros a Ha. destruct a; reflexivity.
  - rewrite x_strides. intros a i Hi Hp. rewrite H. destruct i as [|[|i]]; [| |lia]; destruct a; cbn in *; lia.
Qed.
Definition x_call (dt : dbl) (m : Mem dbl) : DCall :=
  {| d_s := x_s; d_solver := zsol; d_lu := xLU; d_dt := dt; d_mtan := false; d_n := 2; d_m := m;
     d_m1 := snd (@mm_getResponse dbl DX zsol xLU x_c x_s dt false 2 m) |}.
Definition x_pos (m : Mem dbl) : Prop :=
  (forall a, List.length (m a) = List.length (x_m a)) /\ forall i, (i < 2)%nat -> hok (dval x_s m AH i 13).
Lemma x_good dt m : x_pos m -> dgood xlm zsol x_c (x_call dt m).
Proof.
  intros [H1 H2]. refine (conj x_builtin (conj x_reach (conj (x_batch m H1) _))).
  cbn [x_call d_n d_solver d_lu d_s d_dt d_mtan d_m d_m1].
  destruct (x_done 2 dt m (x_batch m H1) H2) as [m1 E]. change (Z.of_nat 2) with 2%Z in *. now rewrite E.
Qed.
Lemma x_next dt m : x_pos m -> x_pos (d_m1 (x_call dt m)).
Proof.
  intros HP. pose proof (x_good dt m HP) as G. destruct HP as [H1 H2]. split.
  - destruct G as (HB & HR & HO & H). destruct (@gapi_done dbl DX _ _ _ _ _ _ _ _ _ _ HB HR HO H) as [[U _] _].
    intros a. rewrite U. apply H1.
  - intros i Hi. destruct (dres xlm zsol x_c (x_call dt m) i G Hi) as (mat & tol & h_u & p & r & v & nf & gm & HM & _ & HPr & HR & Rs).
    destruct (g_updH _ _ _ _ _ _ _ _ _ _ _ _ _ _ Rs) as [nh EU].
    pose proof (g_H _ _ _ _ _ _ _ _ _ _ _ _ _ _ Rs) as EH.
    destruct x_ready as (sg & eos & tol' & _ & HM'). cbn [x_call d_s] in HM. rewrite HM' in HM.
    apply (f_equal (option_map fst)) in HM. cbn [option_map fst] in HM.
    assert (EK : m_kin mat = x_kin).
    { apply (f_equal (option_map (@m_kin dbl))) in HM. cbn [option_map m_kin] in HM. clear - HM. congruence. }
    rewrite EK in EU, EH. unfold x_kin in EU, EH. cbn [voce_kinetics k_nH k_updateH] in EU, EH.
    unfold voce_updateH, updateH1 in EU. cbn [zsol so_converged] in EU.
    assert (EHu : h_u = [@h1_getHn dbl DX (get (sub (pt_hist (pt_of x_c (d_s (x_call dt m)) (d_mtan (x_call dt m)) (d_m (x_call dt m)) i)) iHistLbH 1) 0) [dz]]).
    { apply (f_equal (option_map fst)) in EU. cbn [option_map fst] in EU. cbn [so_x zsol repeat] in EU. clear - EU. congruence. }
    pose proof (f_equal (fun l => @get dbl DX l 0) EH) as E0. cbv beta in E0. rewrite EHu in E0. rewrite !get_sub in E0 by lia.
    cbn [get nth] in E0.
    unfold pt_of, pt_at in E0. cbn [pt_hist] in E0.
    pose proof (dv_in xlm zsol x_c (x_call dt m) i G Hi AH 13) as V1. pose proof (dv_out xlm zsol x_c (x_call dt m) i G Hi AH 13) as V2.
    unfold cell_of in V1, V2. unfold iHistLbH in E0. cbn [Nat.add] in E0.
    rewrite V1, V2 in E0 by (cbn; lia). specialize (H2 i Hi).
    change (hok (dval (d_s (x_call dt m)) (d_m1 (x_call dt m)) AH i 13)). rewrite E0. apply keep_h. exact H2.
Qed.
Fixpoint x_hist (dts : list dbl) (m : Mem dbl) : list DCall :=
  match dts with
  | [] => []
  | dt :: r => x_call dt m :: x_hist r (d_m1 (x_call dt m))
  end.
Lemma x_chain dts : forall m, x_pos m -> dchain xlm zsol x_c (x_hist dts m).
Proof.
  induction dts as [|dt r IH]; intros m H; cbn [x_hist dchain]; [exact I|].
  split; [now apply x_good|]. split; [|apply IH; now apply x_next].
  destruct r; cbn [x_hist]; [exact I|]. split; [reflexivity|]. split; [reflexivity|]. reflexivity.
Qed.
Lemma x_hist_in dts : forall m b, In b (x_hist dts m) -> d_solver b = zsol /\ d_n b = 2%nat /\ In (d_dt b) dts /\ d_s b = x_s.
Proof.
  induction dts as [|dt r IH]; intros m b; cbn [x_hist In]; [tauto|]. intros [<-|H]; [repeat split; now left|].
  destruct (IH _ _ H) as (A & B & C & D). auto.
Qed.
Lemma x_m_pos : x_pos x_m.
Proof.
  split; [reflexivity|]. intros i Hi. unfold dval. rewrite x_strides.
  destruct i as [|[|i]]; [| |lia]; [change (hok (Z2D 1))|change (hok (Z2D 2))]; split; try reflexivity;
    [destruct (Z2D_ok 1 ltac:(cbn; lia)) as [_ E]|destruct (Z2D_ok 2 ltac:(cbn; lia)) as [_ E]]; rewrite E; lra.
Qed.
(** the orientation of the second point is (1, 2, 0, 0) before the first call *)
Lemma x_quat : dquat x_s x_m 1 = map Z2D [1; 2; 0; 0]%Z.
Proof. unfold dquat, dval. rewrite x_strides. reflexivity. Qed.
Lemma x_quat_ok : finite (dquat x_s x_m 1) /\ norm2 (dquat x_s x_m 1) = 5.
Proof.
  rewrite x_quat. split; [repeat constructor|]. cbn [map norm2 fold_right].
  destruct (Z2D_ok 1 ltac:(cbn; lia)) as [_ E1], (Z2D_ok 2 ltac:(cbn; lia)) as [_ E2], (Z2D_ok 0 ltac:(cbn; lia)) as [_ E0].
  rewrite E1, E2, E0. lra.
Qed.

Lemma case_range : / 10 ^ 200 <= 5 <= 10 ^ 200.
Proof.
  split.
  - apply Rle_trans with 1; [|lra]. rewrite <- Rinv_1. apply Rinv_le_contravar; [lra|]. apply pow_R1_Rle. lra.
  - apply Rle_trans with (10 ^ 1); [lra|]. apply Rle_pow; [lra|lia].
Qed.
Lemma z_small z : (Z.abs z <= 10)%Z -> is_finite (Z2D z) = true /\ Rabs (B2R (Z2D z)) <= 10 ^ 300.
Proof.
  intros H. destruct (Z2D_ok z ltac:(cbn; lia)) as [F V]. split; [exact F|]. rewrite V, <- abs_IZR.
  apply Rle_trans with (10 ^ 1); [|apply Rle_pow; [lra|lia]]. rewrite pow_1. now apply IZR_le.
Qed.
