(** A concrete model object and concrete successful calls: the hypotheses of the theorems about
    getResponseECM can be met. *)
From Coq Require Import List ZArith Bool Lia PeanoNat Reals Lra String.
From Verif Require Import Num Arr NumR Util SlipGeom Eos Hard KinVoce KinKMBalD Elast Evptn MatModel Cases SpecTensor
  P_Tensor P_Eos P_Sngl P_Sngl2 P_Sngl3 P_Batch P_Batch2 P_Batch3 P_Api P_Builtin SpecApi P_Hist P_Slip.
Import ListNotations.
Local Open Scope R_scope.

(** a solver that returns its starting point (which is the solution when nothing happens) *)
Definition echo : Solver R := fun n rj tol it x0 =>
  {| so_converged := true; so_x := x0; so_xlast := x0; so_nfev := 1; so_nfev_rj := 2 |}.
Lemma some_inj {A} {a b : A} : Some a = Some b -> a = b.
Proof. congruence. Qed.
Definition noLU : LUSolver R := fun _ _ _ _ => None.

Definition demo_c : MClass R := cls_FCC_A echo.
(** rho0 cv tol | c11 c12 c44 | mu xm gam_w h0 tausi taus0 xms gamss0 h_init | gamma ec0 *)
Definition demo_pars : list R := [3; 2; /100; 3; 1; 1; 1; /10; 1; 1; 1; 4; /20; /1000; 1; 17/10; -600].
Definition demo_s : MM R := fst (mm_run demo_c (mm_new demo_c) [OInit [] demo_pars []; OComplete]).

Lemma demo_builtin : builtin echo demo_c.
Proof. left. reflexivity. Qed.
Lemma demo_reach : reachable demo_c demo_s.
Proof. apply reach_default. Qed.

Lemma demo_init : exists s1, mm_init demo_c (mm_new demo_c) [] demo_pars [] = (Done, s1).
Proof.
  destruct (@geom_fcc) as (g & Hg & _).
  eapply (init_done_conv demo_c (mm_new demo_c) [] demo_pars []
    {| pa_sg := g; pa_el := c_elSet demo_c (sub demo_pars 3 3); pa_kin := voce_kinetics echo (voce_setParams false (sub demo_pars 6 9)) 12;
       pa_hist := voce_histInfo (voce_setParams false (sub demo_pars 6 9)); pa_bulk := 1 / 3 * (3 + 2 * 1) |}).
  - repeat split; cbn; lia.
  - refine (conj Hg (conj eq_refl (conj eq_refl _))).
    cbn [pa_el pa_bulk demo_c cls_FCC_A c_elSet]. unfold el_getBulkMod, cubic_setParams, demo_pars. cbn [el_K_bulkMod]. rarr.
    destruct (Rleb (1 / 3 * (3 + 2 * 1)) 0) eqn:E; [apply Rleb_true in E; lra|reflexivity].
  - reflexivity.
Qed.

Lemma demo_in_use : in_use demo_c demo_s demo_pars.
Proof.
  destruct demo_init as [s1 H].
  assert (E : demo_s = fst (mm_run demo_c s1 [OComplete])).
  { unfold demo_s. rewrite mm_run_cons. cbn [mm_step]. rewrite H. reflexivity. }
  rewrite E. econstructor; [exact (reach_default demo_c [])|exact H|]. repeat constructor.
Qed.
Lemma demo_complete : mm_complete demo_s = true.
Proof. unfold demo_s. now rewrite run_complete. Qed.

Lemma demo_ready : exists sg, sg_nslip sg = 12%nat /\ mm_ready demo_s =
  Some ({| m_sg := sg; m_kin := voce_kinetics echo (voce_setParams false (sub demo_pars 6 9)) 12; m_el := el_of demo_c demo_pars;
      m_eos := eos_setParams false [3; p_bulk demo_c demo_pars; 2; 17/10; -600] |}, /100).
Proof.
  destruct demo_init as [s1 H]. destruct (init_done _ _ _ _ _ _ H) as ((HL & _) & a & (P1 & P2 & P3 & P4) & _ & ES).
  exists (pa_sg a).
  assert (E : demo_s = fst (mm_run demo_c s1 [OComplete])).
  { unfold demo_s. rewrite mm_run_cons. cbn [mm_step]. rewrite H. reflexivity. }
  split; [exact (fill_nslip _ _ _ _ P1)|].
  rewrite E. change (mm_ready s1 = Some ({| m_sg := pa_sg a; m_kin := voce_kinetics echo (voce_setParams false (sub demo_pars 6 9)) 12;
     m_el := el_of demo_c demo_pars; m_eos := eos_setParams false [3; p_bulk demo_c demo_pars; 2; 17/10; -600] |}, /100)).
  rewrite ES. unfold mm_ready, with_parts, with_scalars, with_vecs.
  cbn [mm_sg mm_kin mm_el mm_eos mm_tol]. rewrite P2 in *.
  destruct (bulk_of echo demo_c demo_pars _ demo_builtin HL P4) as [EB _].
  unfold parts_eos. rewrite EB.
  assert (EK : pa_kin a = voce_kinetics echo (voce_setParams false (sub demo_pars 6 9)) 12).
  { apply (f_equal (option_map fst)) in P3. cbn [option_map fst] in P3.
    change (Some (voce_kinetics echo (voce_setParams false (sub demo_pars 6 9)) 12) = Some (pa_kin a)) in P3. congruence. }
  rewrite EK. reflexivity.
Qed.

Lemma demo_gmod : exists g, el_getGmod (el_of demo_c demo_pars) = Some g.
Proof.
  unfold el_getGmod, el_of, demo_c, cls_FCC_A. cbn [c_elSet c_sgNP c_elNP]. unfold cubic_setParams, demo_pars, cubic_nParams. cbn [el_K_gmod]. rarr.
  rewrite fifth_R. destruct (Rleb ((2 * 3 - 2 * 1 + 6 * 1) * / 5) 0) eqn:E; [apply Rleb_true in E; lra|]. eexists; reflexivity.
Qed.

(** every call without tangent on points with positive strength succeeds when the solver converges *)
Lemma demo_done n dt m : batch_ok demo_c demo_s false n m ->
  (forall i, (i < n)%nat -> 0 < val demo_s m AH i 13) ->
  exists m1, mm_getResponse echo noLU demo_c demo_s dt false (Z.of_nat n) m = (BRet Done, m1).
Proof.
  intros HO HH. destruct demo_ready as (sg & Hsg & HM).
  destruct (api_batch demo_c demo_s echo noLU dt false n m _ _ demo_reach demo_complete HM HO) as (o & m1 & E & _ & P).
  exists m1. rewrite E. f_equal. f_equal. cbv zeta in P.
  assert (G : forall i, (i < n)%nat -> fst (getResponseSngl echo noLU
     {| m_sg := sg; m_kin := voce_kinetics echo (voce_setParams false (sub demo_pars 6 9)) 12; m_el := el_of demo_c demo_pars;
        m_eos := eos_setParams false [3; p_bulk demo_c demo_pars; 2; 17/10; -600] |} dt (/100)
     (cell_of demo_c demo_s false m AD i) (cell_of demo_c demo_s false m AW i)
     (cell_of demo_c demo_s false m AV i) (pt_of demo_c demo_s false m i)) = Done).
  { intros i Hi. destruct demo_gmod as [g Hg].
    assert (EH : get (sub (pt_hist (pt_of demo_c demo_s false m i)) iHistLbH 1) 0 = val demo_s m AH i 13).
    { rewrite get_sub by lia. unfold pt_of, pt_at. cbn [pt_hist].
      apply (cell_val demo_c demo_s false n m AH i 13); [apply HO|assumption|]. cbn. lia. }
    destruct (sngl_succeeds echo noLU
     {| m_sg := sg; m_kin := voce_kinetics echo (voce_setParams false (sub demo_pars 6 9)) 12; m_el := el_of demo_c demo_pars;
        m_eos := eos_setParams false [3; p_bulk demo_c demo_pars; 2; 17/10; -600] |} dt (/100)
     (cell_of demo_c demo_s false m AD i) (cell_of demo_c demo_s false m AW i)
     (cell_of demo_c demo_s false m AV i) (pt_of demo_c demo_s false m i)
     [h1_getHn (val demo_s m AH i 13) [0]] 1 g) as [pt' E'].
    - cbn [m_kin voce_kinetics k_updateH k_nH]. unfold voce_updateH, updateH1. cbn [echo so_converged]. rewrite EH. reflexivity.
    - cbn [m_kin voce_kinetics k_valsOk]. unfold voce_valsOk, h1_getHn. rarr. apply Rltb_true.
      specialize (HH i Hi). lra.
    - reflexivity.
    - reflexivity.
    - exact Hg.
    - rewrite E'. reflexivity. }
  destruct o; [reflexivity| |]; destruct P as (k & Hk & P & _); specialize (G k Hk); rewrite P in G; discriminate.
Qed.

(** two points, close-packed *)
Definition demo_h (q h : list R) : list R := [0; 0; 0; 0; 0; 0; 0; 0; 0] ++ q ++ h ++ [0; 0; 0; 0; 0; 0; 0; 0; 0; 0; 0; 0].
Definition demo_m : Mem R := fun a =>
  match a with
  | AD => [1; -1; 0; 0; 0; /2; 0;   0; 1; -1; 1; 0; 0; 0]
  | AW => [0; 0; 1;   1; 0; 0]
  | AV => [1; 11/10; 1; /10;   1; 9/10; -1; -(/10)]
  | AE => [1; 2]
  | AS => [1; 0; -1; 0; 0; 2; 1;   0; 0; 0; 1; 1; 1; 3]
  | AH => demo_h [1; 0; 0; 0] [1] ++ demo_h [1; 2; 0; 0] [2]
  | AT => [300; 300]
  | AB => [0; 0; 0; 0]
  | AM => []
  end.

Lemma demo_strides : mm_strides demo_s = [7; 3; 4; 1; 7; 26; 1; 2]%nat.
Proof. unfold demo_s. now rewrite run_strides. Qed.
Lemma demo_batch (m : Mem R) : (forall a, List.length (m a) = List.length (demo_m a)) -> batch_ok demo_c demo_s false 2 m.
Proof.
  intros H. split.
  - rewrite demo_strides. split; [|discriminate]. intros a Ha. destruct a; reflexivity.
  - rewrite demo_strides. intros a i Hi Hp. rewrite H. destruct i as [|[|i]]; [| |lia]; destruct a; cbn in *; lia.
Qed.

Definition demo_call (dt : R) (m : Mem R) : BCall :=
  {| b_s := demo_s; b_solver := echo; b_lu := noLU; b_dt := dt; b_mtan := false; b_n := 2; b_m := m;
     b_m1 := snd (mm_getResponse echo noLU demo_c demo_s dt false 2 m) |}.

Definition demo_pos (m : Mem R) : Prop :=
  (forall a, List.length (m a) = List.length (demo_m a)) /\ forall i, (i < 2)%nat -> 0 < val demo_s m AH i 13.

Lemma demo_good dt m : demo_pos m -> good echo demo_c (demo_call dt m).
Proof.
  intros [H1 H2]. refine (conj demo_builtin (conj demo_reach (conj (demo_batch m H1) _))).
  cbn [demo_call b_n b_solver b_lu b_s b_dt b_mtan b_m b_m1].
  destruct (demo_done 2 dt m (demo_batch m H1) H2) as [m1 E]. change (Z.of_nat 2) with 2%Z in *. now rewrite E.
Qed.

Lemma demo_next dt m : demo_pos m -> demo_pos (b_m1 (demo_call dt m)).
Proof.
  intros HP. pose proof (demo_good dt m HP) as G. destruct HP as [H1 H2]. split.
  - destruct G as (HB & HR & HO & H). destruct (api_done _ _ _ _ _ _ _ _ _ _ HB HR HO H) as [[U _] _].
    intros a. rewrite U. apply H1.
  - intros i Hi. pose proof (good_point _ _ _ i G Hi) as (mat & tol & HM & HMo & K & S & E). cbv zeta in *.
    destruct (sngl_done _ _ _ _ _ _ _ _ _ _ K S E) as (h_u & v & nf & gm & Rs). cbv zeta in Rs.
    destruct (r_updH _ _ _ _ _ _ _ _ _ _ _ _ _ _ Rs) as [nh EU].
    pose proof (r_H _ _ _ _ _ _ _ _ _ _ _ _ _ _ Rs) as EH.
    destruct demo_ready as (sg & _ & HM'). cbn [demo_call b_s] in HM. rewrite HM' in HM.
    apply (f_equal (option_map fst)) in HM. cbn [option_map fst] in HM.
    assert (EK : m_kin mat = voce_kinetics echo (voce_setParams false (sub demo_pars 6 9)) 12).
    { apply (f_equal (option_map (@m_kin R))) in HM. cbn [option_map m_kin] in HM. clear - HM. congruence. }
    rewrite EK in EU, EH. cbn [voce_kinetics k_nH k_updateH] in EU, EH. unfold voce_updateH, updateH1 in EU. cbn [echo so_converged] in EU.
    assert (EHu : h_u = [h1_getHn (get (sub (pt_hist (pt_of demo_c (b_s (demo_call dt m)) (b_mtan (demo_call dt m)) (b_m (demo_call dt m)) i)) iHistLbH 1) 0) [0]]).
    { apply (f_equal (option_map fst)) in EU. cbn [option_map fst] in EU. cbn [so_x echo] in EU. clear - EU. symmetry. exact (some_inj EU). }
    pose proof (f_equal (fun l => get l 0) EH) as E0. cbv beta in E0. rewrite EHu in E0. rewrite !get_sub in E0 by lia.
    unfold h1_getHn in E0. cbn [get nth] in E0.
    unfold pt_of, pt_at in E0. cbn [pt_hist] in E0.
    pose proof (vin _ _ _ i G Hi AH 13) as V1. pose proof (vout _ _ _ i G Hi AH 13) as V2.
    unfold cell_of in V1, V2. unfold iHistLbH in E0. cbn [Nat.add] in E0.
    rewrite V1, V2 in E0 by (cbn; lia). specialize (H2 i Hi).
    change (val demo_s m AH i 13) with (val (b_s (demo_call dt m)) (b_m (demo_call dt m)) AH i 13) in H2.
    change (0 < val (b_s (demo_call dt m)) (b_m1 (demo_call dt m)) AH i 13). rewrite E0.
    change (@nadd R RNum) with Rplus. change (@nmul R RNum) with Rmult. change (get [0] 0) with 0. lra.
Qed.

(** a history of any length: the buffers are handed from call to call *)
Fixpoint demo_hist (dts : list R) (m : Mem R) : list BCall :=
  match dts with
  | [] => []
  | dt :: r => demo_call dt m :: demo_hist r (b_m1 (demo_call dt m))
  end.
Lemma demo_chain bufs dts : forall m, demo_pos m -> chain echo demo_c bufs (demo_hist dts m).
Proof.
  induction dts as [|dt r IH]; intros m H; cbn [demo_hist chain]; [exact I|].
  split; [now apply demo_good|]. split; [|apply IH; now apply demo_next].
  destruct r; cbn [demo_hist]; [exact I|]. split; [reflexivity|]. split; [reflexivity|]. reflexivity.
Qed.
Lemma demo_m_pos : demo_pos demo_m.
Proof.
  split; [reflexivity|]. intros i Hi. unfold val. rewrite demo_strides. destruct i as [|[|i]]; [| |lia]; cbn; lra.
Qed.

(** the same buffers without deformation rate: only volume work *)
Definition demo_m0 : Mem R := fun a => match a with AD => [0; 0; 0; 0; 0; 0; 0; 0; 0; 0; 0; 0; 0; 0] | _ => demo_m a end.
Lemma demo_m0_pos : demo_pos demo_m0.
Proof.
  split; [intros a; now destruct a|]. intros i Hi. unfold val. rewrite demo_strides. destruct i as [|[|i]]; [| |lia]; cbn; lra.
Qed.
Lemma demo_vals (m : Mem R) : (forall a, a <> AD -> m a = demo_m a) ->
  (forall i, (i < 2)%nat -> 0 < vNew demo_s m i) /\ (forall i, (i < 2)%nat -> norm2 (quat demo_s m i) <> 0) /\
  eInt demo_s m 0 = 1 /\ delv demo_s m 0 = / 10 /\ pres demo_s m 0 = 1.
Proof.
  intros H. unfold vNew, quat, eInt, delv, pres, val. rewrite demo_strides.
  repeat split; try (intros i Hi; destruct i as [|[|i]]; [| |lia]); rewrite !H by discriminate; cbn; unfold norm2; cbn; lra.
Qed.
Lemma demo_e1 dt : eInt demo_s (b_m1 (demo_call dt demo_m0)) 0 = 9 / 10.
Proof.
  pose proof (call_energy _ _ _ 0%nat (demo_good dt demo_m0 demo_m0_pos) ltac:(cbn; lia)) as E.
  change (b_s (demo_call dt demo_m0)) with demo_s in E. change (b_m (demo_call dt demo_m0)) with demo_m0 in E. rewrite E.
  unfold work. cbv zeta. change (b_s (demo_call dt demo_m0)) with demo_s. change (b_m (demo_call dt demo_m0)) with demo_m0.
  destruct (demo_vals demo_m0) as (_ & _ & -> & -> & ->); [intros a Ha; now destruct a|].
  assert (D : devRate demo_s demo_m0 0 = Z3).
  { unfold devRate, sym6, val. rewrite demo_strides. reflexivity. }
  rewrite D. assert (I : forall A, inner A Z3 = 0) by (intros A; unfold inner, Z3; cbn; ring). rewrite !I. lra.
Qed.
