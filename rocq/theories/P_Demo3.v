(** When a call succeeds, for any built-in model; concrete successful calls of the dislocation-density model. *)
From Coq Require Import List ZArith Bool Lia PeanoNat Reals Lra String.
From Verif Require Import Num Arr NumR Util SlipGeom Eos Hard KinVoce KinKMBalD Elast Evptn MatModel Cases SpecTensor
  P_Tensor P_Eos P_Sngl P_Sngl2 P_Sngl3 P_Batch P_Batch2 P_Batch3 P_Api P_Builtin SpecApi P_Hist P_Slip P_Batch4 P_Demo SpecKin P_KinV P_Hard P_Call
  P_Demo2 SpecKinApi.
Import ListNotations.
Local Open Scope R_scope.

Definition call_of (c : MClass R) (s : MM R) (bs : Solver R) (lu : LUSolver R) (mtan : bool) (n : nat) (dt : R) (m : Mem R) : BCall :=
  {| b_s := s; b_solver := bs; b_lu := lu; b_dt := dt; b_mtan := mtan; b_n := n; b_m := m;
     b_m1 := snd (mm_getResponse bs lu c s dt mtan (Z.of_nat n) m) |}.
Section Intro.
  Variables (hs : Solver R) (c : MClass R) (s : MM R) (pars : list R).
  Hypothesis HB : builtin hs c.
  Hypothesis U : in_use c s pars.
  Hypothesis HC : mm_complete s = true.
  Variables (bs : Solver R) (lu : LUSolver R) (n : nat) (dt : R) (m : Mem R).
  Hypothesis HO : batch_ok c s false n m.
  Variables (sg : SlipGeom R) (kin : Kinetics R) (hi : list (HistEntry R)).
  Hypothesis E1 : c_sgSet c (sub pars 3 (c_sgNP c)) = Some sg.
  Hypothesis E2 : c_kinSet c (sub pars (3 + c_sgNP c + c_elNP c) (c_kinNP c)) = Some (kin, hi).
  Hypothesis Hns : sg_nslip sg = c_nslip c.
  Hypothesis HnH : k_nH kin = 1%nat.
  Variable g : R.
  Hypothesis Hg : el_getGmod (el_of c pars) = Some g.
  Let mat := mat_of c pars sg kin.
  Hypothesis HU : forall i, (i < n)%nat -> exists h nh,
    k_updateH kin [strength s m i] dt (slip_rates c s m i) = Some (h, nh) /\
    k_valsOk kin (u_press (snglUpd mat (cell_of c s false m AV i) (pt_eInt (pt_of c s false m i)) (pt_stress (pt_of c s false m i))))
      (snglTkelv mat (cell_of c s false m AV i) (pt_eInt (pt_of c s false m i))) h = true /\
    so_converged (bs 8%nat (computeRJ (snglProb mat dt (cell_of c s false m AD i) (cell_of c s false m AW i) (cell_of c s false m AV i) (pt_of c s false m i) h))
       (nth 2 pars 0) 200%nat (tab 8 (fun _ => 0))) = true.
  Lemma good_intro : good hs c (call_of c s bs lu false n dt m).
  Proof.
    destruct (in_use_all hs c s pars HB U) as (HR & _ & _ & sg' & kin' & hi' & E1' & E2' & HM).
    refine (conj HB (conj HR (conj HO _))). cbn [call_of b_n b_solver b_lu b_s b_dt b_mtan b_m b_m1].
    rewrite E1 in E1'. apply some_inj in E1'. subst sg'. rewrite E2 in E2'.
    assert (EK : kin' = kin) by (apply (f_equal (option_map fst)) in E2'; cbn [option_map fst] in E2'; clear - E2'; congruence).
    subst kin'. clear E2' hi'.
    destruct (api_batch c s bs lu dt false n m _ _ HR HC HM HO) as (o & m1 & E & _ & P).
    rewrite E. cbn [snd]. f_equal. f_equal. cbv zeta in P.
    assert (NH : c_nH c = 1%nat) by (destruct HB as [ -> | [ -> | [ -> | [ -> | [ -> | [ -> | -> ]]]]]]; reflexivity).
    assert (G : forall i, (i < n)%nat -> fst (getResponseSngl bs lu mat dt (nth 2 pars 0)
       (cell_of c s false m AD i) (cell_of c s false m AW i) (cell_of c s false m AV i) (pt_of c s false m i)) = Done).
    { intros i Hi. destruct (HU i Hi) as (h & nh & F1 & F2 & F3).
      assert (V : forall k, (k < 14 + c_nslip c)%nat -> get (pt_hist (pt_of c s false m i)) k = val s m AH i k).
      { intros k Hk. unfold pt_of, pt_at. cbn [pt_hist]. apply (cell_val c s false n m AH i k); [apply HO|assumption|]. cbn. unfold numHist, iHistLbH. lia. }
      assert (L : List.length (pt_hist (pt_of c s false m i)) = (14 + c_nslip c)%nat).
      { pose proof (P_Batch4.cell_len c false s n m AH i HO Hi) as L. cbn [per_point] in L. unfold numHist, iHistLbH in L. rewrite NH in L. exact L. }
      destruct (sngl_succeeds bs lu mat dt (nth 2 pars 0)
       (cell_of c s false m AD i) (cell_of c s false m AW i) (cell_of c s false m AV i) (pt_of c s false m i) h nh g) as [pt' E'].
      - unfold mat. cbn [m_kin mat_of m_sg]. rewrite Hns, HnH, <- F1. unfold iHistLbGdot, iHistLbH. f_equal.
        + apply list_get_ext; [rewrite sub_length by (rewrite L; lia); reflexivity|]. intros k Hk.
          rewrite sub_length in Hk by (rewrite L; lia). assert (k = 0%nat) by lia. subst k. rewrite get_sub by lia. apply V. lia.
        + apply list_get_ext; [rewrite sub_length by (rewrite L; lia); unfold slip_rates; now rewrite map_length, seq_length|]. intros k Hk.
          rewrite sub_length in Hk by (rewrite L; lia). rewrite get_sub by lia. rewrite V by lia.
          change (slip_rates c s m i) with (tab (c_nslip c) (fun k => val s m AH i (14 + k))). rewrite get_tab by lia. reflexivity.
      - exact F2.
      - exact F3.
      - reflexivity.
      - exact Hg.
      - rewrite E'. reflexivity. }
    destruct o; [reflexivity| |]; destruct P as (k & Hk & P & _); specialize (G k Hk); unfold mat in G; rewrite P in G; discriminate.
  Qed.
End Intro.

(** ** dislocation-density model, one point that slipped; the hardness solver offers [x] and checks it *)
Definition d3_pars : list R := [3; 2; /100; 3; 1; 1] ++ [1; 1; 30; 0; 1; 1; 1; 1; 1; 1; 0; 2; 1; 0; 1; 1] ++ [17/10; -600].
Section D3.
  Variable hs : Solver R.
  Definition d3_c : MClass R := cls_FCC_B hs.
  Definition d3_s : MM R := fst (mm_run d3_c (mm_new d3_c) [OInit [] d3_pars []; OComplete]).
  Definition d3_k : KM R := km_setParams false false false false 1 (sub d3_pars 6 16).
  Lemma d3_builtin : builtin hs d3_c.
  Proof. right. right. left. reflexivity. Qed.
  Lemma d3_kin : c_kinSet d3_c (sub d3_pars 6 16) = Some (km_kinetics hs d3_k 12, km_histInfo d3_k).
  Proof. reflexivity. Qed.
  Lemma d3_init : exists s1, mm_init d3_c (mm_new d3_c) [] d3_pars [] = (Done, s1).
  Proof.
    destruct (@geom_fcc) as (g & Hg & _).
    eapply (init_done_conv d3_c (mm_new d3_c) [] d3_pars []
      {| pa_sg := g; pa_el := c_elSet d3_c (sub d3_pars 3 3); pa_kin := km_kinetics hs d3_k 12;
         pa_hist := km_histInfo d3_k; pa_bulk := 1 / 3 * (3 + 2 * 1) |}).
    - repeat split; cbn; lia.
    - refine (conj Hg (conj eq_refl (conj d3_kin _))).
      cbn [pa_el pa_bulk d3_c cls_FCC_B c_elSet]. unfold el_getBulkMod, cubic_setParams, d3_pars. cbn [el_K_bulkMod app]. rarr.
      destruct (Rleb (1 / 3 * (3 + 2 * 1)) 0) eqn:E; [apply Rleb_true in E; lra|reflexivity].
    - reflexivity.
  Qed.
  Lemma d3_in_use : in_use d3_c d3_s d3_pars.
  Proof.
    destruct d3_init as [s1 H].
    assert (E : d3_s = fst (mm_run d3_c s1 [OComplete])).
    { unfold d3_s. rewrite mm_run_cons. cbn [mm_step]. rewrite H. reflexivity. }
    rewrite E. econstructor; [exact (reach_default d3_c [])|exact H|]. repeat constructor.
  Qed.
  Lemma d3_complete : mm_complete d3_s = true.
  Proof. unfold d3_s. now rewrite run_complete. Qed.
  Lemma d3_strides : mm_strides d3_s = [7; 3; 4; 1; 7; 26; 1; 2]%nat.
  Proof. unfold d3_s. now rewrite run_strides. Qed.
End D3.
Definition d3_m (lo : R) (g : list R) : Mem R := fun a =>
  match a with
  | AH => d2_h [1; 0; 0; 0] [exp lo] g
  | _ => firstn (match a with AD => 7 | AW => 3 | AV => 4 | AE => 1 | AS => 7 | AT => 1 | AB => 2 | _ => 0 end) (demo_m a)
  end.
Lemma d3_batch hs lo g : List.length g = 12%nat -> batch_ok (d3_c hs) (d3_s hs) false 1 (d3_m lo g).
Proof.
  intros HL. split.
  - rewrite d3_strides. split; [|discriminate]. intros a Ha. destruct a; reflexivity.
  - rewrite d3_strides. intros a i Hi Hp. destruct i as [|i]; [|lia]; destruct a; cbn in *; lia.
Qed.
Definition d3_call (x lo : R) (g : list R) : BCall :=
  let hs := offer [x] in call_of (d3_c hs) (d3_s hs) echo noLU false 1 (/10) (d3_m lo g).
Lemma d3_rates hs lo g : List.length g = 12%nat -> slip_rates (d3_c hs) (d3_s hs) (d3_m lo g) 0 = g.
Proof.
  intros HL. unfold slip_rates, val. rewrite d3_strides. do 12 (destruct g as [|? g]; [discriminate|]). destruct g; [reflexivity|discriminate].
Qed.
(** logarithm [lo] of the old density between -1 and 1, shear rate [shr]; the new density is 1 *)
Lemma d3_good lo g : List.length g = 12%nat -> -1 <= lo <= 1 -> lo = - (/10 * shear_sum g) -> good (offer [- lo]) (d3_c (offer [- lo])) (d3_call (- lo) lo g).
Proof.
  intros HL HB HS. set (hs := offer [- lo]).
  destruct (@geom_fcc) as (sg & Hsg & Hns & _).
  destruct (demo_gmod) as [gm Hg].
  apply (good_intro hs (d3_c hs) (d3_s hs) d3_pars (d3_builtin hs) (d3_in_use hs) (d3_complete hs) echo noLU 1 (/10) (d3_m lo g) (d3_batch hs lo g HL)
    sg (km_kinetics hs (d3_k) 12) (km_histInfo d3_k) Hsg (d3_kin hs) Hns eq_refl gm Hg).
  intros i Hi. assert (i = 0%nat) by lia. subst i. exists [exp 0], 1%nat. refine (conj _ (conj _ eq_refl)).
  - cbn [km_kinetics k_updateH]. unfold km_updateH. rewrite (d3_rates hs lo g HL).
    rewrite (km_evol d3_k 12 g HL); [|unfold d3_k, km_setParams, d3_pars; cbn; lra].
    set (k2 := km_k2_at _ _ _ _). set (shr := shear_sum g) in *.
    assert (EK2 : k2 = 1).
    { unfold k2, km_k2_at, d3_k, km_setParams, d3_pars. cbn [km_k2o km_gamma_o km_ninv]. cbn.
      destruct Rlt_dec; [|reflexivity]. unfold Rpower. rewrite Rmult_0_l, exp_0. ring. }
    rewrite EK2.
    assert (EL : nlog (nmax (get [strength (d3_s hs) (d3_m lo g) 0] 0) (km_hdn_min d3_k)) = lo).
    { unfold strength, val. rewrite d3_strides. cbn. change (@nlog R RNum) with ln. change (@nmax R RNum) with Rmax.
      rewrite Rmax_left; [apply ln_exp|]. apply Rle_trans with (exp (-1)); [|destruct (Req_dec lo (-1)) as [ -> |]; [lra|left; apply exp_increasing; lra]].
      change (exp (-1)) with (exp (Ropp 1)). rewrite exp_Ropp. pose proof exp_le_3. assert (/ 3 <= / exp 1) by (apply Rinv_le_contravar; [apply exp_pos|lra]). lra. }
    rewrite EL. unfold updateH1, hs, offer. cbn [so_converged so_x so_nfev seq forallb]. rewrite h1_residual. cbn [nth].
    assert (EH : h1_getHn lo [- lo] = 0). { unfold h1_getHn, h1_x_scale. rarr. rewrite Rmax_right by lra. lra. }
    rewrite EH.
    assert (EF : Fi (fun h : R => fst (km_getSdot1 d3_k (shr, 1) h)) (/10) lo 0 = 0).
    { unfold Fi. rewrite km_sdot. cbn [fst]. unfold km_hardening, d3_k, km_setParams, d3_pars. cbn. rewrite exp_0, sqrt_1. lra. }
    rewrite EF. replace (0 / h1_x_scale lo) with 0 by (unfold Rdiv; ring). rewrite Rabs_R0.
    destruct (Rleb 0 _) eqn:E; [reflexivity|]. apply Rleb_false in E. exfalso.
    assert (0 < nlit 1 (-10)). { cbn. lra. } rops. lra.
  - cbn [km_kinetics k_valsOk]. unfold km_valsOk, d3_k, km_setParams, d3_pars. cbn [km_withGAthermal km_nVPer seq forallb].
    rewrite andb_true_r. apply Rltb_true. unfold km_getVals. cbn. lra.
Qed.
