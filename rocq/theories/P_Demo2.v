(** Concrete successful calls of the built-in model with linear Voce hardening with any solver for the hardness
    update that converges: used to show that hypotheses on the solvers can be met. *)
From Coq Require Import List ZArith Bool Lia PeanoNat Reals Lra String.
From Verif Require Import Num Arr NumR Util SlipGeom Eos Hard KinVoce KinKMBalD Elast Evptn MatModel Cases SpecTensor
  P_Tensor P_Eos P_Sngl P_Sngl2 P_Sngl3 P_Batch P_Batch2 P_Batch3 P_Api P_Builtin SpecApi P_Hist P_Slip P_Batch4 P_Demo SpecKin P_KinV P_Hard P_Call.
Import ListNotations.
Local Open Scope R_scope.

(** one Newton step, reported as converged only if the residual is then within the tolerance *)
Definition newton1 : Solver R := fun n rj tol it x0 =>
  let x := match n with 1%nat => [nth 0 x0 0 - nth 0 (fst (rj x0)) 0 / nth 0 (snd (rj x0)) 1] | _ => x0 end in
  {| so_converged := forallb (fun i => Rleb (Rabs (nth i (fst (rj x)) 0)) tol) (seq 0 n);
     so_x := x; so_xlast := x; so_nfev := 2; so_nfev_rj := 3 |}.
Lemma newton1_accurate : accurate newton1.
Proof.
  intros n rj tol it x0 H i Hi. unfold newton1 in *. cbn [so_converged so_x] in *. rewrite forallb_forall in H.
  apply Rleb_true. apply H. apply in_seq. lia.
Qed.
(** a solver that offers [g] and reports convergence only if the residual is within the tolerance *)
Definition offer (g : list R) : Solver R := fun n rj tol it x0 =>
  {| so_converged := forallb (fun i => Rleb (Rabs (nth i (fst (rj g)) 0)) tol) (seq 0 n);
     so_x := g; so_xlast := g; so_nfev := 1; so_nfev_rj := 2 |}.
Lemma offer_accurate g : accurate (offer g).
Proof.
  intros n rj tol it x0 H i Hi. unfold offer in *. cbn [so_converged so_x] in *. rewrite forallb_forall in H.
  apply Rleb_true. apply H. apply in_seq. lia.
Qed.

Section D2.
  Variable hs : Solver R.
  Definition d2_c : MClass R := cls_FCC_A hs.
  Definition d2_s : MM R := fst (mm_run d2_c (mm_new d2_c) [OInit [] demo_pars []; OComplete]).
  Definition d2_v : Voce R := voce_setParams false (sub demo_pars 6 9).
  Lemma d2_builtin : builtin hs d2_c.
  Proof. left. reflexivity. Qed.
  Lemma d2_reach : reachable d2_c d2_s.
  Proof. apply reach_default. Qed.
  Lemma d2_init : exists s1, mm_init d2_c (mm_new d2_c) [] demo_pars [] = (Done, s1).
  Proof.
    destruct (@geom_fcc) as (g & Hg & _).
    eapply (init_done_conv d2_c (mm_new d2_c) [] demo_pars []
      {| pa_sg := g; pa_el := c_elSet d2_c (sub demo_pars 3 3); pa_kin := voce_kinetics hs d2_v 12;
         pa_hist := voce_histInfo d2_v; pa_bulk := 1 / 3 * (3 + 2 * 1) |}).
    - repeat split; cbn; lia.
    - refine (conj Hg (conj eq_refl (conj eq_refl _))).
      cbn [pa_el pa_bulk d2_c cls_FCC_A c_elSet]. unfold el_getBulkMod, cubic_setParams, demo_pars. cbn [el_K_bulkMod]. rarr.
      destruct (Rleb (1 / 3 * (3 + 2 * 1)) 0) eqn:E; [apply Rleb_true in E; lra|reflexivity].
    - reflexivity.
  Qed.
  Lemma d2_in_use : in_use d2_c d2_s demo_pars.
  Proof.
    destruct d2_init as [s1 H].
    assert (E : d2_s = fst (mm_run d2_c s1 [OComplete])).
    { unfold d2_s. rewrite mm_run_cons. cbn [mm_step]. rewrite H. reflexivity. }
    rewrite E. econstructor; [exact (reach_default d2_c [])|exact H|]. repeat constructor.
  Qed.
  Lemma d2_complete : mm_complete d2_s = true.
  Proof. unfold d2_s. now rewrite run_complete. Qed.
  Lemma d2_strides : mm_strides d2_s = [7; 3; 4; 1; 7; 26; 1; 2]%nat.
  Proof. unfold d2_s. now rewrite run_strides. Qed.
  Lemma d2_ready : exists sg, c_sgSet d2_c (sub demo_pars 3 (c_sgNP d2_c)) = Some sg /\ sg_nslip sg = 12%nat /\
    mm_ready d2_s = Some (mat_of d2_c demo_pars sg (voce_kinetics hs d2_v 12), /100).
  Proof.
    destruct (in_use_all hs d2_c d2_s demo_pars d2_builtin d2_in_use) as (_ & _ & _ & sg & kin & hi & E1 & E2 & E3).
    exists sg. split; [assumption|]. split; [exact (fill_nslip _ _ _ _ E1)|].
    assert (EK : kin = voce_kinetics hs d2_v 12).
    { apply (f_equal (option_map fst)) in E2. cbn [option_map fst] in E2.
      change (Some (voce_kinetics hs d2_v 12) = Some kin) in E2. congruence. }
    rewrite <- EK. exact E3.
  Qed.
  Lemma d2_gmod : exists g, el_getGmod (el_of d2_c demo_pars) = Some g.
  Proof. exact demo_gmod. Qed.

  Variables (bs : Solver R) (n : nat) (dt : R) (m : Mem R).
  Hypothesis HO : batch_ok d2_c d2_s false n m.
  Definition d2_rates (i : nat) : list R := tab 12 (fun k => val d2_s m AH i (14 + k)).
  Hypothesis HU : forall i, (i < n)%nat -> exists h nh,
    voce_updateH hs d2_v 12 [val d2_s m AH i 13] dt (d2_rates i) = Some ([h], nh) /\ 0 < h /\
    forall sg, c_sgSet d2_c (sub demo_pars 3 (c_sgNP d2_c)) = Some sg ->
    so_converged (bs 8%nat (computeRJ (snglProb (mat_of d2_c demo_pars sg (voce_kinetics hs d2_v 12)) dt
       (cell_of d2_c d2_s false m AD i) (cell_of d2_c d2_s false m AW i) (cell_of d2_c d2_s false m AV i) (pt_of d2_c d2_s false m i) [h]))
       (/100) 200%nat (tab 8 (fun _ => 0))) = true.
  Definition d2_call : BCall :=
    {| b_s := d2_s; b_solver := bs; b_lu := noLU; b_dt := dt; b_mtan := false; b_n := n; b_m := m;
       b_m1 := snd (mm_getResponse bs noLU d2_c d2_s dt false (Z.of_nat n) m) |}.
  Lemma d2_good : good hs d2_c d2_call.
  Proof.
    refine (conj d2_builtin (conj d2_reach (conj HO _))). cbn [d2_call b_n b_solver b_lu b_s b_dt b_mtan b_m b_m1].
    destruct d2_ready as (sg & Eg & Hsg & HM).
    destruct (api_batch d2_c d2_s bs noLU dt false n m _ _ d2_reach d2_complete HM HO) as (o & m1 & E & _ & P).
    rewrite E. cbn [snd]. f_equal. f_equal. cbv zeta in P.
    assert (G : forall i, (i < n)%nat -> fst (getResponseSngl bs noLU (mat_of d2_c demo_pars sg (voce_kinetics hs d2_v 12)) dt (/100)
       (cell_of d2_c d2_s false m AD i) (cell_of d2_c d2_s false m AW i)
       (cell_of d2_c d2_s false m AV i) (pt_of d2_c d2_s false m i)) = Done).
    { intros i Hi. destruct d2_gmod as [g Hg]. destruct (HU i Hi) as (h & nh & E1 & E2 & E3). specialize (E3 sg Eg).
      assert (V : forall k, (k < 26)%nat -> get (pt_hist (pt_of d2_c d2_s false m i)) k = val d2_s m AH i k).
      { intros k Hk. unfold pt_of, pt_at. cbn [pt_hist]. apply (cell_val d2_c d2_s false n m AH i k); [apply HO|assumption|]. cbn. lia. }
      assert (L : List.length (pt_hist (pt_of d2_c d2_s false m i)) = 26%nat).
      { exact (P_Batch4.cell_len d2_c false d2_s n m AH i HO Hi). }
      destruct (sngl_succeeds bs noLU (mat_of d2_c demo_pars sg (voce_kinetics hs d2_v 12)) dt (/100)
       (cell_of d2_c d2_s false m AD i) (cell_of d2_c d2_s false m AW i)
       (cell_of d2_c d2_s false m AV i) (pt_of d2_c d2_s false m i) [h] nh g) as [pt' E'].
      - cbn [m_kin mat_of m_sg voce_kinetics k_updateH k_nH]. rewrite Hsg, <- E1. f_equal.
        + apply list_get_ext; [rewrite sub_length by (rewrite L; cbn; lia); reflexivity|]. intros k Hk.
          rewrite sub_length in Hk by (rewrite L; cbn; lia). assert (k = 0%nat) by lia. subst k. rewrite get_sub by lia. apply V. cbn. lia.
        + apply list_get_ext; [rewrite sub_length by (rewrite L; cbn; lia); reflexivity|]. intros k Hk.
          rewrite sub_length in Hk by (rewrite L; cbn; lia). unfold d2_rates. rewrite get_sub, get_tab by lia. apply V. cbn. lia.
      - cbn [m_kin mat_of voce_kinetics k_valsOk]. unfold voce_valsOk. cbn [get nth]. apply Rltb_true. exact E2.
      - exact E3.
      - reflexivity.
      - exact Hg.
      - rewrite E'. reflexivity. }
    destruct o; [reflexivity| |]; destruct P as (k & Hk & P & _); specialize (G k Hk); rewrite P in G; discriminate.
  Qed.
End D2.

(** ** with the checked Newton step as hardness solver: two points that slipped *)
Definition d2_h (q h g : list R) : list R := [0; 0; 0; 0; 0; 0; 0; 0; 0] ++ q ++ h ++ g.
Definition d2_m : Mem R := fun a =>
  match a with
  | AH => d2_h [1; 0; 0; 0] [1] [1; 0; -1; 0; 0; 0; 0; 0; 0; 0; 0; 2] ++ d2_h [1; 2; 0; 0] [2] [0; 0; 0; 0; 0; 0; 0; 0; 0; 0; 0; 0]
  | _ => demo_m a
  end.
Lemma d2_batch hs : batch_ok (d2_c hs) (d2_s hs) false 2 d2_m.
Proof.
  split.
  - rewrite d2_strides. split; [|discriminate]. intros a Ha. destruct a; reflexivity.
  - rewrite d2_strides. intros a i Hi Hp. destruct i as [|[|i]]; [| |lia]; destruct a; cbn in *; lia.
Qed.

(** the Newton step solves the linear Voce update *)
Lemma newton1_voce (v : Voce R) n g ho dt : v_nonlinear v = false -> List.length g = n -> 0 < v_gamss0 v -> 0 <= v_h0 v -> 0 <= dt -> 
  exists h nh, voce_updateH newton1 v n [ho] dt g = Some ([h], nh) /\
  implicit_step (voce_hardening (v_h0 v) (v_tausi v) (voce_sat (v_taus0 v) (v_gamss0 v) (v_xms v) (shear_sum g)) (shear_sum g)) dt ho h.
Proof.
  intros NL HL HG H0 HD. unfold voce_updateH. rewrite (voce_evol v n g HL HG). cbn [get nth].
  set (shr := shear_sum g). set (sat := voce_sat _ _ _ _).
  assert (PS : 0 <= shr) by apply shear_nonneg.
  set (sd := voce_getSdot1 v (shr, sat)).
  assert (ES : forall h, sd h = (voce_hardening (v_h0 v) (v_tausi v) sat shr h, if Rle_dec sat (v_tausi v) then 0 else - (v_h0 v / (sat - v_tausi v) * shr))).
  { intros h. unfold sd. now apply voce_sdot. }
  pose proof (h1_scale_pos ho) as SP.
  assert (EF : fst (h1_computeRJ sd ho dt [0]) = [Fi (fun h => fst (sd h)) dt ho (h1_getHn ho [0]) / h1_x_scale ho]) by apply h1_residual.
  assert (EH : forall x, h1_getHn ho [x] = ho + x * h1_x_scale ho) by reflexivity.
  set (J := 1 - (if Rle_dec sat (v_tausi v) then 0 else - (v_h0 v / (sat - v_tausi v) * shr)) * dt).
  assert (EJ : snd (h1_computeRJ sd ho dt [0]) = [J]).
  { unfold h1_computeRJ. rewrite ES. reflexivity. }
  assert (PJ : 0 < J).
  { unfold J. destruct Rle_dec as [A|A]; [lra|]. 
    assert (0 <= v_h0 v / (sat - v_tausi v)). { apply Rmult_le_pos; [assumption|]. left. apply Rinv_0_lt_compat. lra. }
    pose proof (Rmult_le_pos _ _ (Rmult_le_pos _ _ H PS) HD). lra. }
  set (x1 := 0 - Fi (fun h => fst (sd h)) dt ho (ho + 0 * h1_x_scale ho) / h1_x_scale ho / J).
  assert (R0 : Fi (fun h => fst (sd h)) dt ho (ho + x1 * h1_x_scale ho) = 0).
  { unfold x1, J, Fi. rewrite !ES. cbn [fst]. unfold voce_hardening. destruct (Rle_dec sat (v_tausi v)) as [A|A].
    - field. lra.
    - unfold J in PJ. destruct (Rle_dec sat (v_tausi v)); [contradiction|].
      assert (D : sat - v_tausi v <> 0) by lra. set (q := v_h0 v / (sat - v_tausi v) * shr) in *.
      assert (EQ : forall z, v_h0 v * ((sat - z) / (sat - v_tausi v)) * shr = q * (sat - z)) by (intros z; unfold q; field; assumption).
      rewrite !EQ. field. split; lra. }
  exists (ho + x1 * h1_x_scale ho), 2%nat. split.
  - unfold updateH1, newton1. cbn [so_converged so_x so_nfev seq forallb]. rops.
    change (nth 0 [0] 0) with 0. rewrite EF, EJ. cbn [nth]. rewrite EH. fold x1.
    rewrite h1_residual. cbn [nth]. rewrite EH, R0.
    replace (0 / h1_x_scale ho) with 0 by (unfold Rdiv; ring). rewrite Rabs_R0.
    destruct (Rleb 0 _) eqn:E; [reflexivity|]. apply Rleb_false in E. exfalso. 
    assert (0 < nlit 1 (-10)). { cbn. lra. } rops. lra.
  - unfold implicit_step. unfold Fi in R0. rewrite ES in R0. cbn [fst] in R0. lra.
Qed.
