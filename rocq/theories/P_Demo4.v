(** Concrete calls on an undeformed crystal: at rest, and spinning. *)
From Coq Require Import List ZArith Bool Lia PeanoNat Reals Lra String.
From Verif Require Import Num Arr NumR Util SlipGeom Eos Hard KinVoce KinKMBalD Elast Evptn MatModel Cases SpecTensor
  SpecElast SpecSlip P_Tensor P_Elast P_Eos P_Sngl P_Sngl2 P_Sngl3 P_Batch P_Batch2 P_Batch3 P_Batch4 P_Api P_Builtin SpecApi P_Hist SpecStress P_Stress
  SpecKin SpecKinApi SpecStep SpecEnergy P_KinV P_Hard P_Kin4 P_Call P_Slip P_SlipH P_Demo P_Demo2 P_Demo3 P_Step P_Step2 P_Step3 P_Energy P_Rest P_Rigid P_Rigid2 P_Rigid3 P_Rigid4.
Import ListNotations.
Local Open Scope R_scope.

Lemma rest_x0 s m dt i : spin s m i = mkV 0 0 0 -> rest_x s m dt i = tab 8 (fun _ => 0).
Proof. intros H. unfold rest_x, rigid_x. rewrite H. set (B := tr3 _). clearbody B. clear H. unfold scalv, tab. cbn [seq map]. un3. cbn [v0 v1 v2]. meq; ring. Qed.
Lemma echo_keeps : keeps_solution echo.
Proof. intros n rj tol it x0 _ _. repeat split. Qed.
(** returns the starting point, if it is an exact solution *)
Definition checked : Solver R := fun n rj tol it x0 => offer x0 n rj tol it x0.
Lemma checked_keeps : keeps_solution checked.
Proof.
  intros n rj tol it x0 Ht H. unfold checked, offer. cbn [so_converged so_x so_xlast]. split; [|split; reflexivity].
  apply forallb_forall. intros j Hj. apply in_seq in Hj. apply Rleb_true. rewrite H by lia. now rewrite Rabs_R0.
Qed.
Lemma checked_accurate : accurate checked.
Proof. intros n rj tol it x0. exact (offer_accurate x0 n rj tol it x0). Qed.
Lemma offer_last g : last_at_answer (offer g).
Proof. intros n rj tol it x0 _. reflexivity. Qed.

(** one point, orientation [q] (not of length one), strength 1, relative volume 11/10, spin [w], object of class FCC_A *)
Definition d4_m (w : list R) : Mem R := fun a =>
  match a with
  | AD => [0; 0; 0; 0; 0; 0; 3]
  | AW => w
  | AH => [0; 7; 0; 0; 0; 0; 0; 0; 0; 1; 2; 0; 0; 1; 0; 0; 0; 0; 0; 0; 0; 0; 0; 0; 0; 0]
  | _ => firstn (match a with AV => 4 | AE => 1 | AS => 7 | AT => 1 | AB => 2 | _ => 0 end) (demo_m a)
  end.
Lemma d4_batch hs w : List.length w = 3%nat -> batch_ok (d2_c hs) (d2_s hs) false 1 (d4_m w).
Proof.
  intros HL. split.
  - rewrite d2_strides. split; [|discriminate]. intros a Ha. destruct a; reflexivity.
  - rewrite d2_strides. intros a i Hi Hp. destruct i as [|i]; [|lia]; destruct a; cbn in *; lia.
Qed.
Lemma d4_systems hs : exists md sd, systems hs (d2_c hs) demo_pars md sd.
Proof. do 2 eexists. apply sys_F. now left. Qed.
Lemma d4_pd hs : pos_def (p_hooke (d2_c hs) demo_pars).
Proof. change (pos_def (hooke_cubic 3 1 1)). apply cubic_pd; lra. Qed.
Lemma d4_kept hs h : kept (d2_c hs) demo_pars h = h.
Proof. reflexivity. Qed.
Lemma d4_at_rest hs w : List.length w = 3%nat -> at_rest hs (d2_c hs) demo_pars (d2_s hs) (d4_m w) 0.
Proof.
  intros HL. unfold at_rest, devRate, dev_strain, vNew, quat, strength, eInt, delv, pres, val. rewrite d2_strides. cbn [nth Nat.mul Nat.add d4_m firstn demo_m map stride_of].
  split; [reflexivity|]. split; [apply ten5_0|]. split; [|split; [|split; [|split; [|split]]]].
  - intros k Hk. change (c_nslip (d2_c hs)) with 12%nat in Hk. do 12 (destruct k as [|k]; [reflexivity|]). lia.
  - cbn. lra.
  - unfold SpecTensor.norm2. cbn. lra.
  - cbn. lra.
  - apply unloaded_cubic; [reflexivity|cbn; lra].
  - do 2 eexists. apply law_V; [now left|]. cbn. lra.
Qed.
Definition d4_w : list R := [0; 3; 4].
Lemma d4_spin hs w : List.length w = 3%nat -> spin (d2_s hs) (d4_m w) 0 = mkV (nth 0 w 0) (nth 1 w 0) (nth 2 w 0).
Proof. intros. unfold spin, val. rewrite d2_strides. reflexivity. Qed.
Lemma d4_spins hs : / 10 ^ 90 < norm3 (scalv (/ 10) (spin (d2_s hs) (d4_m d4_w) 0)).
Proof.
  rewrite d4_spin by reflexivity. unfold scalv, norm3, d4_w. cbn [nth v0 v1 v2].
  replace (dotv _ _) with (/ 2 * / 2) by (unfold dotv; cbn; field). rewrite sqrt_square by lra.
  apply Rlt_trans with (/ 10 ^ 1); [apply Rinv_lt_contravar; [apply Rmult_lt_0_compat; apply pow10_pos|apply Rlt_pow; [lra|lia]]|cbn; lra].
Qed.
(** the solver of the crystal update offers the exact solution and checks it *)
Definition d4_call (w : list R) : BCall :=
  let s := d2_s checked in call_of (d2_c checked) s (offer (rest_x s (d4_m w) (/ 10) 0)) noLU false 1 (/ 10) (d4_m w).
Lemma d4_good w : List.length w = 3%nat -> / 10 ^ 90 < norm3 (scalv (/ 10) (spin (d2_s checked) (d4_m w) 0)) \/ spin (d2_s checked) (d4_m w) 0 = mkV 0 0 0 ->
  good checked (d2_c checked) (d4_call w).
Proof.
  intros HL HW. destruct (d4_systems checked) as (md & sd & HS).
  assert (A1 : 0 < / 10) by lra.
  assert (A2 : forall i, (i < 1)%nat -> at_rest checked (d2_c checked) demo_pars (d2_s checked) (d4_m w) i)
    by (intros i Hi; assert (i = 0%nat) by lia; subst i; now apply d4_at_rest).
  assert (A3 : forall i, (i < 1)%nat -> / 10 ^ 90 < norm3 (scalv (/ 10) (spin (d2_s checked) (d4_m w) i)) \/ spin (d2_s checked) (d4_m w) i = mkV 0 0 0)
    by (intros i Hi; assert (i = 0%nat) by lia; subst i; exact HW).
  assert (A4 : forall i, (i < 1)%nat -> forall rj it, (forall j, (j < 8)%nat -> nth j (fst (rj (rest_x (d2_s checked) (d4_m w) (/ 10) i))) 0 = 0) ->
    so_converged (offer (rest_x (d2_s checked) (d4_m w) (/ 10) 0) 8%nat rj (nth 2 demo_pars 0) it (tab 8 (fun _ => 0))) = true).
  { intros i Hi rj it HZ. assert (i = 0%nat) by lia. subst i.
    assert (T : 0 <= nth 2 demo_pars 0) by (cbn; lra). exact (proj1 (offer_finds _ rj _ it _ T HZ)). }
  exact (rest_good checked (d2_c checked) (d2_s checked) demo_pars (d2_builtin checked) (d2_in_use checked) (d2_complete checked) _ noLU 1 (/ 10) (d4_m w)
    (d4_batch checked w HL) md sd HS (d4_pd checked) checked_keeps A1 A2 A3 A4).
Qed.
