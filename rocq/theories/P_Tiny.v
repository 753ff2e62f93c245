(** Rotation increments that are not zero but at most 1e-90: corresponding answers of the solvers give orientations that do not
    correspond (C22). *)
From Coq Require Import List ZArith Bool Lia PeanoNat Reals Lra String.
From Verif Require Import Num Arr NumR Util SlipGeom Eos Hard KinVoce KinKMBalD Elast Evptn MatModel Cases SpecTensor
  SpecElast SpecSlip P_Tensor P_Elast P_Eos P_Sngl P_Sngl2 P_Sngl3 P_Batch P_Batch2 P_Batch3 P_Batch4 P_Api P_Builtin SpecApi P_Hist SpecStress P_Stress
  SpecKin SpecKinApi SpecStep SpecEnergy P_KinV P_Hard P_Kin4 P_Call P_Slip P_SlipH P_Demo P_Demo2 P_Demo3 P_Step P_Step2 P_Step3 P_Energy P_Rest P_Rigid P_Rigid2 P_Rigid3 P_Rigid4 P_Demo4 P_Demo7 SpecSlow P_Slow P_Demo10
  SpecJac SpecFrame P_Frame P_Frame2 SpecSym P_Sym3 P_Sym10 P_Demo11.
Import ListNotations.
Local Open Scope R_scope.

(** a solver that always answers [x] *)
Definition fixed (x : list R) : Solver R := fun _ _ _ _ _ => {| so_converged := true; so_x := x; so_xlast := x; so_nfev := 1; so_nfev_rj := 1 |}.

Lemma fixed_good x m : batch_ok (d2_c checked) (d2_s checked) false 1 m -> slow checked (d2_c checked) demo_pars (d2_s checked) m 0 ->
  good checked (d2_c checked) (call_of (d2_c checked) (d2_s checked) (fixed x) noLU false 1 (/ 10) m).
Proof.
  intros HO HR. pose proof (d2_builtin checked) as HB. pose proof (d2_in_use checked) as U. pose proof (d2_complete checked) as HC.
  destruct (d4_systems checked) as (md & sd & HSys). pose proof (d4_pd checked) as HPD.
  set (c := d2_c checked) in *. set (s := d2_s checked) in *. clearbody s.
  destruct (in_use_all checked c s demo_pars HB U) as (_ & HL & _ & sg & kin & hi & E1 & E2 & _).
  destruct (gmod_pd checked c demo_pars HB HL HPD) as [g Hg].
  destruct (builtin_parts checked c HB) as (Z1 & Z2 & _).
  pose proof (Z1 _ _ E1) as Hns. destruct (Z2 _ _ _ E2) as [HnH _].
  assert (NH : c_nH c = 1%nat) by reflexivity. rewrite NH in HnH.
  apply (good_intro checked c s demo_pars HB U HC (fixed x) noLU 1 (/ 10) m HO sg kin hi E1 E2 Hns HnH g Hg).
  intros i Hi. assert (i = 0%nat) by lia. subst i. assert (A1 : 0 < / 10) by lra.
  destruct (slow_point checked c s demo_pars HB HL false 1 (/ 10) m 0 HO Hi md sd HSys checked_keeps A1 HR sg kin hi E1 E2) as ((nh & F1) & F2 & _).
  exists [kept c demo_pars (strength s m 0)], nh. split; [exact F1|]. split; [exact F2|]. reflexivity.
Qed.
(** orientation left by a call *)
Lemma fixed_rot x m : let b := call_of (d2_c checked) (d2_s checked) (fixed x) noLU false 1 (/ 10) m in
  good checked (d2_c checked) b -> rotq (quat (b_s b) (b_m1 b) 0) = mul3 (rotq (unit4 (quat (b_s b) (b_m b) 0))) (rotq (emap_to_quat (vecsVxa 3 r_scale (x_r x)))).
Proof.
  intros b G. assert (Hi : (0 < b_n b)%nat) by (cbn; lia).
  destruct (call_parts checked (d2_c checked) b 0 demo_pars G Hi (d2_in_use checked)) as (sg & kin & hi & h_u & v & nf & gm & _ & _ & _ & _ & _ & _ & _ & _ & Rs). cbv zeta in Rs.
  rewrite <- (quat_out checked (d2_c checked) b 0 G Hi). unfold quat_of. change (pt_hist (pt_of (d2_c checked) (b_s b) (b_mtan b) (b_m1 b) 0)) with (pt_hist (P_out (d2_c checked) b 0)).
  rewrite (r_Q _ _ _ _ _ _ _ _ _ _ _ _ _ _ Rs). clear Rs. unfold rotq at 1. rewrite quat_final_tensor by reflexivity. unfold stateFromX. cbn [snd]. unfold get_c_quat.
  match goal with |- toM3 (quat_to_tensor ?q) = _ => change (toM3 (quat_to_tensor q)) with (rotq q) end.
  rewrite rotq_prod by reflexivity. f_equal. f_equal.
  change (snglQuatN (pt_hist (P_in (d2_c checked) b 0)) = unit4 (quat (b_s b) (b_m b) 0)).
  unfold snglQuatN. rewrite <- (normalize_unit4 (quat (b_s b) (b_m b) 0)) by reflexivity. f_equal.
  exact (quat_in checked (d2_c checked) b 0 G Hi).
Qed.

Definition t_x : list R := [0; 0; 0; 0; 0; / 10 ^ 90; 0; 0].
Definition t_b : BCall := call_of (d2_c checked) (d2_s checked) (fixed t_x) noLU false 1 (/ 10) d10_m.
Definition t_b' : BCall := call_of (d2_c checked) (d2_s checked) (fixed (sym_map d11_S t_x)) noLU false 1 (/ 10) d11_m.
Definition t_th : R := / 100 * / 10 ^ 90.
Lemma t_small : 0 < t_th <= / 10 ^ 90.
Proof.
  unfold t_th. assert (P : 0 < / 10 ^ 90) by (apply Rinv_0_lt_compat, pow_lt; lra). set (e := / 10 ^ 90) in *. clearbody e. lra.
Qed.
Lemma t_map : sym_map d11_S t_x = [0; 0; 0; 0; 0; 0; - / 10 ^ 90; 0].
Proof.
  unfold sym_map, t_x. set (e := / 10 ^ 90). clearbody e. unfold d11_S. cbn [nth]. specR.
  unfold ofV3, mulv, tr3. cbn [a00 a01 a02 a10 a11 a12 a20 a21 a22 v0 v1 v2 app]. repeat (f_equal; [field_s|]). f_equal. field_s.
Qed.
Lemma scale_val : r_scale = / 100.
Proof. unfold r_scale. cbn [nlit RNum]. unfold Rlit. cbn. lra. Qed.
Lemma tiny_val : idp_tiny_sqrt = / 10 ^ 90.
Proof. exact tiny_R. Qed.
Lemma t_emap a0 a1 : vecNorm 3 [a0; a1; 0] = t_th -> emap_to_quat [a0; a1; 0] = [cos (t_th / 2); sin (t_th / 2); 0; 0].
Proof.
  intros E. unfold emap_to_quat. change emapdim with 3%nat. rewrite E, tiny_val. pose proof t_small as [T1 T2]. change (nltb (/ 10 ^ 90) t_th) with (Rltb (/ 10 ^ 90) t_th).
  unfold Rltb. destruct Rlt_dec as [H|_]; [lra|]. unfold inv_to_quat. cbn [get nth]. change (nlit 5 (-1)) with (Rlit 5 (-1)).
  replace (t_th * Rlit 5 (-1)) with (t_th / 2) by (unfold Rlit; cbn; lra).
  change (ncos (t_th / 2)) with (cos (t_th / 2)). change (nsin (t_th / 2)) with (sin (t_th / 2)). unfold vecsVxa, sub, tab. cbn. rops. rewrite !Rmult_1_r, !Rmult_0_r. replace (t_th * (5 / 10)) with (t_th / 2) by lra. reflexivity.
Qed.

Lemma t_norm : vecNorm 3 [/ 100 * / 10 ^ 90; 0; 0] = t_th /\ vecNorm 3 [0; / 100 * - / 10 ^ 90; 0] = t_th.
Proof.
  pose proof t_small as [T1 _]. unfold t_th in *. set (e := / 10 ^ 90) in *. clearbody e.
  split; (transitivity (sqrt (/ 100 * e * (/ 100 * e))); [|apply sqrt_square; lra]); unfold vecNorm; rarr; rops; change (nsqrt : R -> R) with sqrt; f_equal; rops; ring.
Qed.
Lemma t_rot : exists C, rotq (quat (b_s t_b) (b_m1 t_b) 0) = mul3 C (rotq [cos (t_th / 2); sin (t_th / 2); 0; 0]) /\
  rotq (quat (b_s t_b') (b_m1 t_b') 0) = mul3 (mul3 C d11_S) (rotq [cos (t_th / 2); sin (t_th / 2); 0; 0]) /\ is_rot C.
Proof.
  pose proof (fixed_good t_x d10_m (d10_batch checked) (d10_slow checked)) as G. pose proof (fixed_good (sym_map d11_S t_x) d11_m (d11_batch checked) d11_slow) as G'.
  pose proof (fixed_rot _ _ G) as E. pose proof (fixed_rot _ _ G') as E'. fold t_b in E. fold t_b' in E'.
  destruct d11_rotates as (C & R1 & R2). exists C. destruct t_norm as [N1 N2].
  assert (X1 : vecsVxa 3 r_scale (x_r t_x) = [/ 100 * / 10 ^ 90; 0; 0]).
  { rewrite scale_val. unfold t_x. set (e := / 10 ^ 90). clearbody e. unfold vecsVxa, x_r, tab. cbn. rops. repeat (f_equal; try ring). }
  assert (X2 : vecsVxa 3 r_scale (x_r (sym_map d11_S t_x)) = [0; / 100 * - / 10 ^ 90; 0]).
  { rewrite scale_val, t_map. set (e := / 10 ^ 90). clearbody e. unfold vecsVxa, x_r, tab. cbn. rops. repeat (f_equal; try ring). }
  rewrite X1, (t_emap _ _ N1) in E. rewrite X2, (t_emap _ _ N2) in E'.
  change (quat (b_s t_b) (b_m t_b) 0) with (quat (d2_s checked) d10_m 0) in E. change (quat (b_s t_b') (b_m t_b') 0) with (quat (d2_s checked) d11_m 0) in E'.
  assert (L4 : forall m, List.length (unit4 (quat (d2_s checked) m 0)) = 4%nat) by reflexivity.
  rewrite <- (rotates_rotq _ C (L4 _) R1) in E. rewrite <- (rotates_rotq _ _ (L4 _) R2) in E'. split; [exact E|]. split; [exact E'|].
  rewrite (rotates_rotq _ C (L4 _) R1). destruct (unit4_unit (quat (d2_s checked) d10_m 0) eq_refl) as [U1 U2]; [exact (proj1 (proj2 (proj2 (proj2 (proj2 (d10_slow checked))))))|]. exact (rotq_rot _ U1 U2).
Qed.
Lemma t_differ sg ep : ~ equivalent_out (d2_c checked) d11_S sg ep t_b 0 t_b' 0.
Proof.
  intros (_ & (C1 & R1 & R2) & _). destruct t_rot as (C & E & E' & O). apply rotates_rotq in R1; [|reflexivity]. apply rotates_rotq in R2; [|reflexivity].
  rewrite <- R1 in E. rewrite <- R2 in E'. rewrite E in E'. clear R1 R2 E.
  set (Rt := rotq [cos (t_th / 2); sin (t_th / 2); 0; 0]) in *.
  assert (K : mul3 Rt d11_S = mul3 d11_S Rt).
  { destruct O as [[O1 O2] _]. apply (f_equal (mul3 (tr3 C))) in E'. rewrite !mul3_assoc in E'. 
    rewrite <- !(mul3_assoc (tr3 C) C), O2, !mul3_1l in E'. exact E'. }
  apply (f_equal a02) in K. unfold Rt in K. rewrite rotq_form in K. unfold mul3, d11_S in K. cbn [a00 a01 a02 a10 a11 a12 a20 a21 a22] in K.
  assert (Z : 2 * sin (t_th / 2) * cos (t_th / 2) = 0) by lra. rewrite <- sin_2a in Z. replace (2 * (t_th / 2)) with t_th in Z by lra.
  pose proof t_small as [T1 T2]. assert (B : / 10 ^ 90 <= 1) by (rewrite <- Rinv_1; apply Rinv_le_contravar; [lra|apply pow_R1_Rle; lra]).
  assert (0 < sin t_th); [|lra]. apply sin_gt_0; [exact T1|]. pose proof PI_RGT_0. pose proof PI2_1. lra.
Qed.
Lemma in_ext c S sg ep b b' u u' s s' m m' : b_s u = s -> b_m u = m -> b_s u' = s' -> b_m u' = m' -> b_s b = s -> b_m b = m -> b_s b' = s' -> b_m b' = m' ->
  equivalent_in c S sg ep b 0 b' 0 -> equivalent_in c S sg ep u 0 u' 0.
Proof. intros A1 A2 A3 A4 A5 A6 A7 A8 H. unfold equivalent_in in *. rewrite A1, A2, A3, A4. rewrite A5, A6, A7, A8 in H. exact H. Qed.
Lemma t_equiv sg ep : equivalent_in (d2_c checked) d11_S sg ep t_b 0 t_b' 0.
Proof.
  refine (in_ext _ _ _ _ d11_b d11_b' t_b t_b' (d2_s checked) (d2_s checked) d10_m d11_m _ _ _ _ _ _ _ _ (d11_equiv sg ep)).
  all: reflexivity.
Qed.
Lemma t_range : 0 < norm3 (trial_rot t_x) <= / 10 ^ 90.
Proof.
  replace (norm3 (trial_rot t_x)) with t_th; [exact t_small|]. pose proof t_small as [T1 _]. symmetry. 
  unfold trial_rot, t_x, scalv, norm3, dotv. cbn [nth v0 v1 v2]. unfold t_th in *. set (e := / 10 ^ 90) in *. clearbody e.
  transitivity (sqrt (/ 100 * e * (/ 100 * e))); [f_equal; field|apply sqrt_square; lra].
Qed.
