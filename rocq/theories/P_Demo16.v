(** Two calls of the hexagonal model on slowly deforming crystals of equivalent orientations (C22). *)
From Coq Require Import List ZArith Bool Lia PeanoNat Reals Lra String.
From Verif Require Import Num Arr NumR Util SlipGeom Eos Hard KinVoce KinKMBalD Elast Evptn MatModel Cases SpecTensor
  SpecElast SpecSlip P_Tensor P_Elast P_Eos P_Sngl P_Sngl2 P_Sngl3 P_Batch P_Batch2 P_Batch3 P_Batch4 P_Api P_Api2 P_Builtin SpecApi P_Hist SpecStress P_Stress
  SpecKin SpecKinApi SpecStep SpecEnergy P_KinV P_Hard P_Kin4 P_Call P_Slip P_SlipH P_Demo P_Demo2 P_Demo3 P_Step P_Step2 P_Step3 P_Energy P_Rest P_Rigid P_Rigid2 P_Rigid3 P_Rigid4 P_Demo4 P_Demo7 SpecSlow P_Slow P_Demo10
  SpecJac SpecFrame P_Frame P_Frame2 SpecSym P_Sym3 P_SymH P_Sym10 P_Demo11 P_Kin3.
Import ListNotations.
Local Open Scope R_scope.

(** a sixth of a turn about the c axis *)
Definition d16_S : M3 := mk3 (1 / 2) (- (sqrt 3 / 2)) 0  (sqrt 3 / 2) (1 / 2) 0  0 0 1.
Lemma d16_hex : hex_rot d16_S.
Proof.
  pose proof q3 as B. split; [|split].
  - unfold d16_S. set (b := sqrt 3) in *. clearbody b.
    split; [split; unfold mul3, tr3, I3; cbn [a00 a01 a02 a10 a11 a12 a20 a21 a22]; apply mk3_eq; nra|unfold det3; cbn [a00 a01 a02 a10 a11 a12 a20 a21 a22]; nra].
  - exists 1%Z, 1%Z. unfold d16_S, mulv, lin3, ha1, ha2, ha3. cbn [a00 a01 a02 a10 a11 a12 a20 a21 a22 v0 v1 v2]. f_equal; field.
  - exists (-1)%Z, 0%Z. unfold d16_S, mulv, lin3, ha1, ha2, ha3. cbn [a00 a01 a02 a10 a11 a12 a20 a21 a22 v0 v1 v2].
    set (b := sqrt 3) in *. clearbody b. f_equal; nra.
Qed.
(** four families of slip systems with different constants *)
Definition by_family (x : list R) : list R := repeat (nth 0 x 0) 3 ++ repeat (nth 1 x 0) 3 ++ repeat (nth 2 x 0) 6 ++ repeat (nth 3 x 0) 12.
Definition d16_pars : list R := [3; 2; /100; 8/5;  4; 2; 1; 5; 1; 0;  1; 1] ++ by_family [1; 2; 3; 4] ++ [1; 1; 1; 1; 1; 1] ++
  by_family [1; 2; 3; 5] ++ by_family [1; 1; 2; 2] ++ [1; 1; 1; 1; 1;  17/10; -600].
Definition d16_c : MClass R := cls_HCP_A checked.
Definition d16_s : MM R := fst (mm_run d16_c (mm_new d16_c) [OInit [] d16_pars []; OComplete]).
Lemma d16_builtin : builtin checked d16_c. Proof. unfold builtin, d16_c. tauto. Qed.
Lemma d16_in_use : in_use d16_c d16_s d16_pars.
Proof.
  assert (I : exists s1, mm_init d16_c (mm_new d16_c) [] d16_pars [] = (Done, s1)).
  { apply (proj2 (hcp_accepts checked (mm_new d16_c) [] d16_pars [] ltac:(cbn; lra))). split; [split; [reflexivity|split; [reflexivity|cbn; lia]]|]. split; [cbn; lra|]. split; reflexivity. }
  destruct I as [s1 H].
  assert (E : d16_s = fst (mm_run d16_c s1 [OComplete])).
  { unfold d16_s. rewrite mm_run_cons. cbn [mm_step]. rewrite H. reflexivity. }
  rewrite E. econstructor; [exact (reach_default d16_c [])|exact H|]. repeat constructor.
Qed.
Lemma d16_complete : mm_complete d16_s = true.
Proof. unfold d16_s. now rewrite run_complete. Qed.
Lemma d16_strides : mm_strides d16_s = [7; 3; 4; 1; 7; 38; 1; 2]%nat.
Proof. unfold d16_s. now rewrite run_strides. Qed.
Lemma d16_pd : pos_def (p_hooke d16_c d16_pars).
Proof. change (pos_def (hooke_hex 4 2 1 5 1)). apply hex_pd; lra. Qed.
Lemma d16_alike : families_alike d16_c d16_pars.
Proof.
  assert (E : forall o x k, o = 2%nat /\ x = [1; 2; 3; 4] \/ o = 32%nat /\ x = [1; 2; 3; 5] \/ o = 56%nat /\ x = [1; 1; 2; 2] -> (k < 24)%nat ->
    kin_par d16_c d16_pars (o + k) = nth (hex_family k) x 0).
  { intros o x k Ho Hk. destruct Ho as [[-> ->]|[[-> ->]|[-> ->]]]; do 24 (destruct k as [|k]; [reflexivity|]); lia. }
  intros j k Hj Hk EF.
  rewrite !(E 2%nat [1; 2; 3; 4]), !(E 32%nat [1; 2; 3; 5]), !(E 56%nat [1; 1; 2; 2]) by (assumption || tauto). rewrite EF. repeat split.
Qed.
Definition d16_m0 (q : list R) : Mem R := fun a =>
  match a with
  | AD => [- (d10_e / 2); - (d10_e / 2); d10_e; 0; 0; 0; 0]
  | AW => [0; 0; 0]
  | AV => [1; 1; 1; 0]
  | AE => [1]
  | AS => [0; 0; 0; 0; 0; 0; 1]
  | AH => [0; 7; 0; 0; 0; 0; 0; 0; 0] ++ q ++ [1] ++ repeat 0 24
  | AT => [300]
  | AB => [0; 0]
  | AM => []
  end.
Definition d16_m := d16_m0 [1; 2; 0; 0].
(** (1, 2, 0, 0) (sqrt 3, 0, 0, 1) *)
Definition d16_m' := d16_m0 [sqrt 3; 2 * sqrt 3; -2; 1].
Definition d16_b : BCall := call_of d16_c d16_s at_start noLU false 1 (/ 10) d16_m.
Definition d16_b' : BCall := call_of d16_c d16_s at_start noLU false 1 (/ 10) d16_m'.
Lemma d16_batch q : List.length q = 4%nat -> batch_ok d16_c d16_s false 1 (d16_m0 q).
Proof.
  intros L. explode q. split.
  - rewrite d16_strides. split; [|discriminate]. intros a Ha. destruct a; reflexivity.
  - rewrite d16_strides. intros a i Hi Hp. destruct i as [|i]; [|lia]; destruct a; cbn in *; lia.
Qed.
Lemma d16_val q a k : val d16_s (d16_m0 q) a 0 k = nth k (d16_m0 q a) 0.
Proof. unfold val. rewrite d16_strides. destruct a; reflexivity. Qed.
Lemma d16_systems : exists md sd, systems checked d16_c d16_pars md sd.
Proof. do 2 eexists. apply sys_H; [reflexivity|]. cbn. lra. Qed.
Lemma d16_km h T v : 0 < h -> 0 < T -> (v < 24)%nat -> km_params_ok true true 24 (kin_pars d16_c d16_pars) h T v.
Proof.
  intros Hh HT Hv. unfold km_params_ok, km_strength. pose proof (sqrt_lt_R0 h Hh) as SQ. set (q := sqrt h) in *. clearbody q.
  assert (X : nth (2 + v) (kin_pars d16_c d16_pars) 0 > 0 /\ nth (8 + 24 + v) (kin_pars d16_c d16_pars) 0 > 0 /\ nth (8 + 24 + 24 + v) (kin_pars d16_c d16_pars) 0 > 0).
  { do 24 (destruct v as [|v]; [cbn; repeat split; lra|]). lia. }
  destruct X as (X1 & X2 & X3).
  split; [exact Hh|]. split; [exact HT|]. split; [cbn; lra|]. split; [cbn; lra|]. split; [exact X1|]. split; [cbn; lra|]. split; [cbn; lra|]. split; [cbn; lra|].
  split; [cbn; lra|]. split; [cbn; lra|]. split; [|reflexivity]. split; [cbn; lra|].
  apply Rplus_le_le_0_compat; [lra|]. apply Rmult_le_pos; lra.
Qed.
Lemma d16_slow q : List.length q = 4%nat -> SpecTensor.norm2 q <> 0 -> slow checked d16_c d16_pars d16_s (d16_m0 q) 0.
Proof.
  intros L N. explode q. set (q := [_; _; _; _]) in *. pose proof d10_pos as P.
  assert (ER : devRate d16_s (d16_m0 q) 0 = mk3 (- (d10_e / 2)) 0 0 0 (- (d10_e / 2)) 0 0 0 d10_e) by (unfold devRate, sym6; rewrite !d16_val; reflexivity).
  assert (NR : norm3t (devRate d16_s (d16_m0 q) 0) <= 2 * d10_e) by (rewrite ER, <- (d10_rate checked); exact (proj1 (d10_norm checked))).
  split; [rewrite ER; unfold trace; cbn; field|]. split; [unfold dev_strain; cbn [map]; rewrite !d16_val; exact ten5_0|]. split.
  { intros k Hk. change (c_nslip d16_c) with 24%nat in Hk. rewrite d16_val. unfold q. do 24 (destruct k as [|k]; [reflexivity|]). lia. }
  split; [unfold vNew; rewrite d16_val; cbn; lra|]. split; [unfold quat; cbn [map]; rewrite !d16_val; exact N|]. split; [unfold strength; rewrite d16_val; cbn; lra|].
  split.
  { assert (EV : vNew d16_s (d16_m0 q) 0 = 1) by (unfold vNew; rewrite d16_val; reflexivity). rewrite EV. apply unloaded_hex; [reflexivity|left; reflexivity]. }
  split; [unfold spin; rewrite !d16_val; reflexivity|].
  assert (KE : kept d16_c d16_pars (strength d16_s (d16_m0 q) 0) = 1).
  { unfold strength. rewrite d16_val. change (Rmax 1 (/ 10 ^ 4 * 1) = 1). apply Rmax_left. cbn. lra. }
  rewrite KE. do 2 eexists. split; [apply law_H; [reflexivity| |reflexivity]|].
  { intros v Hv. apply d16_km; [lra| |exact Hv]. unfold eInt, p_ec0, p_cv. rewrite d16_val. cbn. lra. }
  assert (RF : km_ref 24 (kin_pars d16_c d16_pars) 1 = 2) by (unfold km_ref; rewrite sqrt_1; cbn; lra). rewrite RF.
  assert (S : 2 * d10_e < / 10 ^ 8) by (unfold d10_e; cbn; lra).
  change (nth 2 d16_pars 0) with (/ 100). split; [lra|]. apply Rle_trans with (/ 10 ^ 8); [lra|]. cbn. lra.
Qed.
Lemma d16_qn : SpecTensor.norm2 [1; 2; 0; 0] <> 0 /\ SpecTensor.norm2 [sqrt 3; 2 * sqrt 3; -2; 1] <> 0.
Proof. pose proof q3 as B. unfold SpecTensor.norm2. cbn. set (b := sqrt 3) in *. clearbody b. split; [lra|]. nra. Qed.
Lemma d16_good1 q : List.length q = 4%nat -> SpecTensor.norm2 q <> 0 -> good checked d16_c (call_of d16_c d16_s at_start noLU false 1 (/ 10) (d16_m0 q)).
Proof.
  intros L N. destruct d16_systems as (md & sd & HS). assert (A1 : 0 < / 10) by lra.
  assert (A2 : forall i, (i < 1)%nat -> slow checked d16_c d16_pars d16_s (d16_m0 q) i)
    by (intros i Hi; assert (i = 0%nat) by lia; subst i; now apply d16_slow).
  exact (slow_good checked d16_c d16_s d16_pars d16_builtin d16_in_use d16_complete at_start noLU 1 (/ 10) (d16_m0 q)
    (d16_batch q L) md sd HS d16_pd checked_keeps A1 A2 start_settles).
Qed.
Lemma d16_good : good checked d16_c d16_b /\ good checked d16_c d16_b'.
Proof. split; apply d16_good1; (reflexivity || apply d16_qn). Qed.
Lemma d16_rotates : exists C, rotates (unit4 (quat d16_s d16_m 0)) C /\ rotates (unit4 (quat d16_s d16_m' 0)) (mul3 C d16_S).
Proof.
  pose proof q3 as B. 
  assert (E1 : quat d16_s d16_m 0 = [1; 2; 0; 0]) by (unfold quat, d16_m; cbn [map]; rewrite !d16_val; reflexivity).
  assert (E2 : quat d16_s d16_m' 0 = [sqrt 3; 2 * sqrt 3; -2; 1]) by (unfold quat, d16_m'; cbn [map]; rewrite !d16_val; reflexivity).
  rewrite E1, E2. replace [sqrt 3; 2 * sqrt 3; -2; 1] with (quat_prod [1; 2; 0; 0] [sqrt 3; 0; 0; 1]) by (rewrite qp_form; repeat (f_equal; [ring|]); f_equal; ring).
  rewrite unit4_prod by reflexivity. exists (rotq (unit4 [1; 2; 0; 0])). split; [apply rotq_rotates; reflexivity|].
  replace d16_S with (rotq (unit4 [sqrt 3; 0; 0; 1])).
  - rewrite <- rotq_prod by reflexivity. apply rotq_rotates. reflexivity.
  - unfold unit4. replace (SpecTensor.norm2 [sqrt 3; 0; 0; 1]) with (2 * 2) by (unfold SpecTensor.norm2; cbn; lra). rewrite sqrt_square by lra. cbn [map]. rewrite rotq_form.
    unfold d16_S. set (b := sqrt 3) in *. clearbody b. apply mk3_eq; nra.
Qed.
Lemma d16_equiv sg ep : equivalent_in d16_c d16_S sg ep d16_b 0 d16_b' 0.
Proof.
  unfold equivalent_in. cbv zeta. change (b_s d16_b) with d16_s. change (b_s d16_b') with d16_s. change (b_m d16_b) with d16_m. change (b_m d16_b') with d16_m'.
  refine (conj _ (conj _ (conj _ (conj d16_rotates (conj _ (conj _ (conj _ (conj _ (conj _ _)))))))));
    try (unfold devRate, spin, devStress, sym6, eInt, pres, d16_m, d16_m'; rewrite !d16_val; reflexivity); try (intros k Hk; unfold d16_m, d16_m'; rewrite !d16_val; reflexivity).
  - intros k Hk. unfold d16_m, d16_m'. rewrite !d16_val. destruct Hk as [Hk| ->]; [|reflexivity]. do 4 (destruct k as [|k]; [reflexivity|]). lia.
  - unfold dev_strain, d16_m, d16_m'. cbn [map]. rewrite !d16_val. transitivity Z3; [exact ten5_0|]. transitivity (cong (tr3 d16_S) Z3); [|f_equal; symmetry; exact ten5_0].
    unfold cong, mul3, tr3, Z3, d16_S. cbn [a00 a01 a02 a10 a11 a12 a20 a21 a22]. apply mk3_eq; ring.
  - intros k Hk. change (c_nslip d16_c) with 24%nat in Hk. unfold d16_m, d16_m'. rewrite !d16_val.
    assert (Z : forall q j, List.length q = 4%nat -> nth (14 + j) (d16_m0 q AH) 0 = 0).
    { intros q j L. explode q. do 24 (destruct j as [|j]; [reflexivity|]). destruct j; reflexivity. }
    rewrite !Z by reflexivity. ring.
Qed.
Lemma d16_smooth : exists law ref ok, smooth_law checked d16_c d16_pars (tKel (b_s d16_b) (b_m1 d16_b) 0) (strength (b_s d16_b) (b_m1 d16_b) 0) law ref ok.
Proof.
  destruct d16_good as [G _]. do 3 eexists. apply sm_H; [reflexivity| |reflexivity]. intros v Hv. apply d16_km; [| |exact Hv].
  - exact (proj1 (P_Kin3.call_km checked d16_c d16_b 0 d16_pars G (le_n 1) d16_in_use (or_intror (or_intror eq_refl)))).
  - assert (V0 : 0 < vNew (b_s d16_b) (b_m d16_b) 0) by (change (0 < vNew d16_s (d16_m0 [1; 2; 0; 0]) 0); unfold vNew; rewrite d16_val; cbn; lra).
    destruct (call_material _ _ _ 0%nat d16_pars G (le_n 1) d16_in_use V0) as (_ & T & _).
    change (tKel (b_s d16_b) (b_m1 d16_b) 0 = (eInt d16_s (d16_m0 [1; 2; 0; 0]) 0 - p_ec0 d16_c d16_pars) / p_cv d16_pars) in T. rewrite T.
    unfold eInt, p_ec0, p_cv. rewrite d16_val. cbn. lra.
Qed.
