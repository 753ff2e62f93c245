(** Two calls on slowly deforming crystals of equivalent orientations (C22). *)
From Coq Require Import List ZArith Bool Lia PeanoNat Reals Lra String.
From Verif Require Import Num Arr NumR Util SlipGeom Eos Hard KinVoce KinKMBalD Elast Evptn MatModel Cases SpecTensor
  SpecElast SpecSlip P_Tensor P_Elast P_Eos P_Sngl P_Sngl2 P_Sngl3 P_Batch P_Batch2 P_Batch3 P_Batch4 P_Api P_Builtin SpecApi P_Hist SpecStress P_Stress
  SpecKin SpecKinApi SpecStep SpecEnergy P_KinV P_Hard P_Kin4 P_Call P_Slip P_SlipH P_Demo P_Demo2 P_Demo3 P_Step P_Step2 P_Step3 P_Energy P_Rest P_Rigid P_Rigid2 P_Rigid3 P_Rigid4 P_Demo4 P_Demo7 SpecSlow P_Slow P_Demo10
  SpecJac SpecFrame P_Frame P_Frame2 SpecSym P_Sym3 P_Sym10.
Import ListNotations.
Local Open Scope R_scope.

(** a quarter turn about the third cube axis *)
Definition d11_S : M3 := mk3 0 (-1) 0  1 0 0  0 0 1.
Lemma d11_cubic : cubic_rot d11_S.
Proof.
  split; [split; [split; unfold d11_S, mul3, tr3, I3; cbn [a00 a01 a02 a10 a11 a12 a20 a21 a22]; apply mk3_eq; ring|unfold det3, d11_S; cbn [a00 a01 a02 a10 a11 a12 a20 a21 a22]; ring]|].
  unfold d11_S, whole. cbn [a00 a01 a02 a10 a11 a12 a20 a21 a22].
  repeat split; (now exists 0%Z) || (now exists 1%Z) || (now exists (-1)%Z).
Qed.
(** as [d10_m], with the orientation (1, 2, 0, 0) (1, 0, 0, 1) *)
Definition d11_m : Mem R := fun a =>
  match a with
  | AH => [0; 7; 0; 0; 0; 0; 0; 0; 0; 1; 2; -2; 1; 1; 0; 0; 0; 0; 0; 0; 0; 0; 0; 0; 0; 0]
  | _ => d10_m a
  end.
Lemma d11_batch hs : batch_ok (d2_c hs) (d2_s hs) false 1 d11_m.
Proof.
  split.
  - rewrite d2_strides. split; [|discriminate]. intros a Ha. destruct a; reflexivity.
  - rewrite d2_strides. intros a i Hi Hp. destruct i as [|i]; [|lia]; destruct a; cbn in *; lia.
Qed.
Definition d11_b : BCall := call_of (d2_c checked) (d2_s checked) at_start noLU false 1 (/ 10) d10_m.
Definition d11_b' : BCall := call_of (d2_c checked) (d2_s checked) at_start noLU false 1 (/ 10) d11_m.
Lemma d11_val a k : a <> AH -> val (d2_s checked) d11_m a 0 k = val (d2_s checked) d10_m a 0 k.
Proof. intros Ha. unfold val. destruct a; try reflexivity. congruence. Qed.
Lemma d11_h k : (k < 9)%nat \/ (13 <= k)%nat -> val (d2_s checked) d11_m AH 0 k = val (d2_s checked) d10_m AH 0 k.
Proof.
  intros Hk. unfold val. rewrite d2_strides. cbn [Nat.mul Nat.add d11_m d10_m d4_m].
  do 9 (destruct k as [|k]; [reflexivity|]). do 4 (destruct k as [|k]; [exfalso; lia|]). reflexivity.
Qed.
Lemma d11_slow : slow checked (d2_c checked) demo_pars (d2_s checked) d11_m 0.
Proof.
  destruct (d10_slow checked) as (A & B & C & D & E & F & HU & W & L).
  assert (EB : dev_strain (d2_s checked) d11_m 0 = dev_strain (d2_s checked) d10_m 0).
  { change (ten5 (tab 5 (fun k => val (d2_s checked) d11_m AH 0 (4 + k))) = ten5 (tab 5 (fun k => val (d2_s checked) d10_m AH 0 (4 + k)))). f_equal.
    apply tab_ext. intros k Hk. apply d11_h. lia. }
  assert (EH : strength (d2_s checked) d11_m 0 = strength (d2_s checked) d10_m 0) by (apply d11_h; lia).
  split; [exact A|]. split; [rewrite EB; exact B|]. split; [intros k Hk; rewrite d11_h by lia; exact (C k Hk)|]. split; [exact D|]. split.
  { unfold quat, val. rewrite d2_strides. unfold SpecTensor.norm2. cbn. lra. }
  rewrite EH. split; [exact F|]. split; [exact HU|]. split; [exact W|exact L].
Qed.
Lemma d11_good : good checked (d2_c checked) d11_b /\ good checked (d2_c checked) d11_b'.
Proof.
  destruct (d4_systems checked) as (md & sd & HS). assert (A1 : 0 < / 10) by lra.
  assert (A2 : forall i, (i < 1)%nat -> slow checked (d2_c checked) demo_pars (d2_s checked) d10_m i)
    by (intros i Hi; assert (i = 0%nat) by lia; subst i; apply d10_slow).
  assert (A3 : forall i, (i < 1)%nat -> slow checked (d2_c checked) demo_pars (d2_s checked) d11_m i)
    by (intros i Hi; assert (i = 0%nat) by lia; subst i; apply d11_slow).
  split.
  - exact (slow_good checked (d2_c checked) (d2_s checked) demo_pars (d2_builtin checked) (d2_in_use checked) (d2_complete checked) at_start noLU 1 (/ 10) d10_m
    (d10_batch checked) md sd HS (d4_pd checked) checked_keeps A1 A2 start_settles).
  - exact (slow_good checked (d2_c checked) (d2_s checked) demo_pars (d2_builtin checked) (d2_in_use checked) (d2_complete checked) at_start noLU 1 (/ 10) d11_m
    (d11_batch checked) md sd HS (d4_pd checked) checked_keeps A1 A3 start_settles).
Qed.
Lemma d11_rotates : exists C, rotates (unit4 (quat (d2_s checked) d10_m 0)) C /\ rotates (unit4 (quat (d2_s checked) d11_m 0)) (mul3 C d11_S).
Proof.
  assert (E1 : quat (d2_s checked) d10_m 0 = [1; 2; 0; 0]) by (unfold quat, val; rewrite d2_strides; reflexivity).
  assert (E2 : quat (d2_s checked) d11_m 0 = [1; 2; -2; 1]) by (unfold quat, val; rewrite d2_strides; reflexivity).
  rewrite E1, E2. replace [1; 2; -2; 1] with (quat_prod [1; 2; 0; 0] [1; 0; 0; 1]) by (rewrite qp_form; repeat (f_equal; [lra|]); f_equal; lra).
  rewrite unit4_prod by reflexivity. exists (rotq (unit4 [1; 2; 0; 0])). split; [apply rotq_rotates; reflexivity|].
  replace d11_S with (rotq (unit4 [1; 0; 0; 1])).
  - rewrite <- rotq_prod by reflexivity. apply rotq_rotates. reflexivity.
  - unfold unit4. replace (SpecTensor.norm2 [1; 0; 0; 1]) with 2 by (unfold SpecTensor.norm2; cbn; lra). cbn [map]. rewrite rotq_form.
    assert (X : 1 / sqrt 2 * (1 / sqrt 2) = / 2) by (unfold Rdiv; rewrite !Rmult_1_l, <- Rinv_mult, sqrt_sqrt by lra; reflexivity).
    replace (0 / sqrt 2) with 0 by (unfold Rdiv; ring). set (u := 1 / sqrt 2) in *. clearbody u. apply mk3_eq; nra.
Qed.
Lemma d11_equiv sg ep : equivalent_in (d2_c checked) d11_S sg ep d11_b 0 d11_b' 0.
Proof.
  destruct (d10_slow checked) as (_ & B & C & _). destruct d11_slow as (_ & B' & C' & _).
  unfold equivalent_in. cbv zeta. change (b_s d11_b) with (d2_s checked). change (b_s d11_b') with (d2_s checked). change (b_m d11_b) with d10_m. change (b_m d11_b') with d11_m.
  refine (conj _ (conj _ (conj _ (conj d11_rotates (conj _ (conj _ (conj _ (conj _ (conj _ _))))))))).
  - reflexivity.
  - reflexivity.
  - reflexivity.
  - intros k _. apply d11_val. discriminate.
  - reflexivity.
  - reflexivity.
  - intros k Hk. apply d11_h. clear - Hk. lia.
  - rewrite B, B'. unfold cong, mul3, tr3, Z3, d11_S. cbn [a00 a01 a02 a10 a11 a12 a20 a21 a22]. apply mk3_eq; ring.
  - intros k Hk. rewrite C by exact Hk. rewrite Rmult_0_r. unfold val. rewrite d2_strides. cbn [Nat.mul Nat.add d11_m]. generalize (sg k). intros j. cbn [stride_of gstride map nth st_history Nat.add Nat.mul].
    do 12 (destruct j as [|j]; [reflexivity|]). destruct j; reflexivity.
Qed.
