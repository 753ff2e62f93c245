(** A concrete slow deformation (C50). *)
From Coq Require Import List ZArith Bool Lia PeanoNat Reals Lra String.
From Verif Require Import Num Arr NumR Util SlipGeom Eos Hard KinVoce KinKMBalD Elast Evptn MatModel Cases SpecTensor
  SpecElast SpecSlip P_Tensor P_Elast P_Eos P_Sngl P_Sngl2 P_Sngl3 P_Batch P_Batch2 P_Batch3 P_Batch4 P_Api P_Builtin SpecApi P_Hist SpecStress P_Stress
  SpecKin SpecKinApi SpecStep SpecEnergy P_KinV P_Hard P_Kin4 P_Call P_Slip P_SlipH P_Demo P_Demo2 P_Demo3 P_Step P_Step2 P_Step3 P_Energy P_Rest P_Rigid P_Rigid2 P_Rigid3 P_Rigid4 P_Demo4 SpecSlow P_Slow.
Import ListNotations.
Local Open Scope R_scope.

(** as [d4_m], with the deformation rate 1e-9 diag(-1/2, -1/2, 1) and no spin *)
Definition d10_e : R := / 10 ^ 9.
Definition d10_m : Mem R := fun a =>
  match a with
  | AD => [- (d10_e / 2); - (d10_e / 2); d10_e; 0; 0; 0; 0]
  | _ => d4_m [0; 0; 0] a
  end.
Lemma d10_batch hs : batch_ok (d2_c hs) (d2_s hs) false 1 d10_m.
Proof.
  split.
  - rewrite d2_strides. split; [|discriminate]. intros a Ha. destruct a; reflexivity.
  - rewrite d2_strides. intros a i Hi Hp. destruct i as [|i]; [|lia]; destruct a; cbn in *; lia.
Qed.
Lemma d10_rate hs : devRate (d2_s hs) d10_m 0 = mk3 (- (d10_e / 2)) 0 0 0 (- (d10_e / 2)) 0 0 0 d10_e.
Proof. unfold devRate, val. rewrite d2_strides. reflexivity. Qed.
Lemma d10_pos : 0 < d10_e. Proof. unfold d10_e. apply Rinv_0_lt_compat, pow_lt. lra. Qed.
Lemma d10_norm hs : norm3t (devRate (d2_s hs) d10_m 0) <= 2 * d10_e /\ 0 < norm3t (devRate (d2_s hs) d10_m 0).
Proof.
  rewrite d10_rate. pose proof d10_pos as P. set (e := d10_e) in *. clearbody e. unfold norm3t.
  assert (E : inner (mk3 (- (e / 2)) 0 0 0 (- (e / 2)) 0 0 0 e) (mk3 (- (e / 2)) 0 0 0 (- (e / 2)) 0 0 0 e) = 3 / 2 * (e * e)) by (spec3; field).
  rewrite E. split.
  - rewrite <- (sqrt_square (2 * e)) by lra. apply sqrt_le_1_alt. nra.
  - apply sqrt_lt_R0. nra.
Qed.
Lemma d10_slow hs : slow hs (d2_c hs) demo_pars (d2_s hs) d10_m 0.
Proof.
  assert (EQ : forall a k, a <> AD -> val (d2_s hs) d10_m a 0 k = val (d2_s hs) (d4_m [0; 0; 0]) a 0 k) by (intros a k Ha; unfold val; destruct a; [congruence|reflexivity..]).
  pose proof (d4_at_rest hs [0; 0; 0] eq_refl) as (_ & B & C & D & E & F & HU & law & ref & HL).
  pose proof (d10_norm hs) as [N1 N2].
  split; [|split; [|split; [|split; [|split; [|split; [|split; [|split]]]]]]].
  - rewrite d10_rate. unfold trace. cbn. field.
  - exact B.
  - exact C.
  - exact D.
  - exact E.
  - exact F.
  - exact HU.
  - exact (d4_spin hs [0; 0; 0] eq_refl).
  - exists (fun _ => voce_law 1 (/ 10) (kept (d2_c hs) demo_pars (strength (d2_s hs) d10_m 0))), 1.
    split; [apply (law_V hs (d2_c hs) demo_pars); [now left|]; cbn; lra|].
    assert (S : 2 * d10_e < / 10 ^ 8). { unfold d10_e. cbn. lra. }
    change (nth 2 demo_pars 0) with (/ 100). split; [lra|]. apply Rle_trans with (/ 10 ^ 8); [lra|]. cbn. lra.
Qed.
Definition d10_call : BCall := call_of (d2_c checked) (d2_s checked) checked noLU false 1 (/ 10) d10_m.
Lemma d10_good : good checked (d2_c checked) d10_call.
Proof.
  destruct (d4_systems checked) as (md & sd & HS). assert (A1 : 0 < / 10) by lra.
  assert (A2 : forall i, (i < 1)%nat -> slow checked (d2_c checked) demo_pars (d2_s checked) d10_m i)
    by (intros i Hi; assert (i = 0%nat) by lia; subst i; apply d10_slow).
  exact (slow_good checked (d2_c checked) (d2_s checked) demo_pars (d2_builtin checked) (d2_in_use checked) (d2_complete checked) checked noLU 1 (/ 10) d10_m
    (d10_batch checked) md sd HS (d4_pd checked) checked_keeps A1 A2 checked_settles).
Qed.
Lemma checked_last : last_at_answer checked.
Proof. intros n rj tol it x0 _. reflexivity. Qed.
