(** Two calls that differ in the deviatoric stresses handed in (C79). *)
From Coq Require Import List ZArith Bool Lia PeanoNat Reals Lra String.
From Verif Require Import Num Arr NumR Util Hard Evptn MatModel Cases P_Batch P_Batch2 P_Batch3 P_Api P_Api2 P_Builtin SpecApi P_Hist SpecBatch P_Batch4 P_Demo SpecState P_Demo24
  SpecThermo SpecTemp SpecDevIn SpecDevE P_DevIn P_Demo37.
Import ListNotations.
Local Open Scope R_scope.

Definition dv_m (a : arr) : list R := match a with AS => [7; 8; -15; 3; 4; 5; 1;   9; -9; 0; 6; 7; 8; 3] | AT => [0; 1] | AB => [5; 6; 7; 8] | _ => demo_m a end.
Lemma dv_entry a i k : a <> AS -> a <> AT -> a <> AB -> entry demo_s dv_m a i k = entry demo_s demo_m a i k.
Proof. intros X1 X2 X3. destruct a; try reflexivity; contradiction. Qed.
Lemma dv_press i : (i < 2)%nat -> entry demo_s dv_m AS i 6 = entry demo_s demo_m AS i 6.
Proof. intros Hi. unfold entry. rewrite demo_strides. destruct i as [|[|i]]; [reflexivity|reflexivity|lia]. Qed.
Lemma dv_batch : batch_ok demo_c demo_s false 2 dv_m.
Proof. apply demo_batch. intros a. now destruct a. Qed.
Lemma dv_done : exists m1, mm_getResponse echo noLU demo_c demo_s (/10) false (Z.of_nat 2) dv_m = (BRet Done, m1).
Proof.
  apply (batch_dev demo_c demo_pars echo noLU demo_s 2 dv_m (/10) false demo_in_use demo_complete dv_batch).
  intros i Hi. exists (at0 i). refine (conj (at0_visit i Hi) (conj eq_refl (conj eq_refl (conj _ (conj _ (conj (dv_press i Hi) _)))))).
  - intros a k Ha Hk. apply dv_entry; intros ->; cbn in Ha; intuition discriminate.
  - apply dv_entry; discriminate.
  - intros k Hk Hn. apply dv_entry; discriminate.
Qed.
Definition dv0 (i : nat) : Visit R := {| v_s := demo_s; v_dt := /10; v_mtan := false; v_n := 2; v_i := i; v_m := dv_m; v_m1 := snd (mm_getResponse echo noLU demo_c demo_s (/10) false (Z.of_nat 2) dv_m) |}.
Lemma dv0_visit i : (i < 2)%nat -> visit demo_c demo_pars echo noLU (dv0 i).
Proof. intros Hi. refine (conj demo_in_use (conj dv_batch (conj Hi _))). cbn [dv0 v_s v_dt v_mtan v_n v_m v_m1]. destruct dv_done as [x E]. rewrite E. reflexivity. Qed.
Lemma dv_case : hjourney demo_c demo_pars echo noLU [at0 1] /\ hjourney demo_c demo_pars echo noLU [dv0 1] /\
  Forall2 (same_drive demo_c) [at0 1] [dv0 1] /\ Forall2 same_energy [at0 1] [dv0 1] /\ Forall2 same_pressure [at0 1] [dv0 1] /\ same_hstart demo_c [at0 1] [dv0 1] /\
  entry demo_s demo_m AS 1 0 <> entry demo_s dv_m AS 1 0.
Proof.
  split; [|split; [|split; [|split; [|split; [|split]]]]].
  - split; [exact (at0_visit 1 (le_n 2))|]. split; exact I.
  - split; [exact (dv0_visit 1 (le_n 2))|]. split; exact I.
  - constructor; [|constructor]. split; [reflexivity|]. split; [reflexivity|]. intros a k Ha Hk. symmetry. apply dv_entry; intros ->; cbn in Ha; intuition discriminate.
  - constructor; [|constructor]. symmetry. apply dv_entry; discriminate.
  - constructor; [|constructor]. symmetry. exact (dv_press 1 (le_n 2)).
  - intros k Hk Hn. symmetry. apply dv_entry; discriminate.
  - unfold entry. rewrite demo_strides. intros X. cbn in X. apply some_inj in X. lra.
Qed.
Lemma dv_half : half_work (at0 1) (fun k => given (dv0 1) AS k - given (at0 1) AS k) = 19 / 400.
Proof. unfold half_work, given, entry. cbn [at0 dv0 v_s v_m v_i v_dt]. rewrite demo_strides. cbn. lra. Qed.
