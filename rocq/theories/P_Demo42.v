(** Two calls that differ in the entries that are not read (C80). *)
From Coq Require Import List ZArith Bool Lia PeanoNat Reals Lra String.
From Verif Require Import Num Arr NumR Util Hard Evptn MatModel Cases P_Batch P_Batch2 P_Batch3 P_Api P_Api2 P_Builtin SpecApi P_Hist SpecBatch P_Batch4 P_Demo SpecState P_Demo24
  SpecRead P_Read P_Demo37.
Import ListNotations.
Local Open Scope R_scope.

Definition rd_m (a : arr) : list R := match a with
  | AD => [1; -1; 0; 0; 0; /2; 5;   0; 1; -1; 1; 0; 0; -6]
  | AV => [1; 11/10; 70; /10;   1; 9/10; 80; -(/10)]
  | _ => demo_m a end.
Lemma rd_entry a i k : a <> AD -> a <> AV -> entry demo_s demo_m a i k = entry demo_s rd_m a i k.
Proof. intros X1 X2. destruct a; try reflexivity; contradiction. Qed.
Lemma rd_read a i k : (i < 2)%nat -> matters a k -> (k < per_point (c_nH demo_c) (c_nslip demo_c) false a)%nat -> entry demo_s demo_m a i k = entry demo_s rd_m a i k.
Proof.
  intros Hi Hm Hk. destruct a; cbn [matters] in Hm; try contradiction.
  - unfold entry. rewrite demo_strides. destruct i as [|[|i]]; [| |lia]; do 6 (destruct k as [|k]; [reflexivity|]); lia.
  - reflexivity.
  - cbn [per_point] in Hk. unfold entry. rewrite demo_strides. destruct i as [|[|i]]; [| |lia]; destruct k as [|[|[|[|k]]]]; try reflexivity; try contradiction; exfalso; cbn in Hk; lia.
Qed.
Lemma rd_batch : batch_ok demo_c demo_s false 2 rd_m.
Proof. apply demo_batch. intros a. now destruct a. Qed.
Lemma rd_state i : same_state demo_c demo_s demo_m i demo_s rd_m i.
Proof. intros a k Ha Hk _. apply rd_entry; intros ->; cbn in Ha; intuition discriminate. Qed.
Lemma rd_done : exists m1, mm_getResponse echo noLU demo_c demo_s (/10) false (Z.of_nat 2) rd_m = (BRet Done, m1).
Proof.
  apply (batch_read demo_c demo_pars echo noLU demo_s 2 rd_m (/10) false demo_in_use demo_complete rd_batch).
  intros i Hi. exists (at0 i). refine (conj (at0_visit i Hi) (conj eq_refl (conj eq_refl (conj _ (rd_state i))))).
  intros a k Ha Hk. exact (rd_read a i k Hi Ha Hk).
Qed.
Definition rd0 (i : nat) : Visit R := {| v_s := demo_s; v_dt := /10; v_mtan := false; v_n := 2; v_i := i; v_m := rd_m; v_m1 := snd (mm_getResponse echo noLU demo_c demo_s (/10) false (Z.of_nat 2) rd_m) |}.
Lemma rd0_visit i : (i < 2)%nat -> visit demo_c demo_pars echo noLU (rd0 i).
Proof. intros Hi. refine (conj demo_in_use (conj rd_batch (conj Hi _))). cbn [rd0 v_s v_dt v_mtan v_n v_m v_m1]. destruct rd_done as [x E]. rewrite E. reflexivity. Qed.
Lemma rd_case : journey demo_c demo_pars echo noLU [at0 1] /\ journey demo_c demo_pars echo noLU [rd0 1] /\ Forall2 (same_step demo_c) [at0 1] [rd0 1] /\ same_start demo_c [at0 1] [rd0 1] /\
  entry demo_s demo_m AD 1 6 <> entry demo_s rd_m AD 1 6 /\ entry demo_s demo_m AV 1 2 <> entry demo_s rd_m AV 1 2.
Proof.
  split; [|split; [|split; [|split; [|split]]]].
  - split; [exact (at0_visit 1 (le_n 2))|]. split; exact I.
  - split; [exact (rd0_visit 1 (le_n 2))|]. split; exact I.
  - constructor; [|constructor]. split; [reflexivity|]. split; [reflexivity|]. intros a k Ha Hk. exact (rd_read a 1 k (le_n 2) Ha Hk).
  - exact (rd_state 1).
  - unfold entry. rewrite demo_strides. intros X. cbn in X. apply some_inj in X. lra.
  - unfold entry. rewrite demo_strides. intros X. cbn in X. apply some_inj in X. lra.
Qed.
