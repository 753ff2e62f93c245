(** Two calculations with the hexagonal model that differ in density, Grueneisen constant and deviatoric stress (C77). *)
From Coq Require Import List ZArith Bool Lia PeanoNat Reals Lra String.
From Verif Require Import Num Arr NumR Util SlipGeom Eos Hard KinVoce KinKMBalD Elast Evptn MatModel Cases P_Sngl P_Batch P_Batch2 P_Batch3 P_Api P_Api2 P_Builtin SpecApi P_Hist SpecBatch P_Batch4 P_Demo SpecKin P_KinV P_Hard P_Call P_Demo2 P_Demo3
  P_Demo4 P_Demo7 P_Demo10 P_Demo11 P_Demo16 SpecState SpecThermo P_Thermo P_Thermo2 SpecTemp P_Temp SpecSlow P_Slow SpecSym P_Demo4.
Import ListNotations.
Local Open Scope R_scope.

Definition th6_pars : list R := [7; 2; /100; 8/5;  4; 2; 1; 5; 1; 0;  1; 1] ++ by_family [1; 2; 3; 4] ++ [1; 1; 1; 1; 1; 1] ++
  by_family [1; 2; 3; 5] ++ by_family [1; 1; 2; 2] ++ [1; 1; 1; 1; 1;  4; -600].
Definition th6_s : MM R := fst (mm_run d16_c (mm_new d16_c) [OInit [] th6_pars []; OComplete]).
Lemma th6_mech : same_but_pressure d16_c th6_pars d16_pars.
Proof.
  intros k K1 K2 K3. change (mm_nParams d16_c) with 97%nat in K1, K3. unfold d16_pars, th6_pars, by_family. cbn [app repeat nth].
  destruct k as [|k]; [lia|]. do 94 (destruct k as [|k]; [reflexivity|]). destruct k as [|k]; [lia|]. destruct k as [|k]; [reflexivity|]. lia.
Qed.
Lemma th6_mech' : same_but_pressure d16_c d16_pars th6_pars.
Proof. intros k K1 K2 K3. symmetry. now apply th6_mech. Qed.
Lemma th6_in_use : in_use d16_c th6_s th6_pars.
Proof.
  assert (I : exists s1, mm_init d16_c (mm_new d16_c) [] th6_pars [] = (Done, s1)).
  { apply (proj2 (hcp_accepts checked (mm_new d16_c) [] th6_pars [] ltac:(cbn; lra))). split; [split; [reflexivity|split; [reflexivity|cbn; lia]]|]. split; [cbn; lra|]. split; reflexivity. }
  destruct I as [s1 H].
  assert (E : th6_s = fst (mm_run d16_c s1 [OComplete])).
  { unfold th6_s. rewrite mm_run_cons. cbn [mm_step]. rewrite H. reflexivity. }
  rewrite E. econstructor; [exact (reach_default d16_c [])|exact H|]. repeat constructor.
Qed.
Lemma th6_complete : mm_complete th6_s = true.
Proof. unfold th6_s. now rewrite run_complete. Qed.
Lemma th6_strides : mm_strides th6_s = [7; 3; 4; 1; 7; 38; 1; 2]%nat.
Proof. unfold th6_s. now rewrite run_strides. Qed.
Definition th6_m (a : arr) : list R := match a with AS => [1; 2; 3; 4; 5; 6; 1] | AT => [9] | AB => [5; 6] | _ => d16_m a end.
Lemma th6_batch : batch_ok d16_c th6_s false 1 th6_m.
Proof.
  split.
  - rewrite th6_strides. split; [|discriminate]. intros a Ha. destruct a; reflexivity.
  - rewrite th6_strides. intros a i Hi Hp. destruct i as [|i]; [|lia]; destruct a; cbn in *; lia.
Qed.
Definition hx0 : Visit R := {| v_s := d16_s; v_dt := /10; v_mtan := false; v_n := 1; v_i := 0; v_m := d16_m; v_m1 := b_m1 d16_b |}.
Lemma hx0_visit : visit d16_c d16_pars at_start noLU hx0.
Proof. refine (conj d16_in_use (conj (d16_batch [1; 2; 0; 0] eq_refl) (conj (le_n 1) _))). exact (proj2 (proj2 (proj2 (proj1 d16_good)))). Qed.
Lemma hx_entry (m m' : Mem R) a i k : m a = m' a -> entry d16_s m a i k = entry th6_s m' a i k.
Proof. intros E. unfold entry. rewrite E, d16_strides, th6_strides. reflexivity. Qed.
Lemma hx_press : entry d16_s d16_m AS 0 6 = entry th6_s th6_m AS 0 6.
Proof. unfold entry. rewrite d16_strides, th6_strides. reflexivity. Qed.
Lemma hx_done : exists m1, mm_getResponse at_start noLU d16_c th6_s (/10) false (Z.of_nat 1) th6_m = (BRet Done, m1).
Proof.
  apply (batch_hex checked d16_c th6_pars d16_pars at_start noLU eq_refl th6_mech th6_s 1 th6_m (/10) false th6_in_use th6_complete th6_batch).
  intros i Hi. assert (i = 0%nat) by lia. subst i. exists hx0. refine (conj hx0_visit (conj eq_refl (conj eq_refl (conj _ (conj _ (conj _ _)))))).
  - intros a k Ha Hk. symmetry. apply hx_entry. cbn [In] in Ha. destruct Ha as [<-|[<-|[<-|[]]]]; reflexivity.
  - symmetry. apply hx_entry. reflexivity.
  - symmetry. exact hx_press.
  - intros k Hk Hn. symmetry. apply hx_entry. reflexivity.
Qed.
Definition hx1 : Visit R := {| v_s := th6_s; v_dt := /10; v_mtan := false; v_n := 1; v_i := 0; v_m := th6_m; v_m1 := snd (mm_getResponse at_start noLU d16_c th6_s (/10) false (Z.of_nat 1) th6_m) |}.
Lemma hx1_visit : visit d16_c th6_pars at_start noLU hx1.
Proof.
  refine (conj th6_in_use (conj th6_batch (conj (le_n 1) _))). cbn [hx1 v_s v_dt v_mtan v_n v_m v_m1]. destruct hx_done as [x E]. rewrite E. reflexivity.
Qed.
Lemma hx_case : hjourney d16_c d16_pars at_start noLU [hx0] /\ hjourney d16_c th6_pars at_start noLU [hx1] /\
  Forall2 (same_drive d16_c) [hx0] [hx1] /\ Forall2 same_energy [hx0] [hx1] /\ Forall2 same_pressure [hx0] [hx1] /\ same_hstart d16_c [hx0] [hx1].
Proof.
  split; [|split; [|split; [|split; [|split]]]].
  - split; [exact hx0_visit|]. split; exact I.
  - split; [exact hx1_visit|]. split; exact I.
  - constructor; [|constructor]. split; [reflexivity|]. split; [reflexivity|]. intros a k Ha Hk. apply hx_entry. cbn [In] in Ha. destruct Ha as [<-|[<-|[<-|[]]]]; reflexivity.
  - constructor; [|constructor]. apply hx_entry. reflexivity.
  - constructor; [|constructor]. exact hx_press.
  - intros k Hk Hn. apply hx_entry. reflexivity.
Qed.
Lemma hx_differ k : In k [0; 95]%nat -> nth_error d16_pars k <> nth_error th6_pars k.
Proof. intros H X. cbn [In] in H. destruct H as [<-|[<-|[]]]; cbn in X; apply some_inj in X; lra. Qed.
Lemma hx_start_differ : entry d16_s d16_m AS 0 0 <> entry th6_s th6_m AS 0 0.
Proof. unfold entry. rewrite d16_strides, th6_strides. intros X; cbn in X; apply some_inj in X; lra. Qed.
