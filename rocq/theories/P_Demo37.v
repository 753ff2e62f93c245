(** Two calculations that differ in everything thermal: density, heat capacity, equation of state, energies, stresses, temperatures (C76). *)
From Coq Require Import List ZArith Bool Lia PeanoNat Reals Lra String.
From Verif Require Import Num Arr NumR Util SlipGeom Eos Hard KinVoce Elast Evptn MatModel Cases P_Sngl P_Batch P_Batch2 P_Batch3 P_Api P_Api2 P_Builtin SpecApi P_Hist SpecBatch P_Batch4 P_Demo SpecState P_State2 P_Demo24
  SpecThermo P_Thermo P_Thermo2 P_Slip.
Import ListNotations.
Local Open Scope R_scope.

Definition th_pars : list R := [5; 7; /100; 3; 1; 1; 1; /10; 1; 1; 1; 4; /20; /1000; 1; 2; -10].
Definition th_s : MM R := fst (mm_run demo_c (mm_new demo_c) [OInit [] th_pars []; OComplete]).
Lemma th_mech : same_mechanics demo_c demo_pars th_pars.
Proof. intros k K1 K2. change (mm_nParams demo_c) with 17%nat in K2. unfold demo_pars, th_pars. do 2 (destruct k as [|k]; [lia|]). do 13 (destruct k as [|k]; [reflexivity|]). lia. Qed.
Lemma th_mech' : same_mechanics demo_c th_pars demo_pars.
Proof. intros k K1 K2. symmetry. now apply th_mech. Qed.
Lemma th_init : exists s1, mm_init demo_c (mm_new demo_c) [] th_pars [] = (Done, s1).
Proof.
  destruct (@geom_fcc) as (g & Hg & _).
  eapply (init_done_conv demo_c (mm_new demo_c) [] th_pars []
    {| pa_sg := g; pa_el := c_elSet demo_c (sub th_pars 3 3); pa_kin := voce_kinetics echo (voce_setParams false (sub th_pars 6 9)) 12;
       pa_hist := voce_histInfo (voce_setParams false (sub th_pars 6 9)); pa_bulk := 1 / 3 * (3 + 2 * 1) |}).
  - repeat split; cbn; lia.
  - refine (conj Hg (conj eq_refl (conj eq_refl _))).
    cbn [pa_el pa_bulk demo_c cls_FCC_A c_elSet]. unfold el_getBulkMod, cubic_setParams, th_pars. cbn [el_K_bulkMod]. rarr.
    destruct (Rleb (1 / 3 * (3 + 2 * 1)) 0) eqn:E; [apply Rleb_true in E; lra|reflexivity].
  - reflexivity.
Qed.
Lemma th_in_use : in_use demo_c th_s th_pars.
Proof.
  destruct th_init as [s1 H].
  assert (E : th_s = fst (mm_run demo_c s1 [OComplete])).
  { unfold th_s. rewrite mm_run_cons. cbn [mm_step]. rewrite H. reflexivity. }
  rewrite E. econstructor; [exact (reach_default demo_c [])|exact H|]. repeat constructor.
Qed.
Lemma th_complete : mm_complete th_s = true.
Proof. unfold th_s. now rewrite run_complete. Qed.
Lemma th_strides : mm_strides th_s = [7; 3; 4; 1; 7; 26; 1; 2]%nat.
Proof. unfold th_s. now rewrite run_strides. Qed.
Lemma th_batch (m : Mem R) : (forall a, List.length (m a) = List.length (demo_m a)) -> batch_ok demo_c th_s false 2 m.
Proof.
  intros H. split.
  - rewrite th_strides. split; [|discriminate]. intros a Ha. destruct a; reflexivity.
  - rewrite th_strides. intros a i Hi Hp. rewrite H. destruct i as [|[|i]]; [| |lia]; destruct a; cbn in *; lia.
Qed.
Lemma th_voce : voce_model echo demo_c. Proof. left. reflexivity. Qed.

Definition at0 (i : nat) : Visit R := {| v_s := demo_s; v_dt := /10; v_mtan := false; v_n := 2; v_i := i; v_m := demo_m; v_m1 := st_m1 |}.
Definition at1 (i : nat) : Visit R := {| v_s := demo_s; v_dt := /5; v_mtan := false; v_n := 2; v_i := i; v_m := st_m1; v_m1 := b_m1 st_c1 |}.
Lemma at0_visit i : (i < 2)%nat -> visit demo_c demo_pars echo noLU (at0 i).
Proof. intros Hi. refine (conj demo_in_use (conj (demo_batch demo_m (fun _ => eq_refl)) (conj Hi _))). exact (proj2 (proj2 (proj2 (demo_good (/10) demo_m demo_m_pos)))). Qed.
Lemma at1_visit i : (i < 2)%nat -> visit demo_c demo_pars echo noLU (at1 i).
Proof. intros Hi. refine (conj demo_in_use (conj st_b1 (conj Hi _))). exact (proj2 (proj2 (proj2 (demo_good (/5) st_m1 st_pos1)))). Qed.

Definition th_m (a : arr) : list R := match a with AE => [9; 8] | AS => [1; 2; 3; 4; 5; 6; 7;  8; 9; 10; 11; 12; 13; 14] | AT => [0; 1] | AB => [5; 6; 7; 8] | _ => demo_m a end.
Lemma th_entry (m m' : Mem R) a i k : m a = m' a -> entry demo_s m a i k = entry th_s m' a i k.
Proof. intros E. unfold entry. rewrite E, demo_strides, th_strides. reflexivity. Qed.
Lemma th_done0 : exists m1, mm_getResponse echo noLU demo_c th_s (/10) false (Z.of_nat 2) th_m = (BRet Done, m1).
Proof.
  apply (batch_thermo echo demo_c th_pars demo_pars echo noLU th_voce th_mech' th_s 2 th_m (/10) false th_in_use th_complete).
  { apply th_batch. intros a. now destruct a. }
  intros i Hi. exists (at0 i). refine (conj (at0_visit i Hi) (conj eq_refl (conj eq_refl (conj _ _)))).
  - intros a k Ha Hk. symmetry. apply th_entry. cbn [In] in Ha. destruct Ha as [<-|[<-|[<-|[]]]]; reflexivity.
  - intros k Hk Hn. symmetry. apply th_entry. reflexivity.
Qed.
Definition th_m1 : Mem R := snd (mm_getResponse echo noLU demo_c th_s (/10) false (Z.of_nat 2) th_m).
Definition th0 (i : nat) : Visit R := {| v_s := th_s; v_dt := /10; v_mtan := false; v_n := 2; v_i := i; v_m := th_m; v_m1 := th_m1 |}.
Lemma th0_visit i : (i < 2)%nat -> visit demo_c th_pars echo noLU (th0 i).
Proof.
  intros Hi. refine (conj th_in_use (conj _ (conj Hi _))); [apply th_batch; intros a; now destruct a|].
  cbn [th0 v_s v_dt v_mtan v_n v_m v_m1]. unfold th_m1. destruct th_done0 as [x E]. rewrite E. reflexivity.
Qed.
Lemma th0_drive i : same_drive demo_c (at0 i) (th0 i).
Proof. split; [reflexivity|]. split; [reflexivity|]. intros a k Ha Hk. apply th_entry. cbn [In] in Ha. destruct Ha as [<-|[<-|[<-|[]]]]; reflexivity. Qed.
Lemma th0_hist i : same_history demo_c demo_s demo_m i th_s th_m i.
Proof. intros k Hk Hn. apply th_entry. reflexivity. Qed.
Lemma th0_result i : (i < 2)%nat -> same_mech_result demo_c (at0 i) (th0 i).
Proof. intros Hi. exact (visit_thermo echo demo_c demo_pars th_pars echo noLU th_voce th_mech (at0 i) (th0 i) (at0_visit i Hi) (th0_visit i Hi) (th0_drive i) (th0_hist i)). Qed.

(** the second step: the history is handed on, energies and stresses are replaced *)
Definition th_mid (a : arr) : list R := match a with AH => th_m1 AH | AE => [-1; 3] | _ => th_m a end.
Lemma th_len a : List.length (th_mid a) = List.length (demo_m a).
Proof.
  destruct a; try reflexivity. change (th_mid AH) with (th_m1 AH). 
  destruct (in_use_ok _ _ _ th_in_use) as (HR & mat & tol & HM).
  assert (HB : batch_ok demo_c th_s false 2 th_m) by (apply th_batch; intros a; now destruct a).
  destruct (api_batch demo_c th_s echo noLU (/10) false 2 th_m mat tol HR th_complete HM HB) as (o & x & E & UT & _).
  unfold th_m1. rewrite E. cbn [snd]. exact (proj1 UT AH).
Qed.
Lemma st_ro a : In a [AD; AW; AV] -> st_m1 a = demo_m a.
Proof.
  intros Ha. destruct (in_use_ok _ _ _ demo_in_use) as (HR & mat & tol & HM).
  pose proof (demo_batch demo_m (fun _ => eq_refl)) as HB.
  destruct (api_batch demo_c demo_s echo noLU (/10) false 2 demo_m mat tol HR demo_complete HM HB) as (o & x & E & UT & _).
  pose proof (proj2 (proj2 (proj2 (demo_good (/10) demo_m demo_m_pos)))) as E'. cbn [demo_call b_n b_solver b_lu b_s b_dt b_mtan b_m] in E'.
  change (b_m1 (demo_call (/10) demo_m)) with st_m1 in E'. rewrite E in E'. assert (x = st_m1) by (clear - E'; congruence). subst x.
  apply (ro_not_own demo_c false _ _ _ _ a) in UT; [exact UT|]. cbn [In] in Ha. unfold ro. intuition.
Qed.
Lemma th_mid_hist i : (i < 2)%nat -> same_history demo_c demo_s st_m1 i th_s th_mid i.
Proof. intros Hi k Hk Hn. exact (proj1 (proj1 (proj2 (th0_result i Hi)) k Hk)). Qed.
Lemma th_mid_ro a : In a [AD; AW; AV] -> st_m1 a = th_mid a.
Proof. intros Ha. rewrite (st_ro a Ha). cbn [In] in Ha. destruct Ha as [<-|[<-|[<-|[]]]]; reflexivity. Qed.
Lemma th_done1 : exists m1, mm_getResponse echo noLU demo_c th_s (/5) false (Z.of_nat 2) th_mid = (BRet Done, m1).
Proof.
  apply (batch_thermo echo demo_c th_pars demo_pars echo noLU th_voce th_mech' th_s 2 th_mid (/5) false th_in_use th_complete).
  { apply th_batch. exact th_len. }
  intros i Hi. exists (at1 i). refine (conj (at1_visit i Hi) (conj eq_refl (conj eq_refl (conj _ _)))).
  - intros a k Ha Hk. symmetry. apply th_entry. exact (th_mid_ro a Ha).
  - intros k Hk Hn. symmetry. exact (th_mid_hist i Hi k Hk Hn).
Qed.
Definition th1 (i : nat) : Visit R := {| v_s := th_s; v_dt := /5; v_mtan := false; v_n := 2; v_i := i; v_m := th_mid; v_m1 := snd (mm_getResponse echo noLU demo_c th_s (/5) false (Z.of_nat 2) th_mid) |}.
Lemma th1_visit i : (i < 2)%nat -> visit demo_c th_pars echo noLU (th1 i).
Proof.
  intros Hi. refine (conj th_in_use (conj (th_batch th_mid th_len) (conj Hi _))).
  cbn [th1 v_s v_dt v_mtan v_n v_m v_m1]. destruct th_done1 as [x E]. rewrite E. reflexivity.
Qed.
Lemma th_case : hjourney demo_c demo_pars echo noLU [at0 1; at1 1] /\ hjourney demo_c th_pars echo noLU [th0 1; th1 1] /\
  Forall2 (same_drive demo_c) [at0 1; at1 1] [th0 1; th1 1] /\ same_hstart demo_c [at0 1; at1 1] [th0 1; th1 1].
Proof.
  split; [|split; [|split]].
  - split; [exact (at0_visit 1 (le_n 2))|]. split; [intros k _ _; reflexivity|]. split; [exact (at1_visit 1 (le_n 2))|]. split; exact I.
  - split; [exact (th0_visit 1 (le_n 2))|]. split; [intros k _ _; reflexivity|]. split; [exact (th1_visit 1 (le_n 2))|]. split; exact I.
  - constructor; [exact (th0_drive 1)|]. constructor; [|constructor]. split; [reflexivity|]. split; [reflexivity|]. intros a k Ha Hk. apply th_entry. exact (th_mid_ro a Ha).
  - exact (th0_hist 1).
Qed.
Lemma th_differ k : In k [0; 1; 15; 16]%nat -> nth_error demo_pars k <> nth_error th_pars k.
Proof. intros H X. cbn [In] in H. destruct H as [<-|[<-|[<-|[<-|[]]]]]; cbn in X; apply some_inj in X; lra. Qed.
Lemma th_start_differ : entry demo_s demo_m AE 1 0 <> entry th_s th_m AE 1 0 /\ entry demo_s demo_m AS 1 6 <> entry th_s th_m AS 1 6.
Proof. unfold entry. rewrite demo_strides, th_strides. split; intros X; cbn in X; apply some_inj in X; lra. Qed.
