(** Two calculations with the dislocation-density model that differ in density, Grueneisen constant and stresses (C77). *)
From Coq Require Import List ZArith Bool Lia PeanoNat Reals Lra String.
From Verif Require Import Num Arr NumR Util SlipGeom Eos Hard KinVoce KinKMBalD Elast Evptn MatModel Cases P_Sngl P_Batch P_Batch2 P_Batch3 P_Api P_Api2 P_Builtin SpecApi P_Hist SpecBatch P_Batch4 P_Demo SpecKin P_KinV P_Hard P_Call P_Demo2 P_Demo3
  SpecState SpecThermo P_Thermo P_Thermo2 SpecTemp P_Temp P_Slip SpecKinApi.
Import ListNotations.
Local Open Scope R_scope.

Definition tm_g : list R := [1; 0; -1; 0; 0; 0; 0; 0; 0; 0; 0; 2].
Definition tm_lo : R := - (2 / 5).
Definition tm_hs : Solver R := offer [- tm_lo].
Definition tm_c : MClass R := d3_c tm_hs.
Lemma tm_good : good tm_hs tm_c (d3_call (- tm_lo) tm_lo tm_g).
Proof.
  apply (d3_good tm_lo tm_g); [reflexivity|unfold tm_lo; lra|]. unfold tm_lo, shear_sum, tm_g. cbn. rewrite Rabs_R0, Rabs_R1, (Rabs_left (-1)), (Rabs_right 2) by lra. lra.
Qed.
Definition tm_pars : list R := [5; 2; /100; 3; 1; 1] ++ [1; 1; 30; 0; 1; 1; 1; 1; 1; 1; 0; 2; 1; 0; 1; 1] ++ [4; -600].
Definition tm_s : MM R := fst (mm_run tm_c (mm_new tm_c) [OInit [] tm_pars []; OComplete]).
Lemma tm_mech : same_but_pressure tm_c tm_pars d3_pars.
Proof. intros k K1 K2 K3. change (mm_nParams tm_c) with 24%nat in K1, K3. unfold d3_pars, tm_pars. cbn [app]. destruct k as [|k]; [lia|]. do 21 (destruct k as [|k]; [reflexivity|]). destruct k as [|k]; [lia|]. destruct k as [|k]; [reflexivity|]. lia. Qed.
Lemma tm_mech' : same_but_pressure tm_c d3_pars tm_pars.
Proof. intros k K1 K2 K3. symmetry. now apply tm_mech. Qed.
Lemma tm_mts : mts_cubic tm_hs tm_c. Proof. left. reflexivity. Qed.
Lemma tm_kin : c_kinSet tm_c (sub tm_pars 6 16) = Some (km_kinetics tm_hs d3_k 12, km_histInfo d3_k).
Proof. exact (d3_kin tm_hs). Qed.
Lemma tm_init : exists s1, mm_init tm_c (mm_new tm_c) [] tm_pars [] = (Done, s1).
Proof.
  destruct (@geom_fcc) as (g & Hg & _).
  eapply (init_done_conv tm_c (mm_new tm_c) [] tm_pars []
    {| pa_sg := g; pa_el := c_elSet tm_c (sub tm_pars 3 3); pa_kin := km_kinetics tm_hs d3_k 12;
       pa_hist := km_histInfo d3_k; pa_bulk := 1 / 3 * (3 + 2 * 1) |}).
  - repeat split; cbn; lia.
  - refine (conj Hg (conj eq_refl (conj tm_kin _))).
    cbn [pa_el pa_bulk tm_c d3_c cls_FCC_B c_elSet]. unfold el_getBulkMod, cubic_setParams, tm_pars. cbn [el_K_bulkMod app]. rarr.
    destruct (Rleb (1 / 3 * (3 + 2 * 1)) 0) eqn:E; [apply Rleb_true in E; lra|reflexivity].
  - reflexivity.
Qed.
Lemma tm_in_use : in_use tm_c tm_s tm_pars.
Proof.
  destruct tm_init as [s1 H].
  assert (E : tm_s = fst (mm_run tm_c s1 [OComplete])).
  { unfold tm_s. rewrite mm_run_cons. cbn [mm_step]. rewrite H. reflexivity. }
  rewrite E. econstructor; [exact (reach_default tm_c [])|exact H|]. repeat constructor.
Qed.
Lemma tm_complete : mm_complete tm_s = true.
Proof. unfold tm_s. now rewrite run_complete. Qed.
Lemma tm_strides : mm_strides tm_s = [7; 3; 4; 1; 7; 26; 1; 2]%nat.
Proof. unfold tm_s. now rewrite run_strides. Qed.
Definition tm_m (a : arr) : list R := match a with AS => [1; 2; 3; 4; 5; 6; 7] | AT => [9] | AB => [5; 6] | _ => d3_m tm_lo tm_g a end.
Lemma tm_batch : batch_ok tm_c tm_s false 1 tm_m.
Proof.
  split.
  - rewrite tm_strides. split; [|discriminate]. intros a Ha. destruct a; reflexivity.
  - rewrite tm_strides. intros a i Hi Hp. destruct i as [|i]; [|lia]; destruct a; cbn in *; lia.
Qed.
Definition tm0 : Visit R := {| v_s := d3_s tm_hs; v_dt := /10; v_mtan := false; v_n := 1; v_i := 0; v_m := d3_m tm_lo tm_g; v_m1 := b_m1 (d3_call (- tm_lo) tm_lo tm_g) |}.
Lemma tm0_visit : visit tm_c d3_pars echo noLU tm0.
Proof. refine (conj (d3_in_use tm_hs) (conj (d3_batch tm_hs tm_lo tm_g eq_refl) (conj (le_n 1) _))). exact (proj2 (proj2 (proj2 tm_good))). Qed.
Lemma tm_entry (m m' : Mem R) a i k : m a = m' a -> entry (d3_s tm_hs) m a i k = entry tm_s m' a i k.
Proof. intros E. unfold entry. rewrite E, d3_strides, tm_strides. reflexivity. Qed.
Lemma tm_done : exists m1, mm_getResponse echo noLU tm_c tm_s (/10) false (Z.of_nat 1) tm_m = (BRet Done, m1).
Proof.
  apply (batch_cubic tm_hs tm_c tm_pars d3_pars echo noLU tm_mts tm_mech tm_s 1 tm_m (/10) false tm_in_use tm_complete tm_batch).
  intros i Hi. assert (i = 0%nat) by lia. subst i. exists tm0. refine (conj tm0_visit (conj eq_refl (conj eq_refl (conj _ (conj _ _))))).
  - intros a k Ha Hk. symmetry. apply tm_entry. cbn [In] in Ha. destruct Ha as [<-|[<-|[<-|[]]]]; reflexivity.
  - symmetry. apply tm_entry. reflexivity.
  - intros k Hk Hn. symmetry. apply tm_entry. reflexivity.
Qed.
Definition tm1 : Visit R := {| v_s := tm_s; v_dt := /10; v_mtan := false; v_n := 1; v_i := 0; v_m := tm_m; v_m1 := snd (mm_getResponse echo noLU tm_c tm_s (/10) false (Z.of_nat 1) tm_m) |}.
Lemma tm1_visit : visit tm_c tm_pars echo noLU tm1.
Proof.
  refine (conj tm_in_use (conj tm_batch (conj (le_n 1) _))). cbn [tm1 v_s v_dt v_mtan v_n v_m v_m1]. destruct tm_done as [x E]. rewrite E. reflexivity.
Qed.
Lemma tm_case : hjourney tm_c d3_pars echo noLU [tm0] /\ hjourney tm_c tm_pars echo noLU [tm1] /\
  Forall2 (same_drive tm_c) [tm0] [tm1] /\ Forall2 same_energy [tm0] [tm1] /\ same_hstart tm_c [tm0] [tm1].
Proof.
  split; [|split; [|split; [|split]]].
  - split; [exact tm0_visit|]. split; exact I.
  - split; [exact tm1_visit|]. split; exact I.
  - constructor; [|constructor]. split; [reflexivity|]. split; [reflexivity|]. intros a k Ha Hk. apply tm_entry. cbn [In] in Ha. destruct Ha as [<-|[<-|[<-|[]]]]; reflexivity.
  - constructor; [|constructor]. apply tm_entry. reflexivity.
  - intros k Hk Hn. apply tm_entry. reflexivity.
Qed.
Lemma tm_differ k : In k [0; 22]%nat -> nth_error d3_pars k <> nth_error tm_pars k.
Proof. intros H X. cbn [In] in H. destruct H as [<-|[<-|[]]]; cbn in X; apply some_inj in X; lra. Qed.
Lemma tm_start_differ : entry (d3_s tm_hs) (d3_m tm_lo tm_g) AS 0 6 <> entry tm_s tm_m AS 0 6.
Proof. unfold entry. rewrite d3_strides, tm_strides. intros X; cbn in X; apply some_inj in X; lra. Qed.
