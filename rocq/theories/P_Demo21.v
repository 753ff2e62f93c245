(** Two deforming crystals, and a spinning one with its tangent, in other units (C64). *)
From Coq Require Import List ZArith Bool Lia PeanoNat Reals Lra String.
From Verif Require Import Num Arr NumR Util SlipGeom Eos Hard KinVoce Elast Evptn MatModel Cases SpecTensor SpecElast SpecApi SpecStress SpecStep SpecKinApi SpecKin
  P_Tensor P_Elast P_Sngl P_Sngl2 P_Stress P_Api P_Batch2 P_Batch3 P_Builtin P_Slip P_Hist P_Call P_Demo P_Demo2 P_Demo3 P_Demo4 P_Demo5 P_Lu P_Demo6 P_Step
  P_Rigid4 P_Rigid3 SpecTan SpecUnits P_Units P_Units5 P_Units7.
Import ListNotations.
Local Open Scope R_scope.

(** stresses ten times larger in number, times a thousand times larger *)
Definition d21_pars : list R := [3 * 10 ^ 7; 20; /100; 30; 10; 10; 10; /10; /1000; 10; 10; 40; /20; /1000000; 10; 17/10; -6000].
Lemma d21_new hs : new_units 10 1000 (d2_c hs) demo_pars d21_pars.
Proof.
  split; [reflexivity|]. intros k. do 17 (destruct k as [|k]; [cbn; lra|]).
  rewrite (nth_overflow d21_pars), (nth_overflow demo_pars) by (cbn; lia). ring.
Qed.
Section D21.
  Variable hs : Solver R.
  Notation c := (d2_c hs).
  Definition d21_s : MM R := fst (mm_run c (mm_new c) [OInit [] d21_pars []; OComplete]).
  Lemma d21_init : exists s1, mm_init c (mm_new c) [] d21_pars [] = (Done, s1).
  Proof.
    destruct (@geom_fcc) as (g & Hg & _).
    eapply (init_done_conv c (mm_new c) [] d21_pars []
      {| pa_sg := g; pa_el := c_elSet c (sub d21_pars 3 3); pa_kin := voce_kinetics hs (voce_setParams false (sub d21_pars 6 9)) 12;
         pa_hist := voce_histInfo (voce_setParams false (sub d21_pars 6 9)); pa_bulk := 1 / 3 * (30 + 2 * 10) |}).
    - repeat split; cbn; lia.
    - refine (conj Hg (conj eq_refl (conj eq_refl _))).
      cbn [pa_el pa_bulk d2_c cls_FCC_A c_elSet]. unfold el_getBulkMod, cubic_setParams, d21_pars. cbn [el_K_bulkMod]. rarr.
      destruct (Rleb (1 / 3 * (30 + 2 * 10)) 0) eqn:E; [apply Rleb_true in E; lra|reflexivity].
    - reflexivity.
  Qed.
  Lemma d21_in_use : in_use c d21_s d21_pars.
  Proof.
    destruct d21_init as [s1 H].
    assert (E : d21_s = fst (mm_run c s1 [OComplete])).
    { unfold d21_s. rewrite mm_run_cons. cbn [mm_step]. rewrite H. reflexivity. }
    rewrite E. econstructor; [exact (reach_default c [])|exact H|]. repeat constructor.
  Qed.
  Lemma d21_complete : mm_complete d21_s = true.
  Proof. unfold d21_s. now rewrite run_complete. Qed.
  Lemma d21_strides : mm_strides d21_s = [7; 3; 4; 1; 7; 26; 1; 2]%nat.
  Proof. unfold d21_s. now rewrite run_strides. Qed.
End D21.

Definition d21_h (h : list R) : list R := map (fun k => hist_dim 10 1000 demo_c k * nth k h 0) (seq 0 26).
Definition d21_m : Mem R := fun a =>
  match a with
  | AD => map (Rmult (/ 1000)) (demo_m AD)
  | AW => map (Rmult (/ 1000)) (demo_m AW)
  | AE => map (Rmult 10) (demo_m AE)
  | AS => map (Rmult 10) (demo_m AS)
  | AH => d21_h (firstn 26 (demo_m AH)) ++ d21_h (skipn 26 (demo_m AH))
  | _ => demo_m a
  end.
Definition d21_b : BCall := demo_call (/ 10) demo_m.
Definition d21_b' : BCall := call_of demo_c (d21_s echo) echo noLU false 2 (1000 * / 10) d21_m.
Lemma d21_batch : batch_ok demo_c (d21_s echo) false 2 d21_m.
Proof.
  split.
  - rewrite d21_strides. split; [|discriminate]. intros a Ha. destruct a; reflexivity.
  - rewrite d21_strides. intros a i Hi Hp. destruct i as [|[|i]]; [| |lia]; destruct a; cbn in *; lia.
Qed.
Lemma d21_same i : (i < 2)%nat -> new_in 10 1000 demo_c d21_b i d21_b' i.
Proof.
  intros Hi. unfold new_in, vOld, vNew, delv, eInt. cbv zeta.
  change (b_s d21_b) with demo_s. change (b_s d21_b') with (d21_s echo). change (b_m d21_b) with demo_m. change (b_m d21_b') with d21_m.
  unfold val. rewrite demo_strides, d21_strides. unfold stride_of.
  refine (conj _ (conj _ (conj _ (conj _ (conj _ (conj _ (conj _ _))))))).
  - intros k Hk. destruct i as [|[|i]]; [| |lia]; do 6 (destruct k as [|k]; [cbn; ring|]); lia.
  - intros k Hk. destruct i as [|[|i]]; [| |lia]; do 3 (destruct k as [|k]; [cbn; ring|]); lia.
  - destruct i as [|[|i]]; [| |lia]; reflexivity.
  - destruct i as [|[|i]]; [| |lia]; reflexivity.
  - destruct i as [|[|i]]; [| |lia]; reflexivity.
  - destruct i as [|[|i]]; [| |lia]; cbn; ring.
  - intros k Hk. destruct i as [|[|i]]; [| |lia]; do 7 (destruct k as [|k]; [cbn; ring|]); lia.
  - intros k Hk. change (c_nslip demo_c) with 12%nat in Hk. destruct i as [|[|i]]; [| |lia]; do 26 (destruct k as [|k]; [cbn; ring|]); lia.
Qed.
Lemma side_zero kap : same_side kap 0.
Proof.
  unfold same_side. assert (P : 0 < / 10 ^ 90) by (apply Rinv_0_lt_compat, pow_lt; lra). rewrite Rmult_0_r. tauto.
Qed.
Lemma side_big x : / 10 < x -> same_side 1000 x.
Proof.
  intros H. assert (P : / 10 ^ 90 < / 10 ^ 4).
  { apply Rinv_lt_contravar; [apply Rmult_lt_0_compat; apply pow_lt; lra|apply Rlt_pow; [lra|lia]]. }
  unfold same_side. set (t := / 10 ^ 90) in *. clearbody t. assert (E : / 10 ^ 4 = / 10000) by (f_equal; ring). rewrite E in P. lra.
Qed.
Lemma big_rate M : 1 <= inner M M -> / 10 < sqrt (2 / 3) * norm3t M.
Proof.
  intros H. unfold norm3t. rewrite <- sqrt_mult_alt by lra. apply Rlt_le_trans with (sqrt (/ 2 * / 2)).
  - rewrite sqrt_square by lra. lra.
  - apply sqrt_le_1_alt. lra.
Qed.
Lemma no_shear s m i : (forall k, (k < 12)%nat -> val s m AH i (14 + k) = 0) -> shear_of demo_c s m i = 0.
Proof.
  intros H. unfold shear_of. replace (slip_rates demo_c s m i) with (map (fun _ : nat => 0) (seq 0 12)).
  - unfold shear_sum. cbn. rewrite Rabs_R0. ring.
  - unfold slip_rates. change (c_nslip demo_c) with 12%nat. apply map_ext_in. intros k Hk. apply in_seq in Hk. symmetry. apply H. lia.
Qed.
Lemma d21_off i : (i < 2)%nat -> off_limits 10 1000 demo_c d21_b i /\ trace (devRate (b_s d21_b) (b_m d21_b) i) = 0.
Proof.
  intros Hi. change (b_s d21_b) with demo_s. change (b_m d21_b) with demo_m. unfold off_limits.
  change (b_s d21_b) with demo_s. change (b_m d21_b) with demo_m.
  split; [split; [|split]|].
  - intros _. right. unfold strength, val. rewrite demo_strides. destruct i as [|[|i]]; [| |lia]; cbn; lra.
  - rewrite no_shear; [apply side_zero|]. intros k Hk. unfold val. rewrite demo_strides. destruct i as [|[|i]]; [| |lia]; do 12 (destruct k as [|k]; [reflexivity|]); lia.
  - apply side_big, big_rate. unfold devRate, val. rewrite demo_strides. destruct i as [|[|i]]; [| |lia]; unfold sym6, inner; cbn; lra.
  - unfold devRate, val. rewrite demo_strides. destruct i as [|[|i]]; [| |lia]; unfold trace, sym6; cbn; lra.
Qed.

(** the spinning crystal of P_Demo6; the linear solver undoes the change of units of the rows *)
Definition row_lu (n0 : nat) (d : nat -> R) (lu : LUSolver R) : LUSolver R := fun n A B k =>
  if Nat.eqb n n0 then lu n (row_times n d A) (tab2 k n (fun j i => d i * get2 n B j i)) k else None.
Lemma fold_ext (f g : nat -> R) n : (forall q, (q < n)%nat -> f q = g q) -> fold_right Rplus 0 (map f (seq 0 n)) = fold_right Rplus 0 (map g (seq 0 n)).
Proof. intros H. f_equal. apply map_ext_in. intros q Hq. apply in_seq in Hq. apply H. lia. Qed.
Lemma nth_row n d A i q : (i < n)%nat -> (q < n)%nat -> nth (i * n + q) (row_times n d A) 0 = d i * nth (i * n + q) A 0.
Proof.
  intros Hi Hq. change (nth (i * n + q) (row_times n d A) 0) with (get2 n (tab2 n n (fun r q => d r * get2 n A r q)) i q). now rewrite get2_tab2.
Qed.
Lemma row_lu_exact n0 d lu : (forall i, d i <> 0) -> solves_exactly lu -> solves_exactly (row_lu n0 d lu).
Proof.
  intros Hd H n A B k X L. unfold row_lu in L. destruct (Nat.eqb n n0); [|discriminate]. destruct (H _ _ _ _ _ L) as [S N]. split.
  - intros j i Hj Hi. specialize (S j i Hj Hi).
    rewrite (fold_ext _ (fun q => d i * (nth (i * n + q) A 0 * nth (j * n + q) X 0))) in S by (intros q Hq; rewrite nth_row by assumption; ring).
    rewrite P_Units6.fold_scal in S. change (nth (j * n + i) (tab2 k n (fun j i => d i * get2 n B j i)) 0) with (get2 n (tab2 k n (fun j i => d i * get2 n B j i)) j i) in S.
    rewrite get2_tab2 in S by assumption. apply Rmult_eq_reg_l in S; [exact S|apply Hd].
  - intros y Ly Hy i Hi. apply N; [exact Ly| |exact Hi]. intros r Hr.
    rewrite (fold_ext _ (fun q => d r * (nth (r * n + q) A 0 * nth q y 0))) by (intros q Hq; rewrite nth_row by assumption; ring).
    rewrite P_Units6.fold_scal, Hy by assumption. ring.
Qed.
Definition d21_lu : LUSolver R := row_lu 8 (row_unit 1000) d6_lu.
Lemma d21_lu_exact : solves_exactly d21_lu.
Proof. apply row_lu_exact; [|apply lu_by_exact]. intros i. unfold row_unit. destruct (Nat.ltb i 5); lra. Qed.
Lemma d21_lu_finds A B k : d6_lu 8%nat (row_times 8 (row_unit 1000) A) B k <> None -> d21_lu 8%nat A B k <> None.
Proof.
  unfold d21_lu, row_lu. cbn [Nat.eqb]. unfold d6_lu, lu_by. destruct (is_id 8 _ && is_id 8 _); [discriminate|congruence].
Qed.
Definition d21_m6 : Mem R := fun a =>
  match a with
  | AD => map (Rmult (/ 1000)) (d6_m AD)
  | AW => map (Rmult (/ 1000)) (d6_m AW)
  | AE => map (Rmult 10) (d6_m AE)
  | AS => map (Rmult 10) (d6_m AS)
  | AH => d21_h (d6_m AH)
  | _ => d6_m a
  end.
Definition d21_t : BCall := d6_call true.
Definition d21_t' : BCall :=
  call_of (d2_c checked) (d21_s checked) (offer (rest_x (d2_s checked) d6_m (/ 10) 0)) d21_lu true 1 (1000 * / 10) d21_m6.
Lemma d21_batch6 : batch_ok (d2_c checked) (d21_s checked) true 1 d21_m6.
Proof.
  split.
  - rewrite d21_strides. split; [|cbn; lia]. intros a Ha. destruct a; reflexivity.
  - rewrite d21_strides. intros a i Hi Hp. destruct i as [|i]; [|lia]; destruct a; cbn in *; lia.
Qed.
Lemma d21_same6 : new_in 10 1000 (d2_c checked) d21_t 0 d21_t' 0.
Proof.
  unfold new_in, vOld, vNew, delv, eInt. cbv zeta.
  change (b_s d21_t) with (d2_s checked). change (b_s d21_t') with (d21_s checked). change (b_m d21_t) with d6_m. change (b_m d21_t') with d21_m6.
  unfold val. rewrite d2_strides, d21_strides. unfold stride_of.
  refine (conj _ (conj _ (conj eq_refl (conj eq_refl (conj eq_refl (conj _ (conj _ _))))))).
  - intros k Hk. do 6 (destruct k as [|k]; [cbn; ring|]); lia.
  - intros k Hk. do 3 (destruct k as [|k]; [cbn; ring|]); lia.
  - cbn. ring.
  - intros k Hk. do 7 (destruct k as [|k]; [cbn; ring|]); lia.
  - intros k Hk. change (c_nslip (d2_c checked)) with 12%nat in Hk. do 26 (destruct k as [|k]; [cbn; ring|]); lia.
Qed.
Lemma d21_off6 : off_limits 10 1000 (d2_c checked) d21_t 0.
Proof.
  unfold off_limits. change (b_s d21_t) with (d2_s checked). change (b_m d21_t) with d6_m. split; [|split].
  - intros _. right. unfold strength, val. rewrite d2_strides. cbn. lra.
  - change (shear_of (d2_c checked) (d2_s checked) d6_m 0) with (shear_of demo_c (d2_s checked) d6_m 0).
    rewrite no_shear; [apply side_zero|]. intros k Hk. unfold val. rewrite d2_strides. do 12 (destruct k as [|k]; [reflexivity|]); lia.
  - replace (sqrt (2 / 3) * norm3t (devRate (d2_s checked) d6_m 0)) with 0; [apply side_zero|].
    unfold norm3t. replace (inner _ _) with 0; [rewrite sqrt_0; ring|]. unfold devRate, val. rewrite d2_strides. unfold sym6, inner. cbn. ring.
Qed.
