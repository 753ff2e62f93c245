(** Doubles: the stress, energy and temperature of one point are finite. *)
From Coq Require Import List ZArith Bool Lia PeanoNat Reals Lra.
From Flocq Require Import Core IEEE754.BinarySingleNaN.
From Verif Require Import Num Arr NumR Util SlipGeom Eos Hard Elast Evptn MatModel Cases Const NumD P_Dbl P_Dbl2 P_Dbl3 P_Dbl8 SpecDbl SpecDblFin P_Dbl13.
Import ListNotations.
Local Open Scope R_scope.

Lemma big_pow k : okz (Z.of_nat k) -> 2 ^ k = bpow radix2 (Z.of_nat k).
Proof. intros _. rewrite bpow_powerRZ, <- pow_powerRZ. reflexivity. Qed.
Lemma tiny_300 : / 10 ^ 300 <= bpow radix2 (-900).
Proof.
  change (bpow radix2 (-900)) with (/ IZR (2 ^ 900)). apply Rinv_le_contravar; [apply IZR_lt; reflexivity|].
  rewrite (pow_IZR 10 300). apply IZR_le. vm_compute. discriminate.
Qed.
Lemma pow_900 : bpow radix2 900 <= 10 ^ 300.
Proof. change (bpow radix2 900) with (IZR (2 ^ 900)). rewrite (pow_IZR 10 300). apply IZR_le. vm_compute. discriminate. Qed.
(** an accurate result has the size of the exact one, within a factor 2 *)
Lemma acc_hi y r k : accurate y r -> Rabs r <= bpow radix2 k -> (-800 <= k)%Z -> mag y (k + 1).
Proof.
  intros [F H] B K. split; [exact F|]. rewrite bpow_dbl. pose proof tiny_300 as T.
  assert (T2 : bpow radix2 (-900) <= / 4 * bpow radix2 k).
  { apply Rle_trans with (bpow radix2 (-2 + k)); [apply bpow_le; lia|]. rewrite bpow_plus. change (bpow radix2 (-2)) with (/ 4). lra. }
  replace (B2R y) with (r + (B2R y - r)) by ring. apply Rle_trans with (1 := Rabs_triang _ _).
  assert (Q : / 2 ^ 50 * Rabs r <= / 4 * Rabs r).
  { apply Rmult_le_compat_r; [apply Rabs_pos|]. apply Rinv_le_contravar; [lra|]. apply Rle_trans with (2 ^ 2); [lra|]. apply Rle_pow; [lra|lia]. }
  pose proof (Rabs_pos r). set (t := / 10 ^ 300) in *. clearbody t. set (c := / 2 ^ 50) in *. clearbody c. lra.
Qed.
Lemma acc_lo y r k : accurate y r -> bpow radix2 k <= r -> (-800 <= k)%Z -> bpow radix2 (k - 1) <= B2R y.
Proof.
  intros [F H] B K. pose proof tiny_300 as T. pose proof (bpow_gt_0 radix2 k) as P.
  assert (T2 : bpow radix2 (-900) <= / 4 * bpow radix2 k).
  { apply Rle_trans with (bpow radix2 (-2 + k)); [apply bpow_le; lia|]. rewrite bpow_plus. change (bpow radix2 (-2)) with (/ 4). lra. }
  assert (Q : / 2 ^ 50 * Rabs r <= / 4 * Rabs r).
  { apply Rmult_le_compat_r; [apply Rabs_pos|]. apply Rinv_le_contravar; [lra|]. apply Rle_trans with (2 ^ 2); [lra|]. apply Rle_pow; [lra|lia]. }
  rewrite (Rabs_pos_eq r) in * by lra. apply abs_le in H. unfold Zminus. rewrite bpow_plus. change (bpow radix2 (- (1))) with (/ 2).
  set (t := / 10 ^ 300) in *. clearbody t. set (c := / 2 ^ 50) in *. clearbody c. lra.
Qed.
Lemma ln_le x y : 0 < x -> x <= y -> ln x <= ln y.
Proof. intros P [H| ->]; [left; now apply ln_increasing|right; reflexivity]. Qed.
Lemma ln_bpow k : ln (bpow radix2 k) = IZR k * ln 2.
Proof. rewrite bpow_exp, ln_exp. reflexivity. Qed.
Lemma ln2_le : 0 <= ln 2 <= 1.
Proof.
  split; [rewrite <- ln_1; apply ln_le; lra|]. rewrite <- (ln_exp 1). apply ln_le; [lra|]. pose proof (exp_ineq1 1). lra.
Qed.
Lemma ln_mag x k : (0 <= k)%Z -> bpow radix2 (- k) <= x <= bpow radix2 k -> Rabs (ln x) <= IZR k.
Proof.
  intros K [A B]. pose proof (bpow_gt_0 radix2 (- k)) as P. pose proof ln2_le as [L0 L1].
  assert (XP : 0 < x) by lra. apply ln_le in A; [|exact P]. apply ln_le in B; [|exact XP]. rewrite ln_bpow in A, B. rewrite opp_IZR in A. apply IZR_le in K.
  assert (IZR k * ln 2 <= IZR k * 1) by (apply Rmult_le_compat_l; lra). apply abs_le. lra.
Qed.
Lemma exp_hi x n : x <= INR n -> exp x <= bpow radix2 (2 * Z.of_nat n).
Proof.
  intros H. apply Rle_trans with (exp (INR n)). { destruct H as [H| ->]; [left; now apply exp_increasing|right; reflexivity]. }
  clear H. induction n as [|n IH].
  - cbn [INR Z.of_nat Z.mul]. rewrite exp_0. right; reflexivity.
  - rewrite S_INR, exp_plus. replace (2 * Z.of_nat (S n))%Z with (2 * Z.of_nat n + 2)%Z by lia. rewrite bpow_plus.
    change (bpow radix2 2) with 4. apply Rmult_le_compat; [left; apply exp_pos|left; apply exp_pos|exact IH|]. pose proof exp_le_3. lra.
Qed.
Lemma rpower_frac x y k : (0 <= k)%Z -> bpow radix2 (- k) <= x <= bpow radix2 k -> 0 <= y <= 1 -> bpow radix2 (- k) <= Rpower x y <= bpow radix2 k.
Proof.
  intros K [A B] [Y0 Y1]. pose proof (bpow_gt_0 radix2 (- k)) as P. pose proof ln2_le as [L0 L1].
  assert (XP : 0 < x) by lra. apply ln_le in A; [|exact P]. apply ln_le in B; [|exact XP]. rewrite ln_bpow in A, B. rewrite !bpow_exp. rewrite opp_IZR in *. apply IZR_le in K.
  change (IZR radix2) with 2. unfold Rpower. set (l := ln x) in *. set (q := ln 2) in *. clearbody l q.
  assert (KQ : 0 <= IZR k * q) by (apply Rmult_le_pos; lra).
  assert (H1 : y * (IZR k * q) <= IZR k * q) by (rewrite <- (Rmult_1_l (IZR k * q)) at 2; apply Rmult_le_compat_r; lra).
  assert (H2 : y * l <= y * (IZR k * q)) by (apply Rmult_le_compat_l; lra).
  assert (H3 : y * (- (IZR k * q)) <= y * l) by (apply Rmult_le_compat_l; lra).
  assert (E : forall a b, a <= b -> exp a <= exp b). { intros a b [H| ->]; [left; now apply exp_increasing|right; reflexivity]. }
  split; apply E; lra.
Qed.

Lemma moderate_mag x : moderate x -> mag x 100.
Proof.
  intros [F B]. split; [exact F|]. apply Rle_trans with (1 := B). change (bpow radix2 100) with (IZR (2 ^ 100)).
  rewrite (pow_IZR 10 30). apply IZR_le. vm_compute. discriminate.
Qed.
Lemma vol_range x : / 1000 <= x <= 1000 -> bpow radix2 (- (10)) <= x <= bpow radix2 10.
Proof. change (bpow radix2 (- (10))) with (/ 1024). change (bpow radix2 10) with 1024. lra. Qed.

Section L.
  Variable L : Libm.
  Let DN : Num dbl := DNum L.
  #[local] Existing Instance DN.
  Hypothesis LM : libm_ok L.

  Lemma mag_sqr3 : mag (sqr3 : dbl) 1.
  Proof.
    apply mag_R2D; [unfold okz; lia|]. cbn [fst snd lit_SQRT3]. rewrite rlit_neg. change (bpow radix2 1) with 2.
    replace (10 ^ 29)%Z with 100000000000000000000000000000%Z by reflexivity. rewrite Rabs_pos_eq; lra.
  Qed.
  Lemma third_01 : fin (onethird : dbl) /\ 0 <= B2R (onethird : dbl) <= 1.
  Proof.
    unfold onethird, one, three. cbn [ndiv nZ DN DNum].
    destruct (Z2D_ok 1 ltac:(lia)) as [F1 V1], (Z2D_ok 3 ltac:(lia)) as [F3 V3].
    assert (Q : B2R (Z2D 1) / B2R (Z2D 3) = / 3) by (rewrite V1, V3; lra).
    destruct (div_ok (Z2D 1) (Z2D 3) F1) as [F V]; [rewrite V3; lra|rewrite Q, Rabs_pos_eq by lra; pose proof big_10; lra|].
    rewrite Q in V. split; [exact F|]. rewrite V. split; [apply rnd_nonneg; lra|]. pose proof (rnd_err (/ 3)) as H.
    rewrite (Rabs_pos_eq (/ 3)) in H by lra. apply abs_le in H. pose proof eta_uu. unfold uu in *. lra.
  Qed.
  (** cube root of the relative volume, and its logarithm *)
  Lemma aV_mag (v : dbl) : fin v -> bpow radix2 (- (10)) <= B2R v <= bpow radix2 10 -> let a := lm_pow L v onethird in
    fin a /\ bpow radix2 (- (11)) <= B2R a <= bpow radix2 11.
  Proof.
    intros F B. destruct third_01 as [F3 B3]. pose proof (rpower_frac _ _ 10 ltac:(lia) B B3) as R.
    pose proof (bpow_gt_0 radix2 (- (10))) as P. pose proof pow_900 as P9. destruct LM as (_ & _ & HP).
    assert (X : bpow radix2 10 <= bpow radix2 900) by (apply bpow_le; lia).
    pose proof (HP v onethird F F3 ltac:(lra) ltac:(set (t := 10 ^ 300) in *; clearbody t; lra)) as A.
    cbv zeta. destruct (acc_hi _ _ 10 A) as [FA HA]; [rewrite Rabs_pos_eq; lra|lia|].
    pose proof (acc_lo _ _ (- (10)) A ltac:(lra) ltac:(lia)) as LA.
    split; [exact FA|]. apply abs_le in HA. split; [exact LA|]. apply HA.
  Qed.
  Lemma log_mag (a : dbl) : fin a -> bpow radix2 (- (11)) <= B2R a <= bpow radix2 11 -> mag (lm_log L a) 5.
  Proof.
    intros F B. pose proof (bpow_gt_0 radix2 (- (11))) as P. destruct LM as (_ & HL & _).
    pose proof (ln_mag _ 11 ltac:(lia) B) as H. eapply mag_le; [apply (acc_hi _ _ 4 (HL a F ltac:(lra)))|lia].
    - change (bpow radix2 4) with 16. lra.
    - lia.
  Qed.
  Lemma exp_mag (x : dbl) : mag x 7 -> mag (lm_exp L x) 257.
  Proof.
    intros [F B]. destruct LM as (HE & _ & _). change (bpow radix2 7) with 128 in B. apply abs_le in B.
    assert (H : exp (B2R x) <= bpow radix2 256). { apply (exp_hi _ 128). replace (INR 128) with 128 by (rewrite INR_IZR_INZ; reflexivity). lra. }
    pose proof (exp_pos (B2R x)). apply (acc_hi _ (exp (B2R x)) 256); [|rewrite Rabs_pos_eq; lra|lia].
    apply HE; [exact F|]. apply Rle_trans with (1 := H). apply Rle_trans with (2 := pow_900). apply bpow_le. lia.
  Qed.

  (** rotation *)
  Lemma rot_mag q : (forall i, (i < 4)%nat -> mag (get q i) 1) -> mags (get_rot_mat_vecd (quat_to_tensor q)) 20.
  Proof.
    intros H. pose proof (H 0%nat ltac:(lia)) as H0. pose proof (H 1%nat ltac:(lia)) as H1. pose proof (H 2%nat ltac:(lia)) as H2. pose proof (H 3%nat ltac:(lia)) as H3.
    assert (C : mags (quat_to_tensor q) 8).
    { unfold quat_to_tensor. cbv zeta. unfold two. cbn [nadd nsub nmul nZ DN DNum].
      set (a := get q 0) in *. set (b := get q 1) in *. set (c := get q 2) in *. set (d := get q 3) in *. clearbody a b c d. clear H.
      repeat (apply Forall_cons; [mgt|]). apply Forall_nil. }
    assert (CL : length (quat_to_tensor q) = 9%nat) by reflexivity.
    assert (G : forall i j, (i < 3)%nat -> (j < 3)%nat -> mag (get2 3 (quat_to_tensor q) i j) 8).
    { intros i j Hi Hj. unfold get2. apply (mags_get L); [exact C|]. rewrite CL. nia. }
    set (M := quat_to_tensor q) in *. clearbody M. clear C CL.
    unfold get_rot_mat_vecd. cbv zeta.
    pose proof (G 0 0 ltac:(lia) ltac:(lia))%nat as G00. pose proof (G 0 1 ltac:(lia) ltac:(lia))%nat as G01. pose proof (G 0 2 ltac:(lia) ltac:(lia))%nat as G02.
    pose proof (G 1 0 ltac:(lia) ltac:(lia))%nat as G10. pose proof (G 1 1 ltac:(lia) ltac:(lia))%nat as G11. pose proof (G 1 2 ltac:(lia) ltac:(lia))%nat as G12.
    pose proof (G 2 0 ltac:(lia) ltac:(lia))%nat as G20. pose proof (G 2 1 ltac:(lia) ltac:(lia))%nat as G21. pose proof (G 2 2 ltac:(lia) ltac:(lia))%nat as G22.
    clear G. set (m00 := get2 3 M 0 0) in *. set (m01 := get2 3 M 0 1) in *. set (m02 := get2 3 M 0 2) in *.
    set (m10 := get2 3 M 1 0) in *. set (m11 := get2 3 M 1 1) in *. set (m12 := get2 3 M 1 2) in *.
    set (m20 := get2 3 M 2 0) in *. set (m21 := get2 3 M 2 1) in *. set (m22 := get2 3 M 2 2) in *.
    clearbody m00 m01 m02 m10 m11 m12 m20 m21 m22. clear H0 H1 H2 H3 H.
    assert (HF : mag (R2D (Rlit 5 (-1))) 0). { apply mag_R2D; [unfold okz; lia|]. rewrite rlit_neg. change (10 ^ 1)%Z with 10%Z. change (bpow radix2 0) with 1. rewrite Rabs_pos_eq; lra. }
    assert (HT : mag (R2D (Rlit 15 (-1))) 1). { apply mag_R2D; [unfold okz; lia|]. rewrite rlit_neg. change (10 ^ 1)%Z with 10%Z. change (bpow radix2 1) with 2. rewrite Rabs_pos_eq; lra. }
    pose proof mag_sqr3 as H3. unfold onehalf, thrhalf. set (s := sqr3) in *. clearbody s.
    cbn [nadd nsub nmul nlit DN DNum]. set (hf := R2D (Rlit 5 (-1))) in *. set (ht := R2D (Rlit 15 (-1))) in *. clearbody hf ht.
    repeat (apply Forall_cons; [mgt|]). apply Forall_nil.
  Qed.
  Lemma stress_mag q C k : (0 <= k <= 900)%Z -> (forall i, (i < 4)%nat -> mag (get q i) 1) -> (forall i, (i < 6)%nat -> mag (get C i) k) ->
    length (stress_out q C) = 7%nat /\ mags (stress_out q C) (k + 40).
  Proof.
    intros K HQ HC. split; [reflexivity|]. unfold stress_out. cbv zeta.
    pose proof (rot_mag q HQ) as R. assert (RL : length (get_rot_mat_vecd (quat_to_tensor q)) = 25%nat) by reflexivity.
    set (Q := get_rot_mat_vecd (quat_to_tensor q)) in *. clearbody Q.
    assert (V : forall i, (i < 5)%nat -> mag (get (vecsVMa 5 5 Q C) i) (k + 25)).
    { intros i Hi. unfold vecsVMa. rewrite get_tab by exact Hi. replace (k + 25)%Z with (20 + k + Z.of_nat 5)%Z by lia.
      apply (mag_dot L 5 (fun iQ => get2 5 Q i iQ) (fun iQ => get C iQ) 20 k); [lia|lia|]. intros j Hj. split; [|apply HC; lia].
      unfold get2. apply (mags_get L); [exact R|]. rewrite RL. nia. }
    assert (VL : length (vecsVMa 5 5 Q C) = 5%nat) by reflexivity.
    set (v := vecsVMa 5 5 Q C) in *. clearbody v. clear R RL Q.
    pose proof (HC 5%nat ltac:(lia)) as H5. unfold iSvecS. set (c5 := get C 5) in *. clearbody c5.
    destruct v as [|v0 [|v1 [|v2 [|v3 [|v4 [|]]]]]]; try discriminate VL.
    pose proof (V 0%nat ltac:(lia)) as V0. pose proof (V 1%nat ltac:(lia)) as V1. pose proof (V 2%nat ltac:(lia)) as V2.
    pose proof (V 3%nat ltac:(lia)) as V3. pose proof (V 4%nat ltac:(lia)) as V4. cbn [get nth] in V0, V1, V2, V3, V4.
    unfold vecdsToSvecP. cbv zeta. cbn [app get nth]. unfold iSvecS. cbn [nth].
    cbn [nadd nsub nmul nopp sqr2i sqr6i sqr2b3 sqr3i DN DNum].
    apply (mag_le _ _ (k + 25)) in H5; [|lia]. 
    assert (MC : forall l x, mag (dconst l) 2 -> mag x (k + 25) -> mag (Bmult mode_NE (dconst l) x) (k + 27)).
    { intros l x A B. replace (k + 27)%Z with (2 + (k + 25))%Z by lia. apply mag_mul; [assumption|assumption|unfold okz; lia]. }
    assert (MS : forall x y, mag x (k + 27) -> mag y (k + 27) -> mag (Bminus mode_NE x y) (k + 28)).
    { intros x y A B. replace (k + 28)%Z with (Z.max (k + 27) (k + 27) + 1)%Z by lia. apply mag_sub; [assumption|assumption|unfold okz; lia]. }
    assert (ML : forall x j, mag x (k + j) -> (j <= 40)%Z -> mag x (k + 40)) by (intros; eapply mag_le; [eassumption|lia]).
    assert (MO : forall x, mag x (k + 27) -> mag (Bopp x) (k + 27)) by (intros; now apply mag_opp).
    assert (A1 : mag (dconst lit_SQRT2I) 2) by (apply mag_const; cbn; lia). assert (A2 : mag (dconst lit_SQRT6I) 2) by (apply mag_const; cbn; lia).
    assert (A3 : mag (dconst lit_SQRT2B3) 2) by (apply mag_const; cbn; lia). assert (A4 : mag (dconst lit_SQRT3I) 2) by (apply mag_const; cbn; lia).
    apply Forall_cons; [apply (ML _ 28%Z); [apply MS; now apply MC|lia]|].
    apply Forall_cons; [apply (ML _ 28%Z); [apply MS; [apply MO|]; now apply MC|lia]|].
    do 4 (apply Forall_cons; [apply (ML _ 27%Z); [now apply MC|lia]|]).
    apply Forall_cons; [|apply Forall_nil]. apply (ML _ 27%Z); [|lia].
    replace (k + 27)%Z with (2 + (k + 25))%Z by lia. apply mag_mul; [now apply mag_opp|exact H5|unfold okz; lia].
  Qed.
End L.
