(** Numeric facts about the literals. *)
From Coq Require Import List ZArith Bool Lia Reals Lra.
From Coquelicot Require Import Coquelicot.
From Verif Require Import Num NumR Const SpecConst.
Local Open Scope R_scope.

Notation dec := value.

Lemma dec_neg m p : dec (m, Zneg p) = IZR m / IZR (10 ^ Zpos p).
Proof. unfold value. cbn [fst snd powerRZ]. rewrite <- (positive_nat_Z p), <- pow_IZR. reflexivity. Qed.
Lemma dec_pos m p : dec (m, Zpos p) = IZR (m * 10 ^ Zpos p).
Proof. unfold value. cbn [fst snd powerRZ]. rewrite mult_IZR, <- (positive_nat_Z p), <- pow_IZR. reflexivity. Qed.

(** a literal [m/10^p] whose square is within 1e-18 of the rational a/b *)
Lemma near_sqrt m p a b : (0 < m)%Z -> (0 < a)%Z -> (0 < b)%Z ->
  (Z.abs (m * m * b - a * (10 ^ Zpos p * 10 ^ Zpos p)) * 10 ^ 16 < a * (10 ^ Zpos p * 10 ^ Zpos p))%Z ->
  Rabs (dec (m, Zneg p) - sqrt (IZR a / IZR b)) < / 10 ^ 16 * sqrt (IZR a / IZR b).
Proof.
  intros Hm Ha Hb H. rewrite dec_neg. set (q := (10 ^ Zpos p)%Z) in *.
  assert (Hq : (0 < q)%Z) by (apply Z.pow_pos_nonneg; lia).
  apply IZR_lt in Hm, Ha, Hb, Hq, H. rewrite !mult_IZR, abs_IZR, minus_IZR, !mult_IZR in H.
  change (IZR (10 ^ 16)) with (IZR 10000000000000000) in H.
  assert (Hr : 0 < IZR a / IZR b) by (apply Rdiv_lt_0_compat; lra).
  assert (Hs := sqrt_lt_R0 _ Hr). assert (Hss := sqrt_sqrt _ (Rlt_le _ _ Hr)).
  set (s := sqrt (IZR a / IZR b)) in *. set (x := IZR m / IZR q).
  assert (Hx : 0 < x) by (apply Rdiv_lt_0_compat; lra).
  assert (K : Rabs (x * x - s * s) * 10000000000000000 < s * s).
  { rewrite Hss. unfold x.
    replace (IZR m / IZR q * (IZR m / IZR q) - IZR a / IZR b)
      with ((IZR m * IZR m * IZR b - IZR a * (IZR q * IZR q)) / (IZR q * IZR q * IZR b)) by (field; lra).
    assert (D : 0 < IZR q * IZR q * IZR b) by (repeat apply Rmult_lt_0_compat; lra).
    unfold Rdiv at 1. rewrite Rabs_mult, (Rabs_right (/ _)) by (apply Rle_ge, Rlt_le, Rinv_0_lt_compat, D).
    apply (Rmult_lt_reg_r (IZR q * IZR q * IZR b)); [exact D|].
    replace (IZR a / IZR b * (IZR q * IZR q * IZR b)) with (IZR a * (IZR q * IZR q)) by (field; lra).
    replace (Rabs (IZR m * IZR m * IZR b - IZR a * (IZR q * IZR q)) * / (IZR q * IZR q * IZR b) * 10000000000000000 * (IZR q * IZR q * IZR b))
      with (Rabs (IZR m * IZR m * IZR b - IZR a * (IZR q * IZR q)) * 10000000000000000) by (field; lra).
    exact H. }
  replace (x * x - s * s) with ((x - s) * (x + s)) in K by ring. rewrite Rabs_mult, (Rabs_right (x + s)) in K by lra.
  change (10 ^ 16) with (IZR 10 ^ 16). rewrite pow_IZR. change (IZR (10 ^ Z.of_nat 16)) with (IZR 10000000000000000).
  assert (A := Rabs_pos (x - s)).
  apply (Rmult_lt_reg_r s); [exact Hs|].
  apply Rle_lt_trans with (Rabs (x - s) * (x + s)); [apply Rmult_le_compat_l; lra|]. lra.
Qed.

(** Taylor bounds of exp for x >= 0 *)
Lemma mono0 (f g : R -> R) : (forall t, is_derive f t (g t)) -> (forall t, 0 <= t -> 0 <= g t) -> 0 <= f 0 -> forall x, 0 <= x -> 0 <= f x.
Proof.
  intros D G F0 x Hx. destruct (Req_dec x 0) as [->|N]; [exact F0|].
  destruct (MVT_gen f 0 x g) as (t & Ht & E).
  - intros t _. apply D.
  - intros t _. apply continuity_pt_filterlim. apply (ex_derive_continuous f t). exists (g t). apply D.
  - rewrite Rmin_left in Ht by lra. assert (0 <= g t * (x - 0)) by (apply Rmult_le_pos; [apply G|]; lra). lra.
Qed.
Lemma exp_low0 x : 0 <= x -> 0 <= exp x - 1.
Proof. intros H. destruct (Req_dec x 0) as [->|N]; [rewrite exp_0; lra|]. assert (H1 := exp_ineq1 x N). lra. Qed.
Lemma exp_low1 x : 0 <= x -> 0 <= exp x - 1 - x.
Proof. intros H. destruct (Req_dec x 0) as [->|N]; [rewrite exp_0; lra|]. assert (H1 := exp_ineq1 x N). lra. Qed.
Lemma exp_low2 x : 0 <= x -> 0 <= exp x - 1 - x - x ^ 2 / 2.
Proof.
  revert x. apply (mono0 _ (fun t => exp t - 1 - t)); [|apply exp_low1|rewrite exp_0; lra].
  intros t. auto_derive; [easy|]. field.
Qed.
Lemma exp_low3 x : 0 <= x -> 0 <= exp x - 1 - x - x ^ 2 / 2 - x ^ 3 / 6.
Proof.
  revert x. apply (mono0 _ (fun t => exp t - 1 - t - t ^ 2 / 2)); [|apply exp_low2|rewrite exp_0; lra].
  intros t. auto_derive; [easy|]. field.
Qed.
Lemma expm_up0 x : 0 <= x -> 0 <= 1 - exp (- x).
Proof. intros H. assert (exp (-x) <= exp 0). { destruct (Req_dec x 0) as [->|N]; [right; f_equal; lra|]. left. apply exp_increasing. lra. } rewrite exp_0 in H0. lra. Qed.
Lemma expm_low1 x : 0 <= x -> 0 <= exp (- x) - 1 + x.
Proof.
  revert x. apply (mono0 _ (fun t => 1 - exp (- t))); [|apply expm_up0|rewrite Ropp_0, exp_0; lra].
  intros t. auto_derive; [easy|]. ring.
Qed.
Lemma expm_up2 x : 0 <= x -> 0 <= 1 - x + x ^ 2 / 2 - exp (- x).
Proof.
  revert x. apply (mono0 _ (fun t => exp (- t) - 1 + t)); [|apply expm_low1|rewrite Ropp_0, exp_0; lra].
  intros t. auto_derive; [easy|]. field.
Qed.
Lemma expm_low3 x : 0 <= x -> 0 <= exp (- x) - (1 - x + x ^ 2 / 2 - x ^ 3 / 6).
Proof.
  revert x. apply (mono0 _ (fun t => 1 - t + t ^ 2 / 2 - exp (- t))); [|apply expm_up2|rewrite Ropp_0, exp_0; lra].
  intros t. auto_derive; [easy|]. field.
Qed.

Lemma exp_pow x n : exp (INR n * x) = exp x ^ n.
Proof. induction n; [cbn; rewrite Rmult_0_l; apply exp_0|]. rewrite S_INR, Rmult_plus_distr_r, Rmult_1_l, exp_plus, IHn. cbn. ring. Qed.
(** ln 10 is between 2.3025 and 2.302665 *)
Definition ha : Z := 2302665.
Definition hb : Z := 64000000.
Lemma ln10_up : 10 < exp (2302665 / 1000000).
Proof.
  replace (2302665 / 1000000) with (INR 64 * (2302665 / 64000000)) by (rewrite INR_IZR_INZ; cbn [Z.of_nat Pos.of_succ_nat Pos.succ]; field).
  rewrite exp_pow. set (x := 2302665 / 64000000). assert (H := exp_low3 x ltac:(unfold x; lra)).
  apply Rlt_le_trans with ((1 + x + x ^ 2 / 2 + x ^ 3 / 6) ^ 64).
  2:{ apply pow_incr. split; [unfold x; lra|lra]. }
  clear H. set (N := (6 * hb ^ 3 + 6 * ha * hb ^ 2 + 3 * ha ^ 2 * hb + ha ^ 3)%Z). set (D := (6 * hb ^ 3)%Z).
  assert (E : 1 + x + x ^ 2 / 2 + x ^ 3 / 6 = IZR N / IZR D).
  { unfold N, D. cbv [ha hb]. rewrite ?plus_IZR, ?mult_IZR, <- ?(Zpower_nat_Z), ?Zpower_nat_Z. unfold x.
    repeat match goal with |- context [(?a ^ ?b)%Z] => let c := eval vm_compute in (a ^ b)%Z in change (a ^ b)%Z with c end. field. }
  rewrite E. unfold Rdiv. rewrite Rpow_mult_distr, pow_inv.
  assert (HD : 0 < IZR D ^ 64) by (apply pow_lt, IZR_lt; reflexivity).
  apply (Rmult_lt_reg_r (IZR D ^ 64)); [exact HD|]. rewrite Rmult_assoc, Rinv_l, Rmult_1_r by lra.
  rewrite !pow_IZR, <- mult_IZR. apply IZR_lt. vm_compute. reflexivity.
Qed.
Lemma ln10_low : exp (23025 / 10000) < 10.
Proof.
  assert (/ 10 < exp (- (23025 / 10000))).
  2:{ rewrite exp_Ropp in H. apply Rinv_lt_cancel in H; [exact H|lra]. }
  replace (- (23025 / 10000)) with (INR 64 * (- (23025 / 640000))) by (rewrite INR_IZR_INZ; cbn [Z.of_nat Pos.of_succ_nat Pos.succ]; field).
  rewrite exp_pow. set (x := 23025 / 640000). assert (H := expm_low3 x ltac:(unfold x; lra)).
  apply Rlt_le_trans with ((1 - x + x ^ 2 / 2 - x ^ 3 / 6) ^ 64).
  2:{ apply pow_incr. split; [unfold x; lra|lra]. }
  clear H. set (a := 23025%Z). set (b := 640000%Z).
  set (N := (6 * b ^ 3 - 6 * a * b ^ 2 + 3 * a ^ 2 * b - a ^ 3)%Z). set (D := (6 * b ^ 3)%Z).
  assert (E : 1 - x + x ^ 2 / 2 - x ^ 3 / 6 = IZR N / IZR D).
  { let n := eval vm_compute in N in change N with n. let d := eval vm_compute in D in change D with d. unfold x. field. }
  rewrite E. unfold Rdiv. rewrite Rpow_mult_distr, pow_inv.
  assert (HD : 0 < IZR D ^ 64) by (apply pow_lt, IZR_lt; reflexivity).
  apply (Rmult_lt_reg_r (10 * IZR D ^ 64)); [lra|]. replace (/ 10 * (10 * IZR D ^ 64)) with (IZR D ^ 64) by field.
  replace (IZR N ^ 64 * / IZR D ^ 64 * (10 * IZR D ^ 64)) with (10 * IZR N ^ 64) by (generalize (IZR N ^ 64); intros r; revert HD; generalize (IZR D ^ 64); intros; field; lra).
  rewrite !pow_IZR, <- mult_IZR. apply IZR_lt. vm_compute. reflexivity.
Qed.
Lemma near_close m p a b x : (0 < m)%Z -> (0 < a)%Z -> (0 < b)%Z -> 0 < x -> x * x = IZR a / IZR b ->
  (Z.abs (m * m * b - a * (10 ^ Zpos p * 10 ^ Zpos p)) * 10 ^ 16 < a * (10 ^ Zpos p * 10 ^ Zpos p))%Z ->
  close (m, Zneg p) x.
Proof.
  intros Hm Ha Hb Hx E H. assert (K := near_sqrt m p a b Hm Ha Hb H).
  assert (Q : sqrt (IZR a / IZR b) = x) by (rewrite <- E; apply sqrt_square; lra). rewrite Q in K.
  unfold close. rewrite (Rabs_right x) by lra. lra.
Qed.
Lemma exp_ln10 x y : exp x < 10 -> 10 < exp y -> x < ln 10 < y.
Proof. intros H1 H2. split; [rewrite <- (ln_exp x)|rewrite <- (ln_exp y)]; apply ln_increasing; try apply exp_pos; lra. Qed.
Lemma ln10 : 23025 / 10000 < ln 10 < 2302665 / 1000000.
Proof. apply exp_ln10; [apply ln10_low|apply ln10_up]. Qed.
Lemma ten_pow n : 10 ^ n = exp (INR n * ln 10).
Proof. rewrite exp_pow, exp_ln by lra. reflexivity. Qed.

Lemma model_roots :
  sqr2 = sqrt 2 /\ sqr3 = sqrt 3 /\ sqr6 = sqrt 6 /\ sqr3b2 = sqrt (3 / 2) /\ sqr2b3 = sqrt (2 / 3) /\ sqr2i = 1 / sqrt 2 /\
  sqr3i = 1 / sqrt 3 /\ sqr6i = 1 / sqrt 6 /\ halfsqr3 = sqrt 3 / 2 /\ twosqr3 = 2 * sqrt 3.
Proof.
  assert (H2 := s2_sq). assert (H3 := s3_sq). assert (P2 := s2_pos). assert (P3 := s3_pos).
  assert (P : 0 < s2 * s3) by (now apply Rmult_lt_0_compat).
  assert (Q : (s2 * s3) * (s2 * s3) = 6) by (transitivity ((s2 * s2) * (s3 * s3)); [ring|rewrite H2, H3; lra]).
  assert (S6 : sqrt 6 = s2 * s3) by (rewrite <- Q; apply sqrt_square; lra).
  rops. fold s2 s3. rewrite S6. repeat apply conj; try reflexivity.
  - symmetry. rewrite <- (sqrt_square (s2 * s3 / 2)) by lra. f_equal. transitivity ((s2 * s3) * (s2 * s3) / 4); [rewrite Q; lra|field].
  - symmetry. rewrite <- (sqrt_square (s2 * s3 / 3)) by lra. f_equal. transitivity ((s2 * s3) * (s2 * s3) / 9); [rewrite Q; lra|field].
  - apply (Rmult_eq_reg_r s2); [|lra]. transitivity (s2 * s2 / 2); [field|rewrite H2; field; lra].
  - apply (Rmult_eq_reg_r s3); [|lra]. transitivity (s3 * s3 / 3); [field|rewrite H3; field; lra].
  - apply (Rmult_eq_reg_r (s2 * s3)); [|lra]. transitivity ((s2 * s3) * (s2 * s3) / 6); [field|rewrite Q; field; lra].
Qed.

Lemma val_inv n : value (1%Z, Zneg n) = exp (- (IZR (Zpos n) * ln 10)).
Proof.
  unfold value. cbn [fst snd powerRZ]. rewrite ten_pow, <- exp_Ropp, Rmult_1_l, INR_IZR_INZ, positive_nat_Z. reflexivity.
Qed.
Lemma val_big n : value (1%Z, Zpos n) = exp (IZR (Zpos n) * ln 10).
Proof. unfold value. cbn [fst snd powerRZ]. rewrite ten_pow, Rmult_1_l, INR_IZR_INZ, positive_nat_Z. reflexivity. Qed.
Lemma exp99 : 99 / 100 = exp (ln (99 / 100)).
Proof. rewrite exp_ln; lra. Qed.
Lemma ln99 : ln (99 / 100) < - (1 / 100).
Proof.
  assert (H := exp_ineq1 (- (1 / 100)) ltac:(lra)). rewrite <- (ln_exp (- (1 / 100))). apply ln_increasing; lra.
Qed.
Lemma thresholds :
  0 < value lit_idp_tiny_sqrt < value lit_gam_ratio_min /\ value lit_gam_ratio_min < value lit_idp_eps_sqrt < 1 /\
  1 < value lit_gam_ratio_max < value lit_gam_ratio_ovffx /\ value lit_gam_ratio_ovffx < value lit_gam_ratio_ovf /\
  (99 / 100) * value lit_gam_ratio_min < exp (value lit_ln_gam_ratio_min) < value lit_gam_ratio_min /\
  (99 / 100) * value lit_gam_ratio_ovf < exp (value lit_ln_gam_ratio_ovf) < value lit_gam_ratio_ovf.
Proof.
  destruct ln10 as [L U]. assert (Q := ln99).
  unfold lit_idp_tiny_sqrt, lit_gam_ratio_min, lit_idp_eps_sqrt, lit_gam_ratio_max, lit_gam_ratio_ovffx, lit_gam_ratio_ovf.
  rewrite !val_inv, !val_big. rewrite exp99, <- !exp_plus. unfold value, lit_ln_gam_ratio_min, lit_ln_gam_ratio_ovf. cbn [fst snd powerRZ].
  change (Pos.to_nat 2) with 2%nat. replace (10 ^ 2) with 100 by lra.
  assert (E1 : forall x, x < 0 -> exp x < 1) by (intros x Hx; rewrite <- exp_0; now apply exp_increasing).
  assert (E2 : forall x, 0 < x -> 1 < exp x) by (intros x Hx; rewrite <- exp_0; now apply exp_increasing).
  repeat apply conj; try apply exp_pos; try (apply exp_increasing; lra); try (apply E1; lra); apply E2; lra.
Qed.
