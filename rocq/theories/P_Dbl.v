(** Doubles: what a finite result of an operation says about its operands, and how far it is from the exact one. *)
From Coq Require Import List ZArith Bool Lia Reals Lra.
From Flocq Require Import Core IEEE754.BinarySingleNaN Relative.
From Verif Require Import Num NumR NumD.
Import ListNotations.
Local Open Scope R_scope.

Notation fin x := (is_finite x = true).
Notation nan x := (is_nan x = true).
Definition uu : R := / 9007199254740992.         (* 2^-53 *)
Definition eta : R := bpow radix2 (-1075).
Lemma uu_bpow : uu = bpow radix2 (-53).
Proof. reflexivity. Qed.
Lemma eta_pos : 0 < eta.
Proof. apply bpow_gt_0. Qed.

#[export] Instance dfexp_valid : Valid_exp dfexp.
Proof. apply fexp_correct. exact dprec. Qed.
Lemma dfexp_FLT e : dfexp e = FLT_exp (-1074) 53 e.
Proof. unfold dfexp, SpecFloat.fexp, SpecFloat.emin, FLT_exp. reflexivity. Qed.

Lemma rnd_err x : Rabs (rnd x - x) <= uu * Rabs x + eta.
Proof.
  assert (E : rnd x = round radix2 (FLT_exp (-1074) 53) ZnearestE x) by reflexivity.
  rewrite E. destruct (error_N_FLT radix2 (-1074) 53 eq_refl (fun n => negb (Z.even n)) x) as (e & h & He & Hh & _ & Er).
  rewrite Er. replace (x * (1 + e) + h - x) with (x * e + h) by ring.
  eapply Rle_trans; [apply Rabs_triang|]. apply Rplus_le_compat.
  - rewrite Rabs_mult, Rmult_comm. apply Rmult_le_compat_r; [apply Rabs_pos|].
    eapply Rle_trans; [exact He|]. rewrite uu_bpow. change (bpow radix2 (- (53) + 1)) with (/ 4503599627370496).
    change (bpow radix2 (-53)) with (/ 9007199254740992). lra.
  - eapply Rle_trans; [exact Hh|]. unfold eta. change (-1074)%Z with (1 + -1075)%Z. rewrite bpow_plus.
    change (bpow radix2 1) with 2. pose proof (bpow_gt_0 radix2 (-1075)). lra.
Qed.
Lemma rnd_le x y : x <= y -> rnd x <= rnd y.
Proof. apply round_le; auto with typeclass_instances. Qed.
Lemma rnd_0 : rnd 0 = 0.
Proof. apply round_0; auto with typeclass_instances. Qed.
Lemma rnd_opp x : rnd (- x) = - rnd x.
Proof. apply round_NE_opp. Qed.
Lemma rnd_B2R (x : dbl) : rnd (B2R x) = B2R x.
Proof. apply round_generic; auto with typeclass_instances. apply generic_format_B2R. Qed.
Lemma rnd_nonneg x : 0 <= x -> 0 <= rnd x.
Proof. intros H. rewrite <- rnd_0. now apply rnd_le. Qed.

(** ** Finite results *)
Lemma overflow_inf s : binary_overflow 53 1024 mode_NE s = SpecFloat.S754_infinity s.
Proof. reflexivity. Qed.
Lemma inf_not_fin (x : dbl) s : B2SF x = SpecFloat.S754_infinity s -> ~ fin x.
Proof. destruct x; cbn; discriminate. Qed.
Lemma inf_not_nan (x : dbl) s : B2SF x = SpecFloat.S754_infinity s -> is_nan x = false.
Proof. destruct x; cbn; intros; try discriminate; reflexivity. Qed.

Lemma add_fin (x y : dbl) : fin (Bplus mode_NE x y) -> fin x /\ fin y /\ B2R (Bplus mode_NE x y) = rnd (B2R x + B2R y).
Proof.
  intros H. assert (FX : fin x /\ fin y).
  { destruct x, y; cbn in H; try discriminate H; try (split; reflexivity); repeat match goal with s : bool |- _ => destruct s end; cbn in H; discriminate. }
  destruct FX as [FX FY]. split; [assumption|]. split; [assumption|].
  pose proof (Bplus_correct 53 1024 dprec demax mode_NE x y FX FY) as C.
  destruct Rlt_bool; [apply C|]. exfalso. destruct C as [C _]. rewrite overflow_inf in C. now apply inf_not_fin in C.
Qed.
Lemma sub_fin (x y : dbl) : fin (Bminus mode_NE x y) -> fin x /\ fin y /\ B2R (Bminus mode_NE x y) = rnd (B2R x - B2R y).
Proof.
  intros H. assert (FX : fin x /\ fin y).
  { destruct x, y; cbn in H; try discriminate H; try (split; reflexivity); repeat match goal with s : bool |- _ => destruct s end; cbn in H; discriminate. }
  destruct FX as [FX FY]. split; [assumption|]. split; [assumption|].
  pose proof (Bminus_correct 53 1024 dprec demax mode_NE x y FX FY) as C.
  destruct Rlt_bool; [apply C|]. exfalso. destruct C as [C _]. rewrite overflow_inf in C. now apply inf_not_fin in C.
Qed.
Lemma mul_fin (x y : dbl) : fin (Bmult mode_NE x y) -> fin x /\ fin y /\ B2R (Bmult mode_NE x y) = rnd (B2R x * B2R y).
Proof.
  intros H. pose proof (Bmult_correct 53 1024 dprec demax mode_NE x y) as C.
  destruct Rlt_bool.
  - destruct C as (C1 & C2 & _). rewrite H in C2. symmetry in C2. apply andb_prop in C2. tauto.
  - exfalso. rewrite overflow_inf in C. now apply inf_not_fin in C.
Qed.

(** ** Bounded operands give finite results *)
Definition big : R := bpow radix2 1023.
Lemma big_pos : 0 < big. Proof. apply bpow_gt_0. Qed.
Lemma rnd_big x : Rabs x <= big -> Rabs (rnd x) < bpow radix2 1024.
Proof.
  intros H. apply Rle_lt_trans with big.
  - apply abs_round_le_generic; auto with typeclass_instances. apply generic_format_bpow. rewrite dfexp_FLT. unfold FLT_exp. lia.
  - apply bpow_lt. lia.
Qed.
Lemma add_ok (x y : dbl) : fin x -> fin y -> Rabs (B2R x + B2R y) <= big ->
  fin (Bplus mode_NE x y) /\ B2R (Bplus mode_NE x y) = rnd (B2R x + B2R y).
Proof.
  intros FX FY H. pose proof (Bplus_correct 53 1024 dprec demax mode_NE x y FX FY) as C.
  rewrite Rlt_bool_true in C by (apply rnd_big; exact H). tauto.
Qed.
Lemma sub_ok (x y : dbl) : fin x -> fin y -> Rabs (B2R x - B2R y) <= big ->
  fin (Bminus mode_NE x y) /\ B2R (Bminus mode_NE x y) = rnd (B2R x - B2R y).
Proof.
  intros FX FY H. pose proof (Bminus_correct 53 1024 dprec demax mode_NE x y FX FY) as C.
  rewrite Rlt_bool_true in C by (apply rnd_big; exact H). tauto.
Qed.
Lemma mul_ok (x y : dbl) : fin x -> fin y -> Rabs (B2R x * B2R y) <= big ->
  fin (Bmult mode_NE x y) /\ B2R (Bmult mode_NE x y) = rnd (B2R x * B2R y).
Proof.
  intros FX FY H. pose proof (Bmult_correct 53 1024 dprec demax mode_NE x y) as C.
  rewrite Rlt_bool_true in C by (apply rnd_big; exact H). rewrite FX, FY in C. tauto.
Qed.
Lemma div_ok (x y : dbl) : fin x -> B2R y <> 0 -> Rabs (B2R x / B2R y) <= big ->
  fin (Bdiv mode_NE x y) /\ B2R (Bdiv mode_NE x y) = rnd (B2R x / B2R y).
Proof.
  intros FX FY H. pose proof (Bdiv_correct 53 1024 dprec demax mode_NE x y FY) as C.
  rewrite Rlt_bool_true in C by (apply rnd_big; exact H). rewrite FX in C. tauto.
Qed.
Lemma sqrt_fin (x : dbl) : fin (Bsqrt mode_NE x) -> fin x /\ 0 <= B2R x /\ B2R (Bsqrt mode_NE x) = rnd (sqrt (B2R x)).
Proof.
  intros H. destruct (Bsqrt_correct 53 1024 dprec demax mode_NE x) as (C1 & C2 & _). rewrite H in C2.
  destruct x as [s| | |[] mm e Hb]; try discriminate C2; (split; [reflexivity|]); (split; [|exact C1]).
  - apply Rle_refl.
  - cbn. apply F2R_ge_0. cbn. lia.
Qed.
Lemma sqrt_ok (x : dbl) : fin x -> 0 <= B2R x -> fin (Bsqrt mode_NE x) /\ B2R (Bsqrt mode_NE x) = rnd (sqrt (B2R x)).
Proof.
  intros H H0. destruct (Bsqrt_correct 53 1024 dprec demax mode_NE x) as (C1 & C2 & _). split; [|exact C1]. rewrite C2.
  destruct x as [s| | |[] mm e Hb]; try discriminate H; try reflexivity. exfalso. revert H0. apply Rlt_not_le.
  cbn. apply F2R_lt_0. cbn. lia.
Qed.

(** ** Literals *)
Lemma R2D_ok x : Rabs x <= big -> fin (R2D x) /\ B2R (R2D x) = rnd x.
Proof.
  intros H. unfold R2D.
  pose proof (binary_normalize_correct 53 1024 dprec demax mode_NE (Ztrunc (scaled_mantissa radix2 dfexp (rnd x))) (cexp radix2 dfexp (rnd x)) false) as C.
  cbv zeta in C.
  assert (E : F2R (Float radix2 (Ztrunc (scaled_mantissa radix2 dfexp (rnd x))) (cexp radix2 dfexp (rnd x))) = rnd x).
  { symmetry. apply (generic_format_round radix2 dfexp ZnearestE x). }
  rewrite E in C.
  assert (E2 : round radix2 (SpecFloat.fexp 53 1024) (round_mode mode_NE) (rnd x) = rnd x).
  { apply round_generic; auto with typeclass_instances. apply (generic_format_round radix2 dfexp ZnearestE x). }
  rewrite E2, Rlt_bool_true in C by (now apply rnd_big). tauto.
Qed.
Lemma Z2D_ok z : (Z.abs z <= 2 ^ 53)%Z -> fin (Z2D z) /\ B2R (Z2D z) = IZR z.
Proof.
  intros H. unfold Z2D.
  pose proof (binary_normalize_correct 53 1024 dprec demax mode_NE z 0 false) as C. cbv zeta in C.
  assert (E : F2R (Float radix2 z 0) = IZR z) by (unfold F2R; cbn; ring). rewrite E in C.
  assert (E2 : round radix2 (SpecFloat.fexp 53 1024) (round_mode mode_NE) (IZR z) = IZR z).
  { apply round_generic; auto with typeclass_instances.
    destruct (Z.eq_dec (Z.abs z) (2 ^ 53)) as [E3|N3].
    - assert (Z2 : z = (2 ^ 53)%Z \/ z = (- 2 ^ 53)%Z) by lia.
      assert (FB : generic_format radix2 (SpecFloat.fexp 53 1024) (bpow radix2 53)) by (apply generic_format_bpow; cbv; discriminate).
      destruct Z2 as [ -> | -> ]; [exact FB|]. change (IZR (- 2 ^ 53)) with (- bpow radix2 53). now apply generic_format_opp.
    - change (generic_format radix2 (FLT_exp (-1074) 53) (IZR z)). apply generic_format_FLT. exists (Float radix2 z 0); [now rewrite E| |]; cbn; lia. }
  rewrite E2 in C. rewrite Rlt_bool_true in C; [tauto|].
  rewrite <- abs_IZR. apply Rle_lt_trans with (IZR (2 ^ 53)); [now apply IZR_le|].
  change (IZR (2 ^ 53)) with (bpow radix2 53). apply bpow_lt. lia.
Qed.

(** ** NaN *)
Lemma nan_eq (x : dbl) : nan x -> x = B754_nan.
Proof. destruct x; cbn; intros; try discriminate; reflexivity. Qed.
Lemma mul_nan (x y : dbl) : nan x \/ nan y -> nan (Bmult mode_NE x y).
Proof. intros [H|H]; apply nan_eq in H; subst; [reflexivity|]. destruct x; reflexivity. Qed.
Lemma add_nan (x y : dbl) : nan x \/ nan y -> nan (Bplus mode_NE x y).
Proof. intros [H|H]; apply nan_eq in H; subst; [reflexivity|]. destruct x; reflexivity. Qed.
Lemma sub_nan (x y : dbl) : nan x \/ nan y -> nan (Bminus mode_NE x y).
Proof. intros [H|H]; apply nan_eq in H; subst; [reflexivity|]. destruct x; reflexivity. Qed.
Lemma div_nan (x y : dbl) : nan x \/ nan y -> nan (Bdiv mode_NE x y).
Proof. intros [H|H]; apply nan_eq in H; subst; [reflexivity|]. destruct x; reflexivity. Qed.
Lemma sqrt_nan (x : dbl) : nan x -> nan (Bsqrt mode_NE x).
Proof. intros H; apply nan_eq in H; subst; reflexivity. Qed.
Lemma opp_nan (x : dbl) : nan x -> nan (Bopp x).
Proof. intros H; apply nan_eq in H; subst; reflexivity. Qed.
