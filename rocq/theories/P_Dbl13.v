(** Doubles: magnitudes. [mag x k]: [x] is finite and at most 2^k. *)
From Coq Require Import List ZArith Bool Lia PeanoNat Reals Lra.
From Flocq Require Import Core IEEE754.BinarySingleNaN.
From Verif Require Import Num Arr NumR Util SlipGeom Eos Hard Elast Evptn MatModel Cases Const NumD P_Dbl P_Dbl2 P_Dbl3 P_Dbl8 SpecDbl SpecDblFin.
Import ListNotations.
Local Open Scope R_scope.

Definition okz (k : Z) : Prop := (-1000 <= k <= 1023)%Z.
Definition mag (x : dbl) (k : Z) : Prop := fin x /\ Rabs (B2R x) <= bpow radix2 k.
Lemma rnd_bpow k : okz k -> rnd (bpow radix2 k) = bpow radix2 k.
Proof.
  intros [A B]. unfold rnd. apply round_generic; [apply valid_rnd_N|]. apply generic_format_bpow.
  rewrite dfexp_FLT. unfold FLT_exp. lia.
Qed.
Lemma rnd_mag x k : okz k -> Rabs x <= bpow radix2 k -> Rabs (rnd x) <= bpow radix2 k.
Proof.
  intros K H. apply abs_le in H. apply abs_le. rewrite <- (rnd_bpow k K), <- rnd_opp. split; apply rnd_le; lra.
Qed.
Lemma okz_big k : okz k -> bpow radix2 k <= big.
Proof. intros [A B]. unfold big. apply bpow_le. lia. Qed.
Lemma mag_le x k k' : mag x k -> (k <= k')%Z -> mag x k'.
Proof. intros [F B] H. split; [exact F|]. apply Rle_trans with (1 := B). now apply bpow_le. Qed.
Lemma mag_mul x y a b : mag x a -> mag y b -> okz (a + b) -> mag (Bmult mode_NE x y) (a + b).
Proof.
  intros [F1 B1] [F2 B2] K. assert (H : Rabs (B2R x * B2R y) <= bpow radix2 (a + b)).
  { rewrite Rabs_mult, bpow_plus. apply Rmult_le_compat; auto using Rabs_pos. }
  destruct (mul_ok x y F1 F2) as [F V]; [exact (Rle_trans _ _ _ H (okz_big _ K))|]. split; [exact F|]. rewrite V. now apply rnd_mag.
Qed.
Lemma bpow_dbl k : bpow radix2 (k + 1) = 2 * bpow radix2 k.
Proof. rewrite bpow_plus. change (bpow radix2 1) with 2. ring. Qed.
Lemma mag_add x y a b : mag x a -> mag y b -> okz (Z.max a b + 1) -> mag (Bplus mode_NE x y) (Z.max a b + 1).
Proof.
  intros M1 M2 K. apply (mag_le _ _ (Z.max a b)) in M1; [|lia]. apply (mag_le _ _ (Z.max a b)) in M2; [|lia]. destruct M1 as [F1 B1], M2 as [F2 B2].
  assert (H : Rabs (B2R x + B2R y) <= bpow radix2 (Z.max a b + 1)).
  { rewrite bpow_dbl. apply Rle_trans with (1 := Rabs_triang _ _). lra. }
  destruct (add_ok x y F1 F2) as [F V]; [exact (Rle_trans _ _ _ H (okz_big _ K))|]. split; [exact F|]. rewrite V. now apply rnd_mag.
Qed.
Lemma mag_sub x y a b : mag x a -> mag y b -> okz (Z.max a b + 1) -> mag (Bminus mode_NE x y) (Z.max a b + 1).
Proof.
  intros M1 M2 K. apply (mag_le _ _ (Z.max a b)) in M1; [|lia]. apply (mag_le _ _ (Z.max a b)) in M2; [|lia]. destruct M1 as [F1 B1], M2 as [F2 B2].
  assert (H : Rabs (B2R x - B2R y) <= bpow radix2 (Z.max a b + 1)).
  { rewrite bpow_dbl. unfold Rminus. apply Rle_trans with (1 := Rabs_triang _ _). rewrite Rabs_Ropp. lra. }
  destruct (sub_ok x y F1 F2) as [F V]; [exact (Rle_trans _ _ _ H (okz_big _ K))|]. split; [exact F|]. rewrite V. now apply rnd_mag.
Qed.
Lemma mag_opp x a : mag x a -> mag (Bopp x) a.
Proof. intros [F B]. split; [now rewrite is_finite_Bopp|]. now rewrite B2R_Bopp, Rabs_Ropp. Qed.
Lemma mag_abs x a : mag x a -> mag (Babs x) a.
Proof. intros [F B]. split; [now rewrite is_finite_Babs|]. now rewrite B2R_Babs, Rabs_Rabsolu. Qed.
Lemma mag_div x y a l : mag x a -> fin y -> bpow radix2 l <= Rabs (B2R y) -> okz (a - l) -> mag (Bdiv mode_NE x y) (a - l).
Proof.
  intros [F1 B1] F2 B2 K. pose proof (bpow_gt_0 radix2 l) as P.
  assert (Y : B2R y <> 0) by (intros E; rewrite E, Rabs_R0 in B2; lra).
  assert (H : Rabs (B2R x / B2R y) <= bpow radix2 (a - l)).
  { unfold Rdiv. rewrite Rabs_mult. unfold Zminus. rewrite bpow_plus, bpow_opp. rewrite Rabs_inv.
    apply Rmult_le_compat; auto using Rabs_pos. - left. apply Rinv_0_lt_compat. lra. - now apply Rinv_le. }
  destruct (div_ok x y F1 Y) as [F V]; [exact (Rle_trans _ _ _ H (okz_big _ K))|]. split; [exact F|]. rewrite V. now apply rnd_mag.
Qed.
Lemma mag_R2D x k : okz k -> Rabs x <= bpow radix2 k -> mag (R2D x) k.
Proof.
  intros K H. destruct (R2D_ok x) as [F V]; [exact (Rle_trans _ _ _ H (okz_big _ K))|]. split; [exact F|]. rewrite V. now apply rnd_mag.
Qed.
Lemma mag_Z2D z : (Z.abs z <= 8)%Z -> mag (Z2D z) 3.
Proof. intros H. destruct (Z2D_ok z) as [F V]; [lia|]. split; [exact F|]. rewrite V, <- abs_IZR. change (bpow radix2 3) with 8. now apply IZR_le. Qed.
Lemma mag_0 k : mag (Z2D 0) k.
Proof. destruct (Z2D_ok 0 ltac:(lia)) as [F V]. split; [exact F|]. rewrite V, Rabs_R0. apply bpow_ge_0. Qed.
Lemma mag_lit m e : Rabs (Rlit m e) <= 4 -> mag (R2D (Rlit m e)) 2.
Proof. intros H. apply mag_R2D; [unfold okz; lia|exact H]. Qed.
Lemma mag_const l : (0 <= fst l)%Z -> (fst l <= 400000000000000000000000000000 /\ snd l = -29 \/ fst l <= 1000000000000000000000000000000 /\ snd l = -30)%Z -> mag (dconst l) 2.
Proof.
  intros H0 [[H1 E]|[H1 E]]; unfold dconst; apply mag_lit; rewrite E, rlit_neg; apply IZR_le in H0, H1.
  - change (10 ^ 29)%Z with 100000000000000000000000000000%Z. rewrite Rabs_pos_eq; lra.
  - change (10 ^ 30)%Z with 1000000000000000000000000000000%Z. rewrite Rabs_pos_eq; lra.
Qed.
Lemma mag_sqrt x a b : mag x a -> 0 <= B2R x -> (a <= 2 * b)%Z -> okz b -> mag (Bsqrt mode_NE x) b.
Proof.
  intros [F B] P H K. destruct (sqrt_ok x F P) as [FS V]. split; [exact FS|]. rewrite V. apply rnd_mag; [exact K|].
  rewrite Rabs_pos_eq by apply sqrt_pos. rewrite <- (sqrt_Rsqr (bpow radix2 b)) by apply bpow_ge_0. apply sqrt_le_1_alt.
  rewrite Rabs_pos_eq in B by exact P. apply Rle_trans with (1 := B). unfold Rsqr. rewrite <- bpow_plus. apply bpow_le. lia.
Qed.
Lemma mag_max x y a b : mag x a -> mag y b -> mag (dmax x y) (Z.max a b).
Proof.
  intros M1 M2. unfold dmax. destruct (is_nan x); [|destruct (is_nan y); [|destruct Bltb]]; (eapply mag_le; [eassumption|lia]).
Qed.
Lemma mag_min x y a b : mag x a -> mag y b -> mag (dmin x y) (Z.max a b).
Proof.
  intros M1 M2. unfold dmin. destruct (is_nan x); [|destruct (is_nan y); [|destruct Bltb]]; (eapply mag_le; [eassumption|lia]).
Qed.

Definition mags (l : list dbl) (k : Z) : Prop := Forall (fun x => mag x k) l.

Section L.
  Variable L : Libm.
  Let DN : Num dbl := DNum L.
  #[local] Existing Instance DN.

  Lemma mags_get l k i : mags l k -> (i < length l)%nat -> mag (get l i) k.
  Proof. intros H Hi. unfold mags in H. rewrite Forall_forall in H. apply H. now apply nth_In. Qed.
  Lemma mags_tab n (f : nat -> dbl) k : (forall i, (i < n)%nat -> mag (f i) k) -> mags (tab n f) k.
  Proof. intros H. apply Forall_forall. intros x Hx. unfold tab in Hx. apply in_map_iff in Hx. destruct Hx as (i & <- & Hi). apply in_seq in Hi. apply H. lia. Qed.
  Lemma mag_sum n (f : nat -> dbl) k : (-1000 <= k)%Z -> (k + Z.of_nat n <= 1023)%Z -> (forall i, (i < n)%nat -> mag (f i) k) -> mag (sum n f) (k + Z.of_nat n).
  Proof.
    intros K1. induction n as [|n IH]; intros K2 H.
    - apply mag_0.
    - rewrite sum_S. assert (I : mag (sum n f) (k + Z.of_nat n)) by (apply IH; [lia|intros; apply H; lia]).
      pose proof (mag_add _ _ _ _ I (H n ltac:(lia))) as X. replace (k + Z.of_nat (S n))%Z with (Z.max (k + Z.of_nat n) k + 1)%Z by lia.
      apply X. unfold okz. lia.
  Qed.
  Lemma mag_dot n (f g : nat -> dbl) a b : (-1000 <= a + b)%Z -> (a + b + Z.of_nat n <= 1023)%Z ->
    (forall i, (i < n)%nat -> mag (f i) a /\ mag (g i) b) -> mag (sum n (fun i => Bmult mode_NE (f i) (g i))) (a + b + Z.of_nat n).
  Proof. intros K1 K2 H. apply mag_sum; auto. intros i Hi. destruct (H i Hi). apply mag_mul; auto. unfold okz. lia. Qed.
End L.

(** computes the magnitude of an expression from those of its leaves (hypotheses [mag x k], [k] a numeral) *)
Ltac okk := unfold okz; cbn; lia.
Ltac mg := match goal with
  | |- mag (Bplus mode_NE _ _) _ => eapply mag_add; [mg | mg | okk]
  | |- mag (Bminus mode_NE _ _) _ => eapply mag_sub; [mg | mg | okk]
  | |- mag (Bmult mode_NE _ _) _ => eapply mag_mul; [mg | mg | okk]
  | |- mag (Bopp _) _ => eapply mag_opp; mg
  | |- mag (Babs _) _ => eapply mag_abs; mg
  | |- mag (dmax _ _) _ => eapply mag_max; [mg | mg]
  | |- mag (dconst _) _ => eapply mag_const; [cbn; lia | cbn; lia]
  | |- mag (Z2D _) _ => eapply mag_Z2D; lia
  | |- mag _ _ => eassumption
  end.
Ltac mgt := eapply mag_le; [mg | cbn; lia].
