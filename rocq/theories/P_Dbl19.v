(** Doubles: running error analysis. [ac x X A m k z]: the double [x] approximates [X] up to [m] units of roundoff relative
    to [A] and an absolute 2^z; [A] bounds [X] and is at most 2^k. *)
From Coq Require Import List ZArith Bool Lia PeanoNat Reals Lra.
From Flocq Require Import Core IEEE754.BinarySingleNaN.
From Verif Require Import Num NumR NumD P_Dbl P_Dbl3 P_Dbl8 P_Dbl13 P_Dbl17.
Import ListNotations.
Local Open Scope R_scope.

Definition ac (x : dbl) (X A : R) (m k z : Z) : Prop :=
  fin x /\ Rabs (B2R x - X) <= uu * IZR m * A + bpow radix2 z /\ Rabs X <= A /\ A <= bpow radix2 k.
Definition okm (m : Z) : Prop := (0 <= m <= 4000)%Z.
Definition okt (z : Z) : Prop := (-1075 <= z <= 0)%Z.
Definition okk' (k : Z) : Prop := (0 <= k <= 1019)%Z.

Lemma um_small m : okm m -> 0 <= uu * IZR m <= / 100000.
Proof. intros [H1 H2]. apply IZR_le in H1, H2. unfold uu. split; [apply Rmult_le_pos; lra|]. lra. Qed.
Lemma bp_le a b : (a <= b)%Z -> bpow radix2 a <= bpow radix2 b. Proof. apply bpow_le. Qed.
Lemma bp_1 z : okt z -> bpow radix2 z <= 1. Proof. intros [_ H]. apply (bp_le z 0). exact H. Qed.
Lemma bp_1' k : okk' k -> 1 <= bpow radix2 k. Proof. intros [H _]. apply (bp_le 0 k). exact H. Qed.
Lemma bp_eta z : okt z -> eta <= bpow radix2 z. Proof. intros [H _]. apply bp_le. exact H. Qed.
Lemma bp_2 z : bpow radix2 (z + 2) = 4 * bpow radix2 z. Proof. rewrite bpow_plus. change (bpow radix2 2) with 4. ring. Qed.
Lemma bp_3 z : bpow radix2 (z + 3) = 8 * bpow radix2 z. Proof. rewrite bpow_plus. change (bpow radix2 3) with 8. ring. Qed.
Lemma bp_big k : okk' k -> 8 * bpow radix2 k <= big.
Proof. intros [_ H]. rewrite <- bp_3. apply bp_le. lia. Qed.
Lemma ac_A x X A m k z : ac x X A m k z -> 0 <= A. Proof. intros (_ & _ & H & _). pose proof (Rabs_pos X). lra. Qed.
Lemma ac_val x X A m k z : ac x X A m k z -> okm m -> okt z -> Rabs (B2R x) <= 1.01 * A + bpow radix2 z.
Proof.
  intros H M Z. pose proof (ac_A _ _ _ _ _ _ H) as PA. destruct H as (_ & H & HX & _). pose proof (um_small m M) as [U1 U2].
  replace (B2R x) with ((B2R x - X) + X) by ring. apply Rle_trans with (1 := Rabs_triang _ _).
  assert (uu * IZR m * A <= / 100000 * A) by (apply Rmult_le_compat_r; lra). lra.
Qed.
Lemma ac_weak x X A m k z A' m' k' z' : ac x X A m k z -> (0 <= m)%Z -> (m <= m')%Z -> A <= A' -> A' <= bpow radix2 k' -> (z <= z')%Z -> ac x X A' m' k' z'.
Proof.
  intros H M0 HM HA HK HZ. pose proof (ac_A _ _ _ _ _ _ H) as PA. destruct H as (F & H & HX & _).
  split; [exact F|]. split; [|split; [lra|exact HK]]. apply Rle_trans with (1 := H). apply Rplus_le_compat; [|now apply bp_le].
  apply IZR_le in M0, HM. assert (U : 0 < uu) by (unfold uu; lra). apply Rmult_le_compat; [apply Rmult_le_pos; lra|exact PA| |exact HA].
  apply Rmult_le_compat_l; lra.
Qed.
Lemma ac_eq x X A m k z X' A' : ac x X A m k z -> X = X' -> A = A' -> ac x X' A' m k z. Proof. intros H -> ->. exact H. Qed.

Lemma ac_in x k : mag x k -> ac x (B2R x) (Rabs (B2R x)) 0 k (-1075).
Proof.
  intros [F B]. split; [exact F|]. split; [|split; [lra|exact B]]. rewrite Rminus_diag_eq by reflexivity. rewrite Rabs_R0, Rmult_0_r, Rmult_0_l.
  pose proof (bpow_gt_0 radix2 (-1075)). lra.
Qed.
Lemma ac_opp x X A m k z : ac x X A m k z -> ac (Bopp x) (- X) A m k z.
Proof.
  intros (F & H & HX & HA). split; [now rewrite is_finite_Bopp|]. rewrite B2R_Bopp. split; [|split; [now rewrite Rabs_Ropp|exact HA]].
  replace (- B2R x - - X) with (- (B2R x - X)) by ring. now rewrite Rabs_Ropp.
Qed.

(** rounding an approximation *)
Lemma ac_rnd V X A m n z w : okm m -> okt w -> 0 <= A -> Rabs X <= A -> Rabs (V - X) <= uu * IZR m * A + bpow radix2 z -> (n = m + 2)%Z -> 2 * bpow radix2 z + eta <= bpow radix2 w ->
  Rabs (rnd V - X) <= uu * IZR n * A + bpow radix2 w.
Proof.
  intros M W PA HX H -> HW. pose proof (rnd_err V) as E. pose proof (um_small m M) as [U1 U2]. rewrite plus_IZR.
  pose proof (bpow_gt_0 radix2 z) as PZ.
  assert (HV : Rabs V <= 1.01 * A + bpow radix2 z).
  { replace V with ((V - X) + X) by ring. apply Rle_trans with (1 := Rabs_triang _ _).
    assert (uu * IZR m * A <= / 100000 * A) by (apply Rmult_le_compat_r; lra). lra. }
  replace (rnd V - X) with ((rnd V - V) + (V - X)) by ring. apply Rle_trans with (1 := Rabs_triang _ _).
  assert (UU : 0 < uu <= / 1000) by (unfold uu; lra).
  assert (X1 : uu * Rabs V <= uu * (1.01 * A + bpow radix2 z)) by (apply Rmult_le_compat_l; lra).
  assert (X2 : uu * bpow radix2 z <= / 1000 * bpow radix2 z) by (apply Rmult_le_compat_r; lra).
  assert (X3 : 0 <= uu * A) by (apply Rmult_le_pos; lra). lra.
Qed.

Lemma ac_add x y X Y A B m n k l z w : ac x X A m k z -> ac y Y B n l w -> okm m -> okm n -> okk' k -> okk' l -> okt z -> okt w -> (Z.max z w + 3 <= 0)%Z -> okk' (Z.max k l + 1) ->
  ac (Bplus mode_NE x y) (X + Y) (A + B) (Z.max m n + 2) (Z.max k l + 1) (Z.max z w + 3).
Proof.
  intros H1 H2 M N K L Z W ZW KL. pose proof (ac_A _ _ _ _ _ _ H1) as PA. pose proof (ac_A _ _ _ _ _ _ H2) as PB.
  pose proof (ac_val _ _ _ _ _ _ H1 M Z) as V1. pose proof (ac_val _ _ _ _ _ _ H2 N W) as V2.
  destruct H1 as (F1 & D1 & X1 & K1), H2 as (F2 & D2 & X2 & K2).
  assert (KB : A + B <= bpow radix2 (Z.max k l + 1)).
  { rewrite bpow_dbl. pose proof (bp_le k (Z.max k l) ltac:(lia)). pose proof (bp_le l (Z.max k l) ltac:(lia)). lra. }
  destruct (add_ok x y F1 F2) as [F V].
  { apply Rle_trans with (1 := Rabs_triang _ _). pose proof (bp_1 z Z). pose proof (bp_1 w W). pose proof (bp_1' _ KL). pose proof (bp_big _ KL). lra. }
  split; [exact F|]. rewrite V. split; [|split; [apply Rle_trans with (1 := Rabs_triang _ _); lra|exact KB]].
  apply (ac_rnd _ _ _ (Z.max m n) _ (Z.max z w + 1)); [unfold okm in *; lia|unfold okt in *; lia|lra|apply Rle_trans with (1 := Rabs_triang _ _); lra| |reflexivity|].
  - replace (B2R x + B2R y - (X + Y)) with ((B2R x - X) + (B2R y - Y)) by ring. apply Rle_trans with (1 := Rabs_triang _ _).
    rewrite bpow_dbl. pose proof (bp_le z (Z.max z w) ltac:(lia)). pose proof (bp_le w (Z.max z w) ltac:(lia)).
    assert (UU : 0 < uu) by (unfold uu; lra). rewrite Rmult_plus_distr_l.
    assert (uu * IZR m * A <= uu * IZR (Z.max m n) * A). { apply Rmult_le_compat_r; [exact PA|]. apply Rmult_le_compat_l; [lra|]. apply IZR_le. lia. }
    assert (uu * IZR n * B <= uu * IZR (Z.max m n) * B). { apply Rmult_le_compat_r; [exact PB|]. apply Rmult_le_compat_l; [lra|]. apply IZR_le. lia. }
    lra.
  - assert (QZ : okt (Z.max z w)) by (unfold okt in *; lia). rewrite bpow_dbl, bp_3. pose proof (bp_eta (Z.max z w) QZ). pose proof (bpow_gt_0 radix2 (Z.max z w)). lra.
Qed.
Lemma ac_sub x y X Y A B m n k l z w : ac x X A m k z -> ac y Y B n l w -> okm m -> okm n -> okk' k -> okk' l -> okt z -> okt w -> (Z.max z w + 3 <= 0)%Z -> okk' (Z.max k l + 1) ->
  ac (Bminus mode_NE x y) (X - Y) (A + B) (Z.max m n + 2) (Z.max k l + 1) (Z.max z w + 3).
Proof.
  intros H1 H2 M N K L Z W ZW KL. pose proof (ac_A _ _ _ _ _ _ H1) as PA. pose proof (ac_A _ _ _ _ _ _ H2) as PB.
  pose proof (ac_val _ _ _ _ _ _ H1 M Z) as V1. pose proof (ac_val _ _ _ _ _ _ H2 N W) as V2.
  destruct H1 as (F1 & D1 & X1 & K1), H2 as (F2 & D2 & X2 & K2).
  assert (TR : forall a b, Rabs (a - b) <= Rabs a + Rabs b) by (intros a b; unfold Rminus; apply Rle_trans with (1 := Rabs_triang _ _); rewrite Rabs_Ropp; lra).
  assert (KB : A + B <= bpow radix2 (Z.max k l + 1)).
  { rewrite bpow_dbl. pose proof (bp_le k (Z.max k l) ltac:(lia)). pose proof (bp_le l (Z.max k l) ltac:(lia)). lra. }
  destruct (sub_ok x y F1 F2) as [F V].
  { apply Rle_trans with (1 := TR _ _). pose proof (bp_1 z Z). pose proof (bp_1 w W). pose proof (bp_1' _ KL). pose proof (bp_big _ KL). lra. }
  split; [exact F|]. rewrite V. split; [|split; [apply Rle_trans with (1 := TR _ _); lra|exact KB]].
  apply (ac_rnd _ _ _ (Z.max m n) _ (Z.max z w + 1)); [unfold okm in *; lia|unfold okt in *; lia|lra|apply Rle_trans with (1 := TR _ _); lra| |reflexivity|].
  - replace (B2R x - B2R y - (X - Y)) with ((B2R x - X) - (B2R y - Y)) by ring. apply Rle_trans with (1 := TR _ _).
    rewrite bpow_dbl. pose proof (bp_le z (Z.max z w) ltac:(lia)). pose proof (bp_le w (Z.max z w) ltac:(lia)).
    assert (UU : 0 < uu) by (unfold uu; lra). rewrite Rmult_plus_distr_l.
    assert (uu * IZR m * A <= uu * IZR (Z.max m n) * A). { apply Rmult_le_compat_r; [exact PA|]. apply Rmult_le_compat_l; [lra|]. apply IZR_le. lia. }
    assert (uu * IZR n * B <= uu * IZR (Z.max m n) * B). { apply Rmult_le_compat_r; [exact PB|]. apply Rmult_le_compat_l; [lra|]. apply IZR_le. lia. }
    lra.
  - assert (QZ : okt (Z.max z w)) by (unfold okt in *; lia). rewrite bpow_dbl, bp_3. pose proof (bp_eta (Z.max z w) QZ). pose proof (bpow_gt_0 radix2 (Z.max z w)). lra.
Qed.
Lemma prod_approx x y X Y A B a b t s : 0 <= A -> 0 <= B -> 0 <= a <= / 100000 -> 0 <= b <= / 100000 -> 0 <= t <= 1 -> 0 <= s <= 1 ->
  Rabs X <= A -> Rabs Y <= B -> Rabs (x - X) <= a * A + t -> Rabs (y - Y) <= b * B + s ->
  Rabs (x * y - X * Y) <= (a + b + a * b) * (A * B) + (1.01 * (t * B) + 1.01 * (s * A) + t * s).
Proof.
  intros PA PB Ha Hb Ht Hs HX HY H1 H2.
  replace (x * y - X * Y) with ((x - X) * Y + X * (y - Y) + (x - X) * (y - Y)) by ring.
  apply Rle_trans with (1 := Rabs_triang _ _). 
  assert (E1 : Rabs ((x - X) * Y + X * (y - Y)) <= (a * A + t) * B + A * (b * B + s)).
  { apply Rle_trans with (1 := Rabs_triang _ _). rewrite !Rabs_mult. apply Rplus_le_compat; apply Rmult_le_compat; auto using Rabs_pos. }
  assert (E2 : Rabs ((x - X) * (y - Y)) <= (a * A + t) * (b * B + s)).
  { rewrite Rabs_mult. apply Rmult_le_compat; auto using Rabs_pos. }
  assert (E3 : a * A * s <= / 100000 * (s * A)). { replace (a * A * s) with (a * (s * A)) by ring. apply Rmult_le_compat_r; [apply Rmult_le_pos; lra|lra]. }
  assert (E4 : t * (b * B) <= / 100000 * (t * B)). { replace (t * (b * B)) with (b * (t * B)) by ring. apply Rmult_le_compat_r; [apply Rmult_le_pos; lra|lra]. }
  assert (0 <= t * B) by (apply Rmult_le_pos; lra). assert (0 <= s * A) by (apply Rmult_le_pos; lra).
  replace ((a * A + t) * B + A * (b * B + s)) with (a * (A * B) + t * B + b * (A * B) + s * A) in E1 by ring.
  replace ((a * A + t) * (b * B + s)) with (a * b * (A * B) + a * A * s + t * (b * B) + t * s) in E2 by ring. lra.
Qed.
Lemma ac_mul x y X Y A B m n k l z w : ac x X A m k z -> ac y Y B n l w -> okm m -> okm n -> okk' k -> okk' l -> okt z -> okt w ->
  (Z.max (z + l) (w + k) + 4 <= 0)%Z -> okk' (k + l) -> okm (m + n + 1) ->
  ac (Bmult mode_NE x y) (X * Y) (A * B) (m + n + 3) (k + l) (Z.max (z + l) (w + k) + 4).
Proof.
  intros H1 H2 M N K L Z W ZW KL MN. pose proof (ac_A _ _ _ _ _ _ H1) as PA. pose proof (ac_A _ _ _ _ _ _ H2) as PB.
  destruct H1 as (F1 & D1 & X1 & K1), H2 as (F2 & D2 & X2 & K2).
  assert (KB : A * B <= bpow radix2 (k + l)) by (rewrite bpow_plus; apply Rmult_le_compat; lra).
  assert (HX : Rabs (X * Y) <= A * B) by (rewrite Rabs_mult; apply Rmult_le_compat; auto using Rabs_pos).
  assert (PAB : 0 <= A * B) by (apply Rmult_le_pos; lra).
  pose proof (bpow_gt_0 radix2 z) as Pz. pose proof (bpow_gt_0 radix2 w) as Pw. pose proof (bp_1 z Z) as Lz. pose proof (bp_1 w W) as Lw.
  pose proof (um_small m M) as Um. pose proof (um_small n N) as Un.
  set (q := Z.max (z + l) (w + k)) in *.
  pose proof (bpow_gt_0 radix2 q) as Pq.
  assert (QT : okt q) by (unfold okt, okk', q in *; lia). assert (QT2 : okt (q + 2)) by (unfold okt in *; lia).
  assert (TB : bpow radix2 z * B <= bpow radix2 q).
  { apply Rle_trans with (bpow radix2 z * bpow radix2 l); [apply Rmult_le_compat_l; lra|]. rewrite <- bpow_plus. apply bp_le. unfold q. lia. }
  assert (SA : bpow radix2 w * A <= bpow radix2 q).
  { apply Rle_trans with (bpow radix2 w * bpow radix2 k); [apply Rmult_le_compat_l; lra|]. rewrite <- bpow_plus. apply bp_le. unfold q. lia. }
  assert (TS : bpow radix2 z * bpow radix2 w <= bpow radix2 q).
  { rewrite <- bpow_plus. apply bp_le. unfold q, okt, okk' in *. lia. }
  assert (D : Rabs (B2R x * B2R y - X * Y) <= uu * IZR (m + n + 1) * (A * B) + bpow radix2 (q + 2)).
  { refine (Rle_trans _ _ _ (prod_approx _ _ X Y A B (uu * IZR m) (uu * IZR n) (bpow radix2 z) (bpow radix2 w) PA PB Um Un _ _ X1 X2 D1 D2) _); [lra|lra|].
    rewrite bp_2, !plus_IZR. apply Rplus_le_compat; [|lra]. apply Rmult_le_compat_r; [exact PAB|].
    assert (E : uu * IZR m * (uu * IZR n) <= uu).
    { replace (uu * IZR m * (uu * IZR n)) with (uu * (IZR m * (uu * IZR n))) by ring. rewrite <- (Rmult_1_r uu) at 3. apply Rmult_le_compat_l; [unfold uu; lra|].
      destruct M as [M1 M2]. apply IZR_le in M1, M2. apply Rle_trans with (4000 * / 100000); [apply Rmult_le_compat; lra|lra]. }
    lra. }
  destruct (mul_ok x y F1 F2) as [F V].
  { replace (B2R x * B2R y) with ((B2R x * B2R y - X * Y) + X * Y) by ring. apply Rle_trans with (1 := Rabs_triang _ _).
    pose proof (bp_1' _ KL). pose proof (bp_big _ KL). pose proof (bp_1 (q + 2) QT2). pose proof (um_small _ MN) as [_ UM].
    assert (uu * IZR (m + n + 1) * (A * B) <= / 100000 * (A * B)) by (apply Rmult_le_compat_r; lra). lra. }
  split; [exact F|]. rewrite V. split; [|split; [exact HX|exact KB]].
  apply (ac_rnd _ _ _ (m + n + 1) _ (q + 2)); [exact MN|unfold okt in *; lia|exact PAB|exact HX|exact D|lia|].
  replace (q + 4)%Z with ((q + 2) + 2)%Z by lia. rewrite (bp_2 (q + 2)), (bp_2 q). pose proof (bp_eta q QT). lra.
Qed.
(** reciprocal of a positive number known with a relative error only *)
Lemma ac_inv (y : dbl) Y m k l : fin y -> bpow radix2 (- l) <= Y -> Rabs (B2R y - Y) <= uu * IZR m * Y -> okm m -> okk' l -> (-1075 <= k)%Z ->
  ac (Bdiv mode_NE (Z2D 1) y) (/ Y) (/ Y) (m + 3) l k.
Proof.
  intros F HL HE M OL HK. pose proof (bpow_gt_0 radix2 (- l)) as P. pose proof (um_small m M) as [U1 U2].
  destruct (Z2D_ok 1 ltac:(lia)) as [F1 V1].
  assert (PY : 0 < Y) by lra. assert (IY : 0 < / Y) by now apply Rinv_0_lt_compat.
  assert (IL : / Y <= bpow radix2 l). { replace l with (- - l)%Z by lia. rewrite (bpow_opp radix2 (- l)). now apply Rinv_le. }
  apply abs_le in HE. assert (uu * IZR m * Y <= / 100000 * Y) by (apply Rmult_le_compat_r; lra).
  assert (PY' : 0.99 * Y <= B2R y) by lra. assert (PP : 0 < B2R y) by lra.
  assert (IP : / B2R y <= 1.02 * / Y).
  { apply Rle_trans with (/ (0.99 * Y)); [apply Rinv_le; lra|]. rewrite Rinv_mult by lra. apply Rmult_le_compat_r; lra. }
  assert (D : Rabs (1 / B2R y - / Y) <= uu * IZR (m + 1) * / Y).
  { replace (1 / B2R y - / Y) with ((Y - B2R y) * / Y * / B2R y) by (field; lra).
    rewrite !Rabs_mult. rewrite (Rabs_pos_eq (/ Y)) by lra. rewrite (Rabs_pos_eq (/ B2R y)) by (left; now apply Rinv_0_lt_compat).
    assert (D1 : Rabs (Y - B2R y) <= uu * IZR m * Y) by (apply abs_le; lra).
    apply Rle_trans with (uu * IZR m * Y * / Y * / B2R y).
    { apply Rmult_le_compat_r; [left; now apply Rinv_0_lt_compat|]. apply Rmult_le_compat_r; lra. }
    rewrite (Rmult_assoc _ Y), Rinv_r, Rmult_1_r by lra.
    assert (HI : / B2R y - / Y <= uu * IZR m * 1.02 * / Y).
    { replace (/ B2R y - / Y) with ((Y - B2R y) * / Y * / B2R y) by (field; lra).
      apply Rle_trans with (uu * IZR m * Y * / Y * / B2R y).
      { apply Rmult_le_compat_r; [left; now apply Rinv_0_lt_compat|]. apply Rmult_le_compat_r; lra. }
      rewrite (Rmult_assoc _ Y), Rinv_r, Rmult_1_r by lra. rewrite (Rmult_assoc (uu * IZR m)). apply Rmult_le_compat_l; [exact U1|exact IP]. }
    apply Rle_trans with (uu * IZR m * (/ Y + uu * IZR m * 1.02 * / Y)); [apply Rmult_le_compat_l; lra|].
    rewrite plus_IZR. replace (uu * IZR m * (/ Y + uu * IZR m * 1.02 * / Y)) with (uu * (IZR m + IZR m * (uu * IZR m) * 1.02) * / Y) by ring.
    apply Rmult_le_compat_r; [lra|]. apply Rmult_le_compat_l; [unfold uu; lra|].
    destruct M as [M1 M2]. apply IZR_le in M1, M2. assert (IZR m * (uu * IZR m) <= 4000 * / 100000) by (apply Rmult_le_compat; lra). lra. }
  destruct (div_ok (Z2D 1) y F1) as [FD VD]; [lra| |].
  { rewrite V1. replace (1 / B2R y) with (/ B2R y) by (field; lra). rewrite Rabs_pos_eq by (left; now apply Rinv_0_lt_compat).
    pose proof (bp_big l OL). pose proof (bpow_gt_0 radix2 l). lra. }
  split; [exact FD|]. rewrite VD, V1. split; [|split; [rewrite Rabs_pos_eq; lra|exact IL]].
  pose proof (rnd_err (1 / B2R y)) as E. replace (rnd (1 / B2R y) - / Y) with ((rnd (1 / B2R y) - 1 / B2R y) + (1 / B2R y - / Y)) by ring.
  apply Rle_trans with (1 := Rabs_triang _ _). assert (eta <= bpow radix2 k) by (apply bp_le; exact HK).
  assert (X : Rabs (1 / B2R y) <= 1.02 * / Y). { replace (1 / B2R y) with (/ B2R y) by (field; lra). rewrite Rabs_pos_eq by (left; now apply Rinv_0_lt_compat). exact IP. }
  assert (uu * Rabs (1 / B2R y) <= uu * (1.02 * / Y)) by (apply Rmult_le_compat_l; [unfold uu; lra|exact X]).
  rewrite !plus_IZR in *. assert (0 <= uu * / Y) by (apply Rmult_le_pos; [unfold uu; lra|lra]). lra.
Qed.
Lemma ac_max x y X Y A B m n k l z w : ac x X A m k z -> ac y Y B n l w -> okm m -> okm n -> 
  ac (dmax x y) (Rmax X Y) (A + B) (Z.max m n) (Z.max k l + 1) (Z.max z w).
Proof.
  intros H1 H2 M N. pose proof (ac_A _ _ _ _ _ _ H1) as PA. pose proof (ac_A _ _ _ _ _ _ H2) as PB.
  destruct H1 as (F1 & D1 & X1 & K1), H2 as (F2 & D2 & X2 & K2).
  assert (ED : fin (dmax x y) /\ B2R (dmax x y) = Rmax (B2R x) (B2R y)).
  { unfold dmax. assert (N1 : is_nan x = false) by (destruct x; reflexivity || discriminate F1). assert (N2 : is_nan y = false) by (destruct y; reflexivity || discriminate F2).
    rewrite N1, N2. pose proof (ltb_fin x y F1 F2) as [L1 L2]. destruct (Bltb x y) eqn:E.
    - specialize (L1 eq_refl). split; [exact F2|]. rewrite Rmax_right; lra.
    - assert (LT : B2R y <= B2R x). { destruct (Rle_lt_dec (B2R y) (B2R x)) as [Q|Q]; [exact Q|]. discriminate (L2 Q). }
      split; [exact F1|]. rewrite Rmax_left; lra. }
  destruct ED as [F V]. split; [exact F|]. rewrite V.
  assert (UU : 0 < uu) by (unfold uu; lra).
  assert (Q1 : uu * IZR m * A <= uu * IZR (Z.max m n) * (A + B)).
  { destruct M as [M1 M2]. pose proof M1 as M1'. apply IZR_le in M1'. apply Rmult_le_compat; [apply Rmult_le_pos; lra|lra| |lra]. apply Rmult_le_compat_l; [lra|]. apply IZR_le. lia. }
  assert (Q2 : uu * IZR n * B <= uu * IZR (Z.max m n) * (A + B)).
  { destruct N as [M1 M2]. pose proof M1 as M1'. apply IZR_le in M1'. apply Rmult_le_compat; [apply Rmult_le_pos; lra|lra| |lra]. apply Rmult_le_compat_l; [lra|]. apply IZR_le. lia. }
  pose proof (bp_le z (Z.max z w) ltac:(lia)). pose proof (bp_le w (Z.max z w) ltac:(lia)).
  apply abs_le in D1, D2, X1, X2. split; [|split].
  - apply abs_le. unfold Rmax. destruct (Rle_dec (B2R x) (B2R y)), (Rle_dec X Y); lra.
  - apply abs_le. unfold Rmax. destruct (Rle_dec X Y); lra.
  - rewrite bpow_dbl. pose proof (bp_le k (Z.max k l) ltac:(lia)). pose proof (bp_le l (Z.max k l) ltac:(lia)). lra.
Qed.
