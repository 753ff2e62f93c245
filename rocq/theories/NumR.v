(** The real-number instance of [Num]: the code in exact arithmetic. *)
From Coq Require Import List ZArith Bool Lia Reals Lra.
From Verif Require Import Num Arr.
Import ListNotations.
Local Open Scope R_scope.

Definition Rltb (x y : R) : bool := if Rlt_dec x y then true else false.
Definition Rleb (x y : R) : bool := if Rle_dec x y then true else false.
Definition Reqb (x y : R) : bool := if Req_EM_T x y then true else false.

(** copysign; R has no negative zero, zero counts as positive *)
Definition Rcopysign (x y : R) : R := if Rlt_dec y 0 then - Rabs x else Rabs x.

(** pow on the real line. For x > 0 the usual power; pow(0,y) = 0 for y <> 0 (C++ gives
    infinity for y < 0; theorems that meet this case say so); for x < 0 only integer exponents
    are defined in C++, other results are NaN there and 0 here. *)
Definition Rpow (x y : R) : R :=
  if Rlt_dec 0 x then Rpower x y
  else if Req_EM_T y 0 then 1
  else if Req_EM_T x 0 then 0
  else if Req_EM_T y (IZR (Int_part y)) then powerRZ x (Int_part y) else 0.

(** the decimal literal m * 10^e *)
Definition Rlit (m e : Z) : R :=
  match e with
  | Zneg p => IZR m / IZR (10 ^ Zpos p)
  | _ => IZR (m * 10 ^ e)
  end.

Definition s2 : R := sqrt 2.
Definition s3 : R := sqrt 3.

#[export] Instance RNum : Num R := {|
  nundef := 0;
  nZ := IZR; nlit := Rlit;
  nadd := Rplus; nsub := Rminus; nmul := Rmult; ndiv := Rdiv; nopp := Ropp;
  nabs := Rabs; nsqrt := sqrt; nexp := exp; nlog := ln; nsin := sin; ncos := cos;
  npow := Rpow; ncopysign := Rcopysign; nmax := Rmax; nmin := Rmin;
  nltb := Rltb; nleb := Rleb; neqb := Reqb;
  sqr2 := s2; sqr3 := s3; sqr3b2 := s2 * s3 / 2; sqr2i := s2 / 2; sqr3i := s3 / 3;
  sqr6 := s2 * s3; sqr6i := s2 * s3 / 6; sqr2b3 := s2 * s3 / 3;
  halfsqr3 := s3 / 2; twosqr3 := 2 * s3
|}.

Lemma s2_sq : s2 * s2 = 2.  Proof. unfold s2. apply sqrt_sqrt. lra. Qed.
Lemma s3_sq : s3 * s3 = 3.  Proof. unfold s3. apply sqrt_sqrt. lra. Qed.
Lemma s2_pos : 0 < s2.  Proof. unfold s2. apply sqrt_lt_R0. lra. Qed.
Lemma s3_pos : 0 < s3.  Proof. unfold s3. apply sqrt_lt_R0. lra. Qed.
Lemma s2_neq : s2 <> 0.  Proof. generalize s2_pos; lra. Qed.
Lemma s3_neq : s3 <> 0.  Proof. generalize s3_pos; lra. Qed.

Lemma onehalf_R : onehalf = / 2.  Proof. unfold onehalf; cbn. lra. Qed.
Lemma lit_half : nlit 5 (-1) = / 2.  Proof. cbn. lra. Qed.
Lemma oneqrtr_R : oneqrtr = / 4.  Proof. unfold oneqrtr; cbn. lra. Qed.
Lemma thrhalf_R : thrhalf = 3 / 2.  Proof. unfold thrhalf; cbn. lra. Qed.
Lemma fifth_R : nlit 2 (-1) = / 5.  Proof. cbn. lra. Qed.

Lemma Rltb_true x y : Rltb x y = true <-> x < y.
Proof. unfold Rltb. destruct Rlt_dec; split; intros; try easy. Qed.
Lemma Rltb_false x y : Rltb x y = false <-> y <= x.
Proof. unfold Rltb. destruct Rlt_dec; split; intros; try easy; lra. Qed.
Lemma Rleb_true x y : Rleb x y = true <-> x <= y.
Proof. unfold Rleb. destruct Rle_dec; split; intros; try easy. Qed.
Lemma Rleb_false x y : Rleb x y = false <-> y < x.
Proof. unfold Rleb. destruct Rle_dec; split; intros; try easy; lra. Qed.
Lemma Reqb_true x y : Reqb x y = true <-> x = y.
Proof. unfold Reqb. destruct Req_EM_T; split; intros; try easy. Qed.
Lemma Reqb_false x y : Reqb x y = false <-> x <> y.
Proof. unfold Reqb. destruct Req_EM_T; split; intros; try easy. Qed.

(** Reduce the class operations to those of R; keeps [get]/[tab]/[sum]. *)
Ltac rops :=
  cbn beta iota zeta delta
    [nadd nsub nmul ndiv nopp nabs nsqrt nexp nlog nsin ncos npow ncopysign nmax nmin nltb nleb neqb
     nZ nundef sqr2 sqr3 sqr3b2 sqr2i sqr3i sqr6 sqr6i sqr2b3 halfsqr3 twosqr3 RNum
     zero one two three six] in *;
  rewrite ?onehalf_R, ?oneqrtr_R, ?thrhalf_R, ?lit_half in *;
  unfold onethird, oneninth, fourthirds, twothird in *;
  cbn beta iota zeta delta [ndiv nZ RNum one two three] in *.
(** Also reduce array accesses on explicit lists. *)
Ltac rarr :=
  cbn beta iota zeta delta
    [get get2 get3 tab tab2 sum sub upd updl firstn skipn nth map seq flat_map app fold_left
     Nat.mul Nat.add Nat.sub Nat.eqb Nat.ltb Nat.leb andb orb negb fst snd
     ntvec nwvec ndim qdim nsvec emapdim invdim nsvp iSvecS iSvecP] in *; rops.

(** Finish a polynomial identity modulo s2^2 = 2 and s3^2 = 3. *)
Ltac ring_s :=
  let H2 := fresh in let H3 := fresh in
  pose proof s2_sq as H2; pose proof s3_sq as H3; clear - H2 H3; ring [H2 H3].
Ltac field_s :=
  let H2 := fresh in let H3 := fresh in
  pose proof s2_sq as H2; pose proof s3_sq as H3;
  first [ reflexivity | ring [H2 H3]
        | solve [field_simplify_eq; [first [reflexivity | ring [H2 H3]] | ..]]
        | field_simplify_eq; [first [reflexivity | ring [H2 H3]] | ..] ].

(** ** Sums over R *)
Lemma sum_S_R n (f : nat -> R) : sum (S n) f = sum n f + f n.
Proof. rewrite sum_S. reflexivity. Qed.

Lemma sum_plus n (f g : nat -> R) : sum n (fun i => f i + g i) = sum n f + sum n g.
Proof. induction n; [cbn; lra|]. rewrite !sum_S_R, IHn. lra. Qed.
Lemma sum_minus n (f g : nat -> R) : sum n (fun i => f i - g i) = sum n f - sum n g.
Proof. induction n; [cbn; lra|]. rewrite !sum_S_R, IHn. lra. Qed.
Lemma sum_opp n (f : nat -> R) : sum n (fun i => - f i) = - sum n f.
Proof. induction n; [cbn; lra|]. rewrite !sum_S_R, IHn. lra. Qed.
Lemma sum_scal_l n (c : R) (f : nat -> R) : sum n (fun i => c * f i) = c * sum n f.
Proof. induction n; [cbn; lra|]. rewrite !sum_S_R, IHn. lra. Qed.
Lemma sum_scal_r n (c : R) (f : nat -> R) : sum n (fun i => f i * c) = sum n f * c.
Proof. induction n; [cbn; lra|]. rewrite !sum_S_R, IHn. lra. Qed.
Lemma sum_zero n (f : nat -> R) : (forall i, (i < n)%nat -> f i = 0) -> sum n f = 0.
Proof. induction n; intros H; [reflexivity|]. rewrite sum_S_R, IHn, H; [lra|lia|]. intros; apply H; lia. Qed.
Lemma sum_exchange n m (f : nat -> nat -> R) :
  sum n (fun i => sum m (fun j => f i j)) = sum m (fun j => sum n (fun i => f i j)).
Proof.
  induction n.
  - cbn [sum seq fold_left]. symmetry. apply sum_zero. reflexivity.
  - rewrite sum_S_R, IHn, <- sum_plus. apply sum_ext. intros. now rewrite sum_S_R.
Qed.
Lemma sum_le n (f g : nat -> R) : (forall i, (i < n)%nat -> f i <= g i) -> sum n f <= sum n g.
Proof.
  induction n; intros H; [cbn; lra|]. rewrite !sum_S_R.
  apply Rplus_le_compat; [apply IHn; intros; apply H; lia | apply H; lia].
Qed.
Lemma sum_nonneg n (f : nat -> R) : (forall i, (i < n)%nat -> 0 <= f i) -> 0 <= sum n f.
Proof.
  induction n; intros H; [cbn; lra|]. rewrite sum_S_R.
  apply Rplus_le_le_0_compat; [apply IHn; intros; apply H; lia | apply H; lia].
Qed.

Lemma sum_fold n (f : nat -> R) : sum n f = fold_right Rplus 0 (map f (seq 0 n)).
Proof.
  induction n as [|n IH]; [reflexivity|]. rewrite sum_S_R, IH, seq_S, map_app, fold_right_app. cbn [map fold_right Nat.add].
  rewrite Rplus_0_r. generalize (map f (seq 0 n)). intros l. induction l as [|x l IHl]; cbn [fold_right]; [ring|].
  rewrite <- IHl. ring.
Qed.
