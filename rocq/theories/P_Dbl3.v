(** Doubles: length of the updated orientation. *)
From Coq Require Import List ZArith Bool Lia Reals Lra Psatz.
From Flocq Require Import Core IEEE754.BinarySingleNaN.
From Verif Require Import Num Arr NumR Util NumD P_Dbl P_Dbl2 SpecDbl.
Import ListNotations.
Local Open Scope R_scope.

Lemma eta_uu : eta <= uu / 1000.
Proof. pose proof (eta_small 1 ltac:(change 1 with (bpow radix2 0); apply bpow_le; lia)). unfold uu in *. lra. Qed.
Lemma big_10 : 1000 <= big.
Proof. apply Rle_trans with (bpow radix2 10); [cbn; lra|]. apply bpow_le. lia. Qed.
Lemma abs_le x e : Rabs x <= e <-> - e <= x <= e.
Proof. unfold Rabs. destruct Rcase_abs; split; lra. Qed.

(** ** Products and sums of small numbers *)
Lemma prod_err (a b : dbl) A B : fin a -> fin b -> Rabs A <= 1 -> Rabs B <= 1 ->
  Rabs (B2R a - A) <= 7.5 * uu -> Rabs (B2R b - B) <= 12 * uu ->
  fin (Bmult mode_NE a b) /\ Rabs (B2R (Bmult mode_NE a b) - A * B) <= 21 * uu /\ Rabs (A * B) <= 1.
Proof.
  intros FA FB HA HB EA EB.
  set (da := B2R a - A) in *. set (db := B2R b - B) in *.
  assert (E : B2R a * B2R b - A * B = A * db + B * da + da * db) by (unfold da, db; ring).
  assert (X1 : Rabs (A * db) <= 12 * uu). { rewrite Rabs_mult, <- (Rmult_1_l (12 * uu)). apply Rmult_le_compat; auto using Rabs_pos. }
  assert (X2 : Rabs (B * da) <= 7.5 * uu). { rewrite Rabs_mult, <- (Rmult_1_l (7.5 * uu)). apply Rmult_le_compat; auto using Rabs_pos. }
  assert (X3 : Rabs (da * db) <= 7.5 * uu * (12 * uu)). { rewrite Rabs_mult. apply Rmult_le_compat; auto using Rabs_pos. }
  assert (X4 : Rabs (A * B) <= 1). { rewrite Rabs_mult, <- (Rmult_1_l 1). apply Rmult_le_compat; auto using Rabs_pos. }
  clearbody da db. set (ab := A * B) in *. clearbody ab.
  assert (M : Rabs (B2R a * B2R b - ab) <= 19.6 * uu).
  { rewrite E. apply abs_le in X1, X2, X3. apply abs_le. unfold uu in *. lra. }
  assert (M2 : Rabs (B2R a * B2R b) <= 2). { apply abs_le in M, X4. apply abs_le. unfold uu in *. lra. }
  destruct (mul_ok a b FA FB) as [F R]. { pose proof big_10. lra. }
  split; [exact F|]. split; [|exact X4]. rewrite R.
  pose proof (rnd_err (B2R a * B2R b)) as H. set (p := B2R a * B2R b) in *. clearbody p.
  assert (H2 : Rabs p <= 1 + 20 * uu). { apply abs_le in M, X4. apply abs_le. unfold uu in *. lra. }
  pose proof eta_uu. apply abs_le in H, M. apply abs_le. unfold uu in *. lra.
Qed.
Lemma add_err (x y : dbl) X Y e f M : fin x -> fin y -> Rabs (B2R x - X) <= e -> Rabs (B2R y - Y) <= f ->
  Rabs X <= M -> Rabs Y <= 1 -> M <= 10 -> e <= 1 -> f <= 1 ->
  fin (Bplus mode_NE x y) /\ Rabs (B2R (Bplus mode_NE x y) - (X + Y)) <= e + f + uu * (M + 1 + e + f) + eta /\ Rabs (X + Y) <= M + 1.
Proof.
  intros FX FY EX EY HX HY HM He Hf. apply abs_le in EX, EY, HX, HY.
  assert (B : Rabs (B2R x + B2R y) <= M + 1 + e + f) by (apply abs_le; lra).
  destruct (add_ok x y FX FY) as [F R]. { pose proof big_10. lra. }
  split; [exact F|]. rewrite R. pose proof (rnd_err (B2R x + B2R y)) as H.
  apply abs_le in H. split; [|apply abs_le; lra]. apply abs_le.
  assert (uu * Rabs (B2R x + B2R y) <= uu * (M + 1 + e + f)) by (apply Rmult_le_compat_l; [unfold uu; lra|exact B]). lra.
Qed.
Lemma sub_err (x y : dbl) X Y e f M : fin x -> fin y -> Rabs (B2R x - X) <= e -> Rabs (B2R y - Y) <= f ->
  Rabs X <= M -> Rabs Y <= 1 -> M <= 10 -> e <= 1 -> f <= 1 ->
  fin (Bminus mode_NE x y) /\ Rabs (B2R (Bminus mode_NE x y) - (X - Y)) <= e + f + uu * (M + 1 + e + f) + eta /\ Rabs (X - Y) <= M + 1.
Proof.
  intros FX FY EX EY HX HY HM He Hf. apply abs_le in EX, EY, HX, HY.
  assert (B : Rabs (B2R x - B2R y) <= M + 1 + e + f) by (apply abs_le; lra).
  destruct (sub_ok x y FX FY) as [F R]. { pose proof big_10. lra. }
  split; [exact F|]. rewrite R. pose proof (rnd_err (B2R x - B2R y)) as H.
  apply abs_le in H. split; [|apply abs_le; lra]. apply abs_le.
  assert (uu * Rabs (B2R x - B2R y) <= uu * (M + 1 + e + f)) by (apply Rmult_le_compat_l; [unfold uu; lra|exact B]). lra.
Qed.

Definition near (x : dbl) (X e : R) : Prop := fin x /\ Rabs (B2R x - X) <= e.
Definition unit4r (a b c d : R) : Prop := a * a + b * b + c * c + d * d = 1.
Lemma unit4_le a b c d : unit4r a b c d -> Rabs a <= 1 /\ Rabs b <= 1 /\ Rabs c <= 1 /\ Rabs d <= 1.
Proof. unfold unit4r. intros H. repeat split; apply abs_le; nra. Qed.

(** four products added or subtracted in order *)
Lemma four_err (p0 p1 p2 p3 : dbl) (s1 s2 s3 : bool) P0 P1 P2 P3 :
  let op (s : bool) (x y : dbl) := if s then Bplus mode_NE x y else Bminus mode_NE x y in
  let rop (s : bool) (x y : R) := if s then x + y else x - y in
  near p0 P0 (21 * uu) -> near p1 P1 (21 * uu) -> near p2 P2 (21 * uu) -> near p3 P3 (21 * uu) ->
  Rabs P0 <= 1 -> Rabs P1 <= 1 -> Rabs P2 <= 1 -> Rabs P3 <= 1 ->
  near (op s3 (op s2 (op s1 p0 p1) p2) p3) (rop s3 (rop s2 (rop s1 P0 P1) P2) P3) (94 * uu).
Proof.
  intros op rop [F0 E0] [F1 E1] [F2 E2] [F3 E3] B0 B1 B2 B3. pose proof eta_uu as EU. pose proof eta_pos as EP.
  assert (X1 : fin (op s1 p0 p1) /\ Rabs (B2R (op s1 p0 p1) - rop s1 P0 P1) <= 44.1 * uu /\ Rabs (rop s1 P0 P1) <= 2).
  { unfold op, rop. destruct s1.
    - destruct (add_err p0 p1 P0 P1 _ _ 1 F0 F1 E0 E1 B0 B1) as (G1 & G2 & G3); [unfold uu; lra ..|].
      split; [exact G1|]. split; [unfold uu in *; lra|lra].
    - destruct (sub_err p0 p1 P0 P1 _ _ 1 F0 F1 E0 E1 B0 B1) as (G1 & G2 & G3); [unfold uu; lra ..|].
      split; [exact G1|]. split; [unfold uu in *; lra|lra]. }
  destruct X1 as (FX & EX & BX). set (x := op s1 p0 p1) in *. set (X := rop s1 P0 P1) in *. clearbody x X.
  assert (Y1 : fin (op s2 x p2) /\ Rabs (B2R (op s2 x p2) - rop s2 X P2) <= 68.3 * uu /\ Rabs (rop s2 X P2) <= 3).
  { unfold op, rop. destruct s2.
    - destruct (add_err x p2 X P2 _ _ 2 FX F2 EX E2 BX B2) as (G1 & G2 & G3); [unfold uu; lra ..|].
      split; [exact G1|]. split; [unfold uu in *; lra|lra].
    - destruct (sub_err x p2 X P2 _ _ 2 FX F2 EX E2 BX B2) as (G1 & G2 & G3); [unfold uu; lra ..|].
      split; [exact G1|]. split; [unfold uu in *; lra|lra]. }
  destruct Y1 as (FY & EY & BY). set (y := op s2 x p2) in *. set (Y := rop s2 X P2) in *. clearbody y Y.
  unfold near, op, rop. destruct s3.
  - destruct (add_err y p3 Y P3 _ _ 3 FY F3 EY E3 BY B3) as (G1 & G2 & G3); [unfold uu; lra ..|].
    split; [exact G1|]. unfold uu in *; lra.
  - destruct (sub_err y p3 Y P3 _ _ 3 FY F3 EY E3 BY B3) as (G1 & G2 & G3); [unfold uu; lra ..|].
    split; [exact G1|]. unfold uu in *; lra.
Qed.

Lemma near_norm q0 q1 q2 q3 P0 P1 P2 P3 : unit4r P0 P1 P2 P3 ->
  near q0 P0 (94 * uu) -> near q1 P1 (94 * uu) -> near q2 P2 (94 * uu) -> near q3 P3 (94 * uu) ->
  finite [q0; q1; q2; q3] /\ Rabs (norm2 [q0; q1; q2; q3] - 1) <= / 10 ^ 13.
Proof.
  intros U [F0 E0] [F1 E1] [F2 E2] [F3 E3]. split; [repeat constructor; assumption|].
  destruct (unit4_le _ _ _ _ U) as (B0 & B1 & B2 & B3). cbn [norm2 fold_right].
  set (d0 := B2R q0 - P0) in *. set (d1 := B2R q1 - P1) in *. set (d2 := B2R q2 - P2) in *. set (d3 := B2R q3 - P3) in *.
  replace (B2R q0) with (P0 + d0) by (unfold d0; ring). replace (B2R q1) with (P1 + d1) by (unfold d1; ring).
  replace (B2R q2) with (P2 + d2) by (unfold d2; ring). replace (B2R q3) with (P3 + d3) by (unfold d3; ring).
  clearbody d0 d1 d2 d3. clear F0 F1 F2 F3.
  assert (PR : forall P d, Rabs P <= 1 -> Rabs d <= 94 * uu -> Rabs ((P + d) * (P + d) - P * P) <= 189 * uu).
  { intros P d HP Hd. replace ((P + d) * (P + d) - P * P) with (2 * (P * d) + d * d) by ring.
    assert (X1 : Rabs (P * d) <= 1 * (94 * uu)) by (rewrite Rabs_mult; apply Rmult_le_compat; auto using Rabs_pos).
    assert (X2 : Rabs (d * d) <= 94 * uu * (94 * uu)) by (rewrite Rabs_mult; apply Rmult_le_compat; auto using Rabs_pos).
    apply abs_le in X1, X2. apply abs_le. unfold uu in *. lra. }
  pose proof (PR _ _ B0 E0) as K0. pose proof (PR _ _ B1 E1) as K1. pose proof (PR _ _ B2 E2) as K2. pose proof (PR _ _ B3 E3) as K3.
  unfold unit4r in U. clear PR B0 B1 B2 B3 E0 E1 E2 E3.
  apply abs_le in K0, K1, K2, K3. apply abs_le. unfold uu in *.
  set (a0 := (P0 + d0) * (P0 + d0)) in *. set (a1 := (P1 + d1) * (P1 + d1)) in *. set (a2 := (P2 + d2) * (P2 + d2)) in *. set (a3 := (P3 + d3) * (P3 + d3)) in *.
  clearbody a0 a1 a2 a3.
  set (b0 := P0 * P0) in *. set (b1 := P1 * P1) in *. set (b2 := P2 * P2) in *. set (b3 := P3 * P3) in *. clearbody b0 b1 b2 b3.
  cbn [pow]. lra.
Qed.

(** product of unit quaternions *)
Lemma unit_prod a0 a1 a2 a3 b0 b1 b2 b3 : unit4r a0 a1 a2 a3 -> unit4r b0 b1 b2 b3 ->
  unit4r (a0 * b0 - a1 * b1 - a2 * b2 - a3 * b3) (a0 * b1 + a1 * b0 + a2 * b3 - a3 * b2)
         (a0 * b2 - a1 * b3 + a2 * b0 + a3 * b1) (a0 * b3 + a1 * b2 - a2 * b1 + a3 * b0).
Proof.
  unfold unit4r. intros H K.
  transitivity ((a0 * a0 + a1 * a1 + a2 * a2 + a3 * a3) * (b0 * b0 + b1 * b1 + b2 * b2 + b3 * b3)); [ring|]. rewrite H, K. ring.
Qed.

Section L.
  Variable L : Libm.
  Let DN : Num dbl := DNum L.
  #[local] Existing Instance DN.

  Lemma prod_near (a b : list dbl) A0 A1 A2 A3 B0 B1 B2 B3 : unit4r A0 A1 A2 A3 -> unit4r B0 B1 B2 B3 ->
    near (get a 0) A0 (7.5 * uu) -> near (get a 1) A1 (7.5 * uu) -> near (get a 2) A2 (7.5 * uu) -> near (get a 3) A3 (7.5 * uu) ->
    near (get b 0) B0 (12 * uu) -> near (get b 1) B1 (12 * uu) -> near (get b 2) B2 (12 * uu) -> near (get b 3) B3 (12 * uu) ->
    finite (quat_prod a b) /\ Rabs (norm2 (quat_prod a b) - 1) <= / 10 ^ 13.
  Proof.
    intros UA UB [FA0 EA0] [FA1 EA1] [FA2 EA2] [FA3 EA3] [FB0 EB0] [FB1 EB1] [FB2 EB2] [FB3 EB3].
    destruct (unit4_le _ _ _ _ UA) as (HA0 & HA1 & HA2 & HA3). destruct (unit4_le _ _ _ _ UB) as (HB0 & HB1 & HB2 & HB3).
    unfold quat_prod. cbv zeta. cbn [nadd nsub nmul DN DNum].
    set (a0 := get a 0) in *. set (a1 := get a 1) in *. set (a2 := get a 2) in *. set (a3 := get a 3) in *.
    set (b0 := get b 0) in *. set (b1 := get b 1) in *. set (b2 := get b 2) in *. set (b3 := get b 3) in *.
    clearbody a0 a1 a2 a3 b0 b1 b2 b3.
    assert (PE : forall x y X Y, fin x -> fin y -> Rabs X <= 1 -> Rabs Y <= 1 -> Rabs (B2R x - X) <= 7.5 * uu -> Rabs (B2R y - Y) <= 12 * uu ->
      near (Bmult mode_NE x y) (X * Y) (21 * uu)).
    { intros. destruct (prod_err x y X Y) as (G1 & G2 & G3); auto. split; assumption. }
    assert (BE : forall X Y, Rabs X <= 1 -> Rabs Y <= 1 -> Rabs (X * Y) <= 1).
    { intros X Y HX HY. rewrite Rabs_mult, <- (Rmult_1_l 1). apply Rmult_le_compat; auto using Rabs_pos. }
    apply (near_norm _ _ _ _ (A0 * B0 - A1 * B1 - A2 * B2 - A3 * B3) (A0 * B1 + A1 * B0 + A2 * B3 - A3 * B2)
             (A0 * B2 - A1 * B3 + A2 * B0 + A3 * B1) (A0 * B3 + A1 * B2 - A2 * B1 + A3 * B0)).
    - apply unit_prod; assumption.
    - apply (four_err _ _ _ _ false false false (A0 * B0) (A1 * B1) (A2 * B2) (A3 * B3)); (apply PE || apply BE); assumption.
    - apply (four_err _ _ _ _ true true false (A0 * B1) (A1 * B0) (A2 * B3) (A3 * B2)); (apply PE || apply BE); assumption.
    - apply (four_err _ _ _ _ false true true (A0 * B2) (A1 * B3) (A2 * B0) (A3 * B1)); (apply PE || apply BE); assumption.
    - apply (four_err _ _ _ _ true false true (A0 * B3) (A1 * B2) (A2 * B1) (A3 * B0)); (apply PE || apply BE); assumption.
  Qed.

  (** finite sums of squares *)
  Lemma S_fwd x n : (n <= 4)%nat -> (forall i, (i < n)%nat -> fin (get x i)) -> N_ L x n <= bpow radix2 1000 -> fin (S_ L x n).
  Proof.
    induction n as [|n IH]; intros Hn HF HN; [unfold S_; rewrite sum_0; apply z0_ok|].
    assert (NN : N_ L x n <= N_ L x (S n)). { unfold N_. cbn [sqs]. pose proof (Rle_0_sqr (B2R (get x n))) as Q. unfold Rsqr in Q. unfold DN in Q. lra. }
    assert (F : fin (S_ L x n)) by (apply IH; [lia|intros; apply HF; lia|lra]).
    destruct (S_err L x n ltac:(lia) F) as [P E]. pose proof (N_le L x (S n) n ltac:(lia)) as XN. 
    unfold S_. rewrite sum_S. cbn [nadd DN DNum]. change (sum n (fun i => Bmult mode_NE (get x i) (get x i))) with (S_ L x n).
    specialize (HF n ltac:(lia)).
    assert (BB : bpow radix2 1000 <= big / 1000).
    { unfold big. change 1023%Z with (1000 + 23)%Z. rewrite bpow_plus. assert (1000 <= bpow radix2 23) by (cbn; lra). pose proof (bpow_gt_0 radix2 1000). nra. }
    pose proof eta_uu as EU. pose proof eta_pos as EP. pose proof big_10 as B10.
    pose proof (N_nonneg L x n) as NP.
    assert (XX : 0 <= B2R (get x n) * B2R (get x n)) by apply (Rle_0_sqr (B2R (get x n))).
    assert (XX2 : B2R (get x n) * B2R (get x n) <= big / 1000). { unfold DN in *. lra. }
    destruct (mul_ok (get x n) (get x n) HF HF) as [F2 E2]. { rewrite Rabs_pos_eq; lra. }
    pose proof (rnd_err (B2R (get x n) * B2R (get x n))) as H. rewrite (Rabs_pos_eq _ XX), <- E2 in H.
    set (y := Bmult mode_NE (get x n) (get x n)) in *. set (xx := B2R (get x n) * B2R (get x n)) in *.
    apply abs_in in E. apply abs_in in H. clearbody xx y. clear XN.
    set (NV := N_ L x n) in *. clearbody NV. set (s := S_ L x n) in *. clearbody s.
    apply add_ok; [exact F|exact F2|]. apply abs_le. unfold uu in *. lra.
  Qed.

  Definition list4 (q : list dbl) : Prop := exists a b c d, q = [a; b; c; d].
  Lemma N_norm2 q : list4 q -> N_ L q 4 = norm2 q.
  Proof. intros (a & b & c & d & ->). unfold N_. cbn. ring. Qed.

  (** the normalised old orientation *)
  Lemma normalize_near q : list4 q -> finite q -> bpow radix2 (-900) <= norm2 q <= bpow radix2 1000 ->
    exists Z0 Z1 Z2 Z3, unit4r Z0 Z1 Z2 Z3 /\
      near (get (vecsVNormalize 4 q) 0) Z0 (7.5 * uu) /\ near (get (vecsVNormalize 4 q) 1) Z1 (7.5 * uu) /\
      near (get (vecsVNormalize 4 q) 2) Z2 (7.5 * uu) /\ near (get (vecsVNormalize 4 q) 3) Z3 (7.5 * uu) /\
      Z0 * sqrt (norm2 q) = B2R (get q 0) /\ Z1 * sqrt (norm2 q) = B2R (get q 1) /\
      Z2 * sqrt (norm2 q) = B2R (get q 2) /\ Z3 * sqrt (norm2 q) = B2R (get q 3).
  Proof.
    intros L4 HF [H1 H2]. rewrite <- (N_norm2 q L4) in H1, H2.
    assert (FI : forall i, (i < 4)%nat -> fin (get q i)).
    { intros i Hi. destruct L4 as (a & b & c & d & ->). unfold finite in HF.
      inversion HF as [|? ? Fa HF1]; subst. inversion HF1 as [|? ? Fb HF2]; subst. inversion HF2 as [|? ? Fc HF3]; subst. inversion HF3 as [|? ? Fd _]; subst.
      do 4 (destruct i as [|i]; [assumption|]). lia. }
    pose proof (S_fwd q 4 ltac:(lia) FI H2) as FS. destruct (S_err L q 4 ltac:(lia) FS) as [PS ES].
    set (rho := sqrt (N_ L q 4)).
    assert (RP : 0 < rho). { apply sqrt_lt_R0. apply Rlt_le_trans with (2 := H1). apply bpow_gt_0. }
    assert (RS : rho * rho = N_ L q 4) by (apply sqrt_sqrt, N_nonneg).
    exists (B2R (get q 0) / rho), (B2R (get q 1) / rho), (B2R (get q 2) / rho), (B2R (get q 3) / rho).
    assert (ENT : forall i, (i < 4)%nat -> near (get (vecsVNormalize 4 q) i) (B2R (get q i) / rho) (7.5 * uu)).
    { intros i Hi. unfold vecsVNormalize, vecsVsa, vecNorm. cbv zeta. rewrite get_tab by assumption. cbn [nmul ndiv nsqrt nZ DN DNum].
      destruct (sd_ok L _ _ FS PS ES H1) as [FD _].
      destruct (dir_entry L _ _ FS PS ES H1 (get q i) (FI i Hi) (N_le L q 4 i Hi)) as (_ & D2 & D3). fold rho in D3.
      change (sum 4 (fun i0 => Bmult mode_NE (get q i0) (get q i0))) with (S_ L q 4).
      destruct (mul_ok (get q i) _ (FI i Hi) FD) as [G1 G2]. { pose proof big_10. unfold DN in *. lra. }
      split; [exact G1|]. rewrite G2. exact D3. }
    split; [|split; [apply ENT; lia|split; [apply ENT; lia|split; [apply ENT; lia|split; [apply ENT; lia|]]]];
              rewrite <- (N_norm2 q L4); fold rho; repeat split; field; lra].
    unfold unit4r. unfold N_ in RS. cbn [sqs] in RS. unfold DN in *.
    set (x0 := B2R (get q 0)) in *. set (x1 := B2R (get q 1)) in *. set (x2 := B2R (get q 2)) in *. set (x3 := B2R (get q 3)) in *.
    clear - RS RP. clearbody x0 x1 x2 x3 rho.
    apply Rmult_eq_reg_r with (rho * rho); [|nra]. rewrite Rmult_1_l. rewrite RS at 2. field. lra.
  Qed.
End L.
