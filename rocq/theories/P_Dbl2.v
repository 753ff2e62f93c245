(** Doubles: error of a normalised vector. *)
From Coq Require Import List ZArith Bool Lia Reals Lra Psatz.
From Flocq Require Import Core IEEE754.BinarySingleNaN.
From Verif Require Import Num Arr NumR Util NumD P_Dbl.
Import ListNotations.
Local Open Scope R_scope.

Lemma eta_small r : bpow radix2 (-1000) <= r -> 1000 * eta <= uu * r.
Proof.
  intros H. rewrite uu_bpow. apply Rle_trans with (bpow radix2 (-53) * bpow radix2 (-1000)).
  - rewrite <- bpow_plus. unfold eta. apply Rle_trans with (bpow radix2 10 * bpow radix2 (-1075)).
    + apply Rmult_le_compat_r; [apply bpow_ge_0|]. cbn. lra.
    + rewrite <- bpow_plus. apply bpow_le. lia.
  - apply Rmult_le_compat_l; [apply bpow_ge_0|exact H].
Qed.
Lemma abs_in x y e : Rabs (x - y) <= e <-> y - e <= x <= y + e.
Proof. unfold Rabs. destruct Rcase_abs; split; lra. Qed.

(** one more square *)
Lemma sq_step S N e x : 0 <= S -> Rabs (S - N) <= e -> 
  0 <= rnd (S + rnd (x * x)) /\ Rabs (rnd (S + rnd (x * x)) - (N + x * x)) <= e + uu * (x * x) + eta + uu * (N + x * x + e + uu * (x * x) + eta) + eta.
Proof.
  intros HS HE. pose proof (rnd_err (x * x)) as H1. rewrite (Rabs_pos_eq (x * x)) in H1 by nra.
  pose proof (rnd_nonneg (x * x) ltac:(nra)) as P1.
  pose proof (rnd_err (S + rnd (x * x))) as H2. rewrite (Rabs_pos_eq (S + rnd (x * x))) in H2 by lra.
  split; [apply rnd_nonneg; lra|]. apply abs_in in H1, H2, HE. apply abs_in. unfold uu in *. lra.
Qed.

Section L.
  Variable L : Libm.
  Let DN : Num dbl := DNum L.
  #[local] Existing Instance DN.

  Lemma z0_ok : fin (nZ 0 : dbl) /\ B2R (nZ 0 : dbl) = 0.
  Proof. apply Z2D_ok. lia. Qed.
  Lemma z1_ok : fin (nZ 1 : dbl) /\ B2R (nZ 1 : dbl) = 1.
  Proof. apply Z2D_ok. lia. Qed.

  (** a finite sum of squares *)
  Fixpoint sqs (n : nat) (f : nat -> R) : R := match n with O => 0 | S k => sqs k f + f k * f k end.
  Lemma sum_fin (g h : nat -> dbl) n : fin (sum n (fun i => Bmult mode_NE (g i) (h i))) ->
    forall i, (i < n)%nat -> fin (g i) /\ fin (h i).
  Proof.
    induction n as [|n IH]; intros H i Hi; [lia|]. rewrite sum_S in H. cbn [nadd DN DNum] in H.
    apply add_fin in H. destruct H as (H1 & H2 & _). destruct (Nat.eq_dec i n) as [->|]; [|apply IH; [assumption|lia]].
    apply mul_fin in H2. tauto.
  Qed.
  Definition S_ (x : list dbl) n : dbl := sum n (fun i => Bmult mode_NE (get x i) (get x i)).
  Lemma S_step x n : fin (S_ x (S n)) -> fin (S_ x n) /\ fin (get x n) /\
    B2R (S_ x (S n)) = rnd (B2R (S_ x n) + rnd (B2R (get x n) * B2R (get x n))).
  Proof.
    unfold S_. rewrite sum_S. cbn [nadd DN DNum]. intros H. apply add_fin in H. destruct H as (H1 & H2 & ->).
    apply mul_fin in H2. destruct H2 as (H2 & _ & ->). auto.
  Qed.
  Definition N_ (x : list dbl) n : R := sqs n (fun i => B2R (get x i)).
  Lemma N_nonneg x n : 0 <= N_ x n.
  Proof. unfold N_. induction n; cbn [sqs]; [lra|]. nra. Qed.
  Lemma N_le x n i : (i < n)%nat -> B2R (get x i) * B2R (get x i) <= N_ x n.
  Proof.
    unfold N_. induction n as [|n IH]; intros H; [lia|]. cbn [sqs]. pose proof (N_nonneg x n) as P. unfold N_ in P.
    destruct (Nat.eq_dec i n) as [E|E]; [subst i; clear - P|]; [set (a := B2R (get x n) * B2R (get x n)); clearbody a; lra|].
    specialize (IH ltac:(lia)). pose proof (Rle_0_sqr (B2R (get x n))) as Q. unfold Rsqr in Q. lra.
  Qed.
  Lemma S_err x n : (n <= 4)%nat -> fin (S_ x n) -> 0 <= B2R (S_ x n) /\ Rabs (B2R (S_ x n) - N_ x n) <= 6 * uu * N_ x n + 10 * eta.
  Proof.
    intros Hn H.
    assert (B0 : 0 <= B2R (S_ x 0) /\ Rabs (B2R (S_ x 0) - 0) <= 0).
    { unfold S_. rewrite sum_0. rewrite (proj2 z0_ok). rewrite Rminus_0_r, Rabs_R0. lra. }
    pose proof eta_pos as EP.
    do 5 (destruct n as [|n]; [
      repeat match goal with H : fin (S_ x (S ?k)) |- _ => apply S_step in H; let E := fresh "E" in destruct H as (H & _ & E) end;
      destruct B0 as [B0 B1];
      repeat match goal with
        E : B2R (S_ x (S ?k)) = _, B : 0 <= B2R (S_ x ?k), B' : Rabs (B2R (S_ x ?k) - ?N) <= ?e |- _ =>
          destruct (sq_step _ _ _ (B2R (get x k)) B B') as [?B ?B]; rewrite <- E in *; clear E B B'
      end;
      unfold N_; cbn [sqs];
      match goal with B : 0 <= ?s, B' : Rabs (?s - ?N) <= ?e |- 0 <= ?s /\ Rabs (?s - ?M) <= _ =>
        split; [exact B|]; apply abs_in in B'; apply abs_in end;
      assert (Q : forall i, 0 <= B2R (get x i) * B2R (get x i)) by (intros; nra);
      pose proof (Q 0%nat); pose proof (Q 1%nat); pose proof (Q 2%nat); pose proof (Q 3%nat); unfold uu in *; lra |]).
    lia.
  Qed.

  (** the direction of a vector of length sqrt N, from an approximate N *)
  Section Dir.
    Variables (Sd : dbl) (N : R).
    Hypothesis HF : fin Sd.
    Hypothesis HS : 0 <= B2R Sd.
    Hypothesis HE : Rabs (B2R Sd - N) <= 6 * uu * N + 10 * eta.
    Hypothesis HN : bpow radix2 (-900) <= N.
    Let nd := Bsqrt mode_NE Sd.
    Let sd := Bdiv mode_NE (Z2D 1) nd.
    Let rho := sqrt N.

    Lemma rho_lo : bpow radix2 (-450) <= rho.
    Proof.
      unfold rho. rewrite <- (sqrt_Rsqr (bpow radix2 (-450))) by apply bpow_ge_0. apply sqrt_le_1_alt.
      unfold Rsqr. rewrite <- bpow_plus. exact HN.
    Qed.
    Lemma rho_sq : rho * rho = N.
    Proof. apply sqrt_sqrt. apply Rle_trans with (2 := HN). apply bpow_ge_0. Qed.
    Lemma S_rel : (1 - 7 * uu) * N <= B2R Sd <= (1 + 7 * uu) * N.
    Proof.
      assert (E : 1000 * eta <= uu * N). { apply eta_small. apply Rle_trans with (2 := HN). apply bpow_le. lia. }
      apply abs_in in HE. unfold uu in *. lra.
    Qed.
    Lemma r_rel : (1 - 4 * uu) * rho <= sqrt (B2R Sd) <= (1 + 4 * uu) * rho.
    Proof.
      pose proof S_rel as [A B]. pose proof rho_lo as RL. pose proof (bpow_gt_0 radix2 (-450)) as BP. pose proof rho_sq as RS.
      assert (NP : 0 < N) by (apply Rlt_le_trans with (2 := HN); apply bpow_gt_0).
      split.
      - rewrite <- (sqrt_Rsqr ((1 - 4 * uu) * rho)) by (apply Rmult_le_pos; [unfold uu|]; lra).
        apply sqrt_le_1_alt. unfold Rsqr. replace ((1 - 4 * uu) * rho * ((1 - 4 * uu) * rho)) with ((1 - 4 * uu) * (1 - 4 * uu) * (rho * rho)) by ring.
        rewrite RS. eapply Rle_trans; [|exact A]. apply Rmult_le_compat_r; [lra|]. unfold uu. lra.
      - rewrite <- (sqrt_Rsqr ((1 + 4 * uu) * rho)) by (apply Rmult_le_pos; [unfold uu|]; lra).
        apply sqrt_le_1_alt. unfold Rsqr. replace ((1 + 4 * uu) * rho * ((1 + 4 * uu) * rho)) with ((1 + 4 * uu) * (1 + 4 * uu) * (rho * rho)) by ring.
        rewrite RS. eapply Rle_trans; [exact B|]. apply Rmult_le_compat_r; [lra|]. unfold uu. lra.
    Qed.
    Lemma nd_ok : fin nd /\ (1 - 5.1 * uu) * rho <= B2R nd <= (1 + 5.1 * uu) * rho.
    Proof.
      destruct (sqrt_ok Sd HF HS) as [F E]. split; [exact F|]. unfold nd. rewrite E.
      pose proof (rnd_err (sqrt (B2R Sd))) as H. rewrite (Rabs_pos_eq (sqrt _)) in H by apply sqrt_pos.
      pose proof r_rel as RR. pose proof rho_lo as RL.
      assert (E1 : 1000 * eta <= uu * rho). { apply eta_small. apply Rle_trans with (2 := RL). apply bpow_le. lia. }
      apply abs_in in H. pose proof (bpow_gt_0 radix2 (-450)). unfold uu in *. lra.
    Qed.
    Lemma rho_hi : rho <= bpow radix2 513.
    Proof.
      assert (N <= bpow radix2 1026).
      { pose proof S_rel as [A _]. pose proof (abs_B2R_lt_emax 53 1024 Sd) as H. rewrite (Rabs_pos_eq _ HS) in H.
        change (bpow radix2 1026) with (bpow radix2 (2 + 1024)). rewrite bpow_plus. change (bpow radix2 2) with 4.
        assert (NP : 0 < N) by (apply Rlt_le_trans with (2 := HN); apply bpow_gt_0). unfold uu in A. lra. }
      unfold rho. rewrite <- (sqrt_Rsqr (bpow radix2 513)) by apply bpow_ge_0. apply sqrt_le_1_alt.
      unfold Rsqr. rewrite <- bpow_plus. exact H.
    Qed.
    Lemma sd_ok : fin sd /\ Rabs (rho * B2R sd - 1) <= 6.3 * uu.
    Proof.
      destruct nd_ok as [F [A B]]. pose proof rho_lo as RL. pose proof (bpow_gt_0 radix2 (-450)) as BP.
      destruct z1_ok as [F1 E1]. cbn [nZ DN DNum] in F1, E1.
      set (n := B2R nd) in *. assert (NP : rho / 2 <= n) by (unfold uu in A; lra).
      assert (IB : Rabs (B2R (Z2D 1) / n) <= bpow radix2 451).
      { rewrite E1. rewrite Rabs_pos_eq by (apply Rlt_le, Rdiv_lt_0_compat; lra).
        apply Rmult_le_reg_r with n; [lra|]. unfold Rdiv. rewrite Rmult_assoc, Rinv_l by lra. rewrite Rmult_1_r.
        apply Rle_trans with (bpow radix2 451 * bpow radix2 (-451)).
        - rewrite <- bpow_plus. cbn. lra.
        - apply Rmult_le_compat_l; [apply bpow_ge_0|]. apply Rle_trans with (rho / 2); [|exact NP].
          change (-451)%Z with (-450 + -1)%Z. rewrite bpow_plus. change (bpow radix2 (-1)) with (/ 2). lra. }
      destruct (div_ok (Z2D 1) nd F1) as [F2 E2].
      { fold n. lra. } { fold n. eapply Rle_trans; [exact IB|]. apply bpow_le. lia. }
      fold sd in F2, E2. split; [exact F2|]. rewrite E2, E1. fold n.
      pose proof (rnd_err (1 / n)) as H. rewrite (Rabs_pos_eq (1 / n)) in H by (apply Rlt_le, Rdiv_lt_0_compat; lra).
      assert (NI : n * (1 / n) = 1) by (field; lra). set (i := 1 / n) in *. clearbody i.
      pose proof rho_hi as RH.
      assert (NH : n <= bpow radix2 514). { change 514%Z with (1 + 513)%Z. rewrite bpow_plus. change (bpow radix2 1) with 2. unfold uu in B. lra. }
      assert (IP : 0 < i) by nra.
      assert (IL : bpow radix2 (-514) <= i).
      { apply Rmult_le_reg_l with n; [lra|]. rewrite NI. apply Rle_trans with (bpow radix2 514 * bpow radix2 (-514)).
        - apply Rmult_le_compat_r; [apply bpow_ge_0|exact NH].
        - rewrite <- bpow_plus. cbn. lra. }
      assert (E3 : 1000 * eta <= uu * i). { apply eta_small. apply Rle_trans with (2 := IL). apply bpow_le. lia. }
      clear IL NH IB RH E2 E1.
      assert (RI : (1 - 5.11 * uu) <= rho * i <= 1 + 5.11 * uu).
      { split; apply Rmult_le_reg_l with n; try lra; replace (n * (rho * i)) with (rho * (n * i)) by ring; rewrite NI.
        - apply Rle_trans with ((1 + 5.1 * uu) * rho * (1 - 5.11 * uu)).
          + apply Rmult_le_compat_r; [unfold uu; lra|exact B].
          + replace ((1 + 5.1 * uu) * rho * (1 - 5.11 * uu)) with (rho * ((1 + 5.1 * uu) * (1 - 5.11 * uu))) by ring.
            apply Rmult_le_compat_l; [lra|]. unfold uu; lra.
        - apply Rle_trans with ((1 - 5.1 * uu) * rho * (1 + 5.11 * uu)).
          + replace ((1 - 5.1 * uu) * rho * (1 + 5.11 * uu)) with (rho * ((1 - 5.1 * uu) * (1 + 5.11 * uu))) by ring.
            apply Rmult_le_compat_l; [lra|]. unfold uu; lra.
          + apply Rmult_le_compat_r; [unfold uu; lra|exact A]. }
      apply abs_in in H. destruct H as [H1 H2].
      assert (K1 : rnd i <= (1 + 1.001 * uu) * i) by (unfold uu in *; lra).
      assert (K2 : (1 - 1.001 * uu) * i <= rnd i) by (unfold uu in *; lra).
      assert (RP : 0 < rho) by lra.
      assert (M1 : rho * rnd i <= (1 + 1.001 * uu) * (rho * i)).
      { replace ((1 + 1.001 * uu) * (rho * i)) with (rho * ((1 + 1.001 * uu) * i)) by ring. apply Rmult_le_compat_l; lra. }
      assert (M2 : (1 - 1.001 * uu) * (rho * i) <= rho * rnd i).
      { replace ((1 - 1.001 * uu) * (rho * i)) with (rho * ((1 - 1.001 * uu) * i)) by ring. apply Rmult_le_compat_l; lra. }
      set (ri := rho * i) in *. clearbody ri. apply abs_in. unfold uu in *. lra.
    Qed.

    (** an entry of the normalised vector *)
    Lemma dir_entry (x : dbl) : fin x -> B2R x * B2R x <= N ->
      Rabs (B2R x / rho) <= 1 /\ Rabs (B2R x * B2R sd) <= 2 /\
      Rabs (rnd (B2R x * B2R sd) - B2R x / rho) <= 7.5 * uu.
    Proof.
      intros FX HX. destruct sd_ok as [_ K]. pose proof rho_lo as RL. pose proof (bpow_gt_0 radix2 (-450)) as BP.
      assert (RP : 0 < rho) by lra. pose proof rho_sq as RS.
      set (z := B2R x / rho). assert (EZ : B2R x = z * rho) by (unfold z; field; lra).
      assert (ZB : Rabs z <= 1).
      { rewrite EZ in HX. assert (z * z <= 1).
        { apply Rmult_le_reg_r with (rho * rho); [nra|]. rewrite Rmult_1_l, RS at 1. nra. }
        apply Rsqr_le_abs_0 in H || idtac. unfold Rabs. destruct Rcase_abs; nra. }
      split; [exact ZB|].
      assert (EX : B2R x * B2R sd = z * (rho * B2R sd)) by (rewrite EZ; ring). rewrite EX.
      set (k := rho * B2R sd) in *. clearbody k. clearbody z. clear EX EZ.
      assert (KZ : Rabs (z * k - z) <= 6.3 * uu).
      { replace (z * k - z) with (z * (k - 1)) by ring. rewrite Rabs_mult. rewrite <- (Rmult_1_l (6.3 * uu)).
        apply Rmult_le_compat; try apply Rabs_pos; assumption. }
      pose proof (rnd_err (z * k)) as H. 
      assert (EE : eta <= uu / 1000). { pose proof (eta_small 1 ltac:(change 1 with (bpow radix2 0); apply bpow_le; lia)). unfold uu in *. lra. }
      assert (AZ : Rabs (z * k) <= 1 + 7 * uu).
      { replace (z * k) with (z + (z * k - z)) by ring. eapply Rle_trans; [apply Rabs_triang|]. unfold uu in *. lra. }
      split; [unfold uu in *; lra|].
      set (r := rnd (z * k)) in *. clearbody r.
      replace (r - z) with ((r - z * k) + (z * k - z)) by ring. eapply Rle_trans; [apply Rabs_triang|]. unfold uu in *. lra.
    Qed.
  End Dir.
End L.
