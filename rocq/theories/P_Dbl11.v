(** Doubles: the slip-system tables of the hexagonal crystals. *)
From Coq Require Import List ZArith Bool Lia Reals Lra.
From Flocq Require Import Core IEEE754.BinarySingleNaN.
From Verif Require Import Num Arr NumR Util Const SpecConst P_Const Prop_Const SlipGeom SpecSlip P_Slip P_SlipH NumD P_Dbl P_Dbl2 SpecDbl P_Dbl3 P_Dbl4 SpecTensor SpecDblGeom P_Dbl9.
Import ListNotations.
Local Open Scope R_scope.

Lemma nb_to x X Y e M M' : nb x X e M -> X = Y -> Rabs Y <= M' -> nb x Y e M'.
Proof. intros (F & H & K) -> HY. exact (conj F (conj H HY)). Qed.
Lemma nb_abs x X e M : nb x X e M -> nb (Babs x) (Rabs X) e M.
Proof.
  intros (F & H & K). split; [now rewrite is_finite_Babs|]. rewrite B2R_Babs, Rabs_Rabsolu. split; [|exact K].
  eapply Rle_trans; [apply Rabs_triang_inv2|exact H].
Qed.
Lemma nb_sqrt x X e M l S : nb x X e M -> 0 < l -> l * l <= X -> e <= l * l -> X <= S * S -> 0 <= S ->
  nb (Bsqrt mode_NE x) (sqrt X) (e / l + uu * (S + e / l + 0.001)) S.
Proof.
  intros (F & E & _) Hl HX He HS S0. apply abs_le in E. assert (L2 : 0 < l * l) by (apply Rmult_lt_0_compat; lra).
  assert (x0 : 0 <= B2R x) by lra. destruct (sqrt_ok x F x0) as [FS VS].
  pose proof (sqrt_pos (B2R x)) as P0. pose proof (sqrt_sqrt (B2R x) x0) as P2. pose proof (sqrt_sqrt X ltac:(lra)) as Q2.
  assert (Q0 : l <= sqrt X) by (rewrite <- (sqrt_square l) by lra; now apply sqrt_le_1_alt).
  assert (QS : sqrt X <= S) by (rewrite <- (sqrt_square S) by lra; now apply sqrt_le_1_alt).
  set (p := sqrt (B2R x)) in *. set (q := sqrt X) in *. clearbody p q.
  assert (D : Rabs (p - q) <= e / l).
  { apply (Rmult_le_reg_r l); [exact Hl|]. replace (e / l * l) with e by (field; lra).
    apply Rle_trans with (Rabs (p - q) * (p + q)).
    - apply Rmult_le_compat_l; [apply Rabs_pos|lra].
    - rewrite <- (Rabs_pos_eq (p + q)) by lra. rewrite <- Rabs_mult. replace ((p - q) * (p + q)) with (p * p - q * q) by ring.
      rewrite P2, Q2. apply abs_le. lra. }
  set (d := e / l) in *. clearbody d.
  split; [exact FS|]. rewrite (Rabs_pos_eq q) by lra. split; [|exact QS]. rewrite VS. pose proof (rnd_err p) as R. rewrite (Rabs_pos_eq p) in R by lra.
  apply abs_le in D, R. assert (uu * p <= uu * (S + d)) by (apply Rmult_le_compat_l; [unfold uu|]; lra).
  pose proof nb_eta. apply abs_le. lra.
Qed.
Lemma nb_inv b B f P l : nb b B f P -> 0.01 <= l -> l <= B -> f <= l / 1000 ->
  nb (Bdiv mode_NE (Z2D 1) b) (1 / B) (1.002 * f / (l * l) + uu * (1.002 / l + 0.001)) (/ l).
Proof.
  intros HB Hl HB2 Hf. pose proof (nb_pos _ _ _ _ HB) as [f0 _]. destruct HB as (F & E & _). destruct (Z2D_ok 1 ltac:(cbn; lia)) as [F1 V1].
  pose proof E as E'. apply abs_le in E'. set (x := B2R b) in *.
  assert (X0 : l / 1.002 <= x) by lra.
  assert (IX : 0 < / x) by (apply Rinv_0_lt_compat; lra). assert (IB : 0 < / B) by (apply Rinv_0_lt_compat; lra).
  assert (IL : 0 < / l) by (apply Rinv_0_lt_compat; lra).
  assert (IX2 : / x <= 1.002 / l). { replace (1.002 / l) with (/ (l / 1.002)) by (field; lra). apply Rinv_le_contravar; lra. }
  assert (IB2 : / B <= / l) by (apply Rinv_le_contravar; lra).
  assert (IL2 : / l <= 100). { replace 100 with (/ 0.01) by lra. apply Rinv_le_contravar; lra. }
  destruct (div_ok (Z2D 1) b F1) as [FD VD]; [fold x; lra|fold x; rewrite V1; unfold Rdiv; rewrite Rmult_1_l, Rabs_pos_eq by lra; pose proof big_10; unfold Rdiv in IX2; lra|].
  fold x in VD. rewrite V1 in VD. split; [exact FD|]. replace (1 / B) with (/ B) by (field; lra). rewrite (Rabs_pos_eq (/ B)) by lra. split; [|exact IB2].
  rewrite VD. replace (1 / x) with (/ x) by (field; lra). pose proof (rnd_err (/ x)) as R. rewrite (Rabs_pos_eq (/ x)) in R by lra.
  assert (D : Rabs (/ x - / B) <= 1.002 * f / (l * l)).
  { replace (/ x - / B) with (- (x - B) * (/ x * / B)) by (field; lra). rewrite Rabs_mult, Rabs_Ropp.
    rewrite (Rabs_pos_eq (/ x * / B)) by (apply Rmult_le_pos; lra).
    replace (1.002 * f / (l * l)) with (f * (1.002 / l * / l)) by (field; lra).
    apply Rmult_le_compat; [apply Rabs_pos|apply Rmult_le_pos; lra|exact E|]. apply Rmult_le_compat; lra. }
  set (d := 1.002 * f / (l * l)) in *. clearbody d. assert (uu * / x <= uu * (1.002 / l)) by (apply Rmult_le_compat_l; [unfold uu|]; lra).
  pose proof nb_eta. apply abs_le in R, D. apply abs_le. unfold Rdiv in *. lra.
Qed.
Lemma lt_false (e x : dbl) X f M : fin e -> nb x X f M -> Rabs X + f < B2R e -> Bltb e (Babs x) = false.
Proof.
  intros FE (F & H & _) HX. rewrite Bltb_correct by (try exact FE; now rewrite is_finite_Babs). rewrite B2R_Babs.
  apply Rlt_bool_false. pose proof (Rabs_triang (B2R x - X) X) as T. replace (B2R x - X + X) with (B2R x) in T by ring. lra.
Qed.

Ltac un := unfold uu; lra.
Ltac op2 K A B er mx N := pose proof (K _ _ _ _ _ _ _ _ A B ltac:(un) ltac:(un) ltac:(un) ltac:(un)) as N;
  apply nb_weak with (e' := er) (M' := mx) in N; [|un|un].
Ltac to N y m := apply nb_to with (Y := y) (M' := m) in N.

Section L.
  Variable L : Libm.
  Let DN := DNum L.
  #[local] Existing Instance DN.

  Lemma nb_sqr3 : nb (sqr3 : dbl) s3 (3.5 * uu) 1.7321.
  Proof.
    unfold s3. destruct C37_roots as (_ & C & _). destruct roots_vals as (_ & V & _).
    eapply nb_weak; [apply (nb_const _ _ C); lra| |]; unfold uu in *; lra.
  Qed.
  Lemma nb_halfsqr3 : nb (halfsqr3 : dbl) (s3 / 2) (1.8 * uu) 0.8661.
  Proof.
    unfold s3. destruct C37_roots as (_ & _ & _ & _ & _ & _ & _ & _ & C & _).
    destruct roots_vals as (_ & V & _).
    eapply nb_weak; [apply (nb_const _ _ C); lra| |]; unfold uu in *; lra.
  Qed.
  Lemma eps_hi : B2R (idp_eps_sqrt : dbl) <= / 10000000.
  Proof.
    assert (E : (idp_eps_sqrt : dbl) = R2D (/ 100000000)).
    { unfold idp_eps_sqrt. cbn [nlit DN DNum]. f_equal. unfold Rlit. change (10 ^ 8)%Z with 100000000%Z. lra. }
    rewrite E. destruct (R2D_ok (/ 100000000)) as [F V]. { rewrite Rabs_pos_eq by lra. pose proof big_10. lra. }
    rewrite V. pose proof (rnd_err (/ 100000000)) as H. rewrite (Rabs_pos_eq (/ 100000000)) in H by lra.
    apply abs_le in H. pose proof nb_eta. unfold uu in *. lra.
  Qed.
  Lemma sum3_nb a b c A B C e0 e1 e2 M0 M1 M2 : nb a A e0 M0 -> nb b B e1 M1 -> nb c C e2 M2 -> M0 + M1 + M2 <= 100 -> e0 <= 0.001 -> e1 <= 0.001 -> e2 <= 0.001 ->
    nb (Bplus mode_NE (Bplus mode_NE (Bplus mode_NE (Z2D 0) a) b) c) (A + B + C)
       (1.01 * (e0 + e1 + e2) + uu * (3.01 * M0 + 2.01 * M1 + 1.01 * M2 + 0.01)) (M0 + M1 + M2).
  Proof.
    intros HA HB HC HM He0 He1 He2. pose proof (nb_pos _ _ _ _ HA) as [? ?]. pose proof (nb_pos _ _ _ _ HB) as [? ?]. pose proof (nb_pos _ _ _ _ HC) as [? ?].
    pose proof (nb_Z 0 ltac:(cbn; lia)) as Z0. rewrite Rabs_R0 in Z0.
    op2 nb_add Z0 HA (1.001 * e0 + uu * (M0 + 0.001)) M0 S0. op2 nb_add S0 HB (1.002 * (e0 + e1) + uu * (2.001 * M0 + 1.001 * M1 + 0.003)) (M0 + M1) S1.
    op2 nb_add S1 HC (1.01 * (e0 + e1 + e2) + uu * (3.01 * M0 + 2.01 * M1 + 1.01 * M2 + 0.01)) (M0 + M1 + M2) S2.
    to S2 (A + B + C) (M0 + M1 + M2); [exact S2|ring|]. destruct HA as (_ & _ & HA), HB as (_ & _ & HB), HC as (_ & _ & HC).
    apply abs_le in HA, HB, HC. apply abs_le. lra.
  Qed.
  (** [m_to_o_dir] *)
  Lemma dir_nb p q t w (ca : dbl) P Q T W r : nb p P (3 * uu) 2 -> nb q Q (3 * uu) 2 -> nb t T (3 * uu) 2 -> nb w W (3 * uu) 3 -> nb ca r 0 3 ->
    nb (get (m_to_o_dir [p; q; t; w] ca) 0) (P - / 2 * (Q + T)) (15 * uu) 4 /\ nb (get (m_to_o_dir [p; q; t; w] ca) 1) (s3 / 2 * (Q - T)) (24 * uu) 4 /\
    nb (get (m_to_o_dir [p; q; t; w] ca) 2) (W * r) (19 * uu) 9.
  Proof.
    intros HP HQ HT HW HR. unfold m_to_o_dir, get. cbn [nth]. cbn [nadd nsub nmul DN DNum].
    op2 nb_add HQ HT (10.1 * uu) 4 A. op2 nb_mul (nb_half L) A (7.2 * uu) 2 B. op2 nb_sub HP B (15 * uu) 4 hC.
    op2 nb_mul nb_sqr3 (nb_half L) (2.7 * uu) 0.8661 D. op2 nb_sub HQ HT (10.1 * uu) 4 F. op2 nb_mul D F (24 * uu) 4 G.
    op2 nb_mul HW HR (19 * uu) 9 H. split; [exact hC|]. split; [|exact H].
    to G (s3 / 2 * (Q - T)) 4; [exact G|unfold Rdiv; ring|]. destruct G as (_ & _ & G). replace (s3 / 2 * (Q - T)) with (s3 * / 2 * (Q - T)) by field. exact G.
  Qed.
  Lemma nb_Z' z m : (Z.abs z <= 3)%Z -> IZR (Z.abs z) <= m -> nb (Z2D z) (IZR z) (3 * uu) m.
  Proof. intros H Hm. pose proof (nb_Z z ltac:(lia)) as N. rewrite <- abs_IZR in N. eapply nb_weak; [exact N|un|exact Hm]. Qed.
  Lemma nb_no z m : (Z.abs z <= 3)%Z -> IZR (Z.abs z) <= m -> nb (Bopp (Z2D z)) (- IZR z) (3 * uu) m.
  Proof. intros H Hm. apply nb_opp. now apply nb_Z'. Qed.
  Lemma s3_val : 1.7320 <= s3 <= 1.7321.
  Proof. exact (proj1 (proj2 roots_vals)). Qed.
  Section Ca.
    Variable ca : dbl.
    Let r := B2R ca.
    Hypothesis FC : fin ca.
    Hypothesis RC : / 2 <= r <= 3.
    Lemma nb_ca : nb ca r 0 3.
    Proof. split; [exact FC|]. fold r. rewrite Rminus_diag_eq, Rabs_R0, Rabs_pos_eq by lra. lra. Qed.

    (** the direction of <a> slip *)
    Definition dA : list dbl := m_to_o_dir [one; nopp two; one; zero] ca.
    Lemma dA_near : nb (get dA 0) (3 / 2) (15 * uu) 1.5 /\ nb (get dA 1) (- (3 * s3 / 2)) (24 * uu) 2.5982 /\ nb (get dA 2) 0 (19 * uu) 0.
    Proof.
      destruct (dir_nb (Z2D 1) (Bopp (Z2D 2)) (Z2D 1) (Z2D 0) ca _ _ _ _ r (nb_Z' 1 2 ltac:(cbn; lia) ltac:(cbn; lra)) (nb_no 2 2 ltac:(cbn; lia) ltac:(cbn; lra))
        (nb_Z' 1 2 ltac:(cbn; lia) ltac:(cbn; lra)) (nb_Z' 0 3 ltac:(cbn; lia) ltac:(cbn; lra)) nb_ca) as (A & B & C).
      pose proof s3_val.
      to A (3 / 2) 1.5; [|lra|rewrite Rabs_pos_eq; lra]. to B (- (3 * s3 / 2)) 2.5982; [|lra|rewrite Rabs_Ropp, Rabs_pos_eq; lra].
      to C 0 0; [|ring|rewrite Rabs_R0; lra]. exact (conj A (conj B C)).
    Qed.
    (** the direction of <c+a> slip *)
    Definition dC : list dbl := m_to_o_dir [nopp one; nopp one; two; three] ca.
    Lemma dC_near : nb (get dC 0) (- (3 / 2)) (15 * uu) 1.5 /\ nb (get dC 1) (- (3 * s3 / 2)) (24 * uu) 2.5982 /\ nb (get dC 2) (3 * r) (19 * uu) 9.
    Proof.
      destruct (dir_nb (Bopp (Z2D 1)) (Bopp (Z2D 1)) (Z2D 2) (Z2D 3) ca _ _ _ _ r (nb_no 1 2 ltac:(cbn; lia) ltac:(cbn; lra)) (nb_no 1 2 ltac:(cbn; lia) ltac:(cbn; lra))
        (nb_Z' 2 2 ltac:(cbn; lia) ltac:(cbn; lra)) (nb_Z' 3 3 ltac:(cbn; lia) ltac:(cbn; lra)) nb_ca) as (A & B & C).
      pose proof s3_val.
      to A (- (3 / 2)) 1.5; [|lra|rewrite Rabs_Ropp, Rabs_pos_eq; lra]. to B (- (3 * s3 / 2)) 2.5982; [|lra|rewrite Rabs_Ropp, Rabs_pos_eq; lra].
      exact (conj A (conj B C)).
    Qed.
    Lemma div11 : Bdiv mode_NE (Z2D 1) (Z2D 1) = Z2D 1.
    Proof. apply B2SF_inj. vm_compute. reflexivity. Qed.
    Lemma div1m : Bdiv mode_NE (Z2D 1) (Bopp (Z2D 1)) = Bopp (Z2D 1).
    Proof. apply B2SF_inj. vm_compute. reflexivity. Qed.
    Definition pa : list dbl := m_to_o_dir [Z2D 1; Z2D 0; Z2D 0; Z2D 0] ca.
    Definition pb : list dbl := m_to_o_dir [Z2D 0; Z2D 0; Bopp (Z2D 1); Z2D 0] ca.
    Definition pc : list dbl := m_to_o_dir [Z2D 0; Z2D 0; Z2D 0; Z2D 1] ca.
    Definition bas : list dbl := tab 3 (fun i => nsub (get pa i) (get pb i)).
    Definition nbv : list dbl := tab 3 (fun i => nsub (get pc i) (get pb i)).
    Definition vm0 : list dbl := vecCrossProd bas nbv.
    Let z02 := nb_Z' 0 2 ltac:(cbn; lia) ltac:(cbn; lra).
    Let z03 := nb_Z' 0 3 ltac:(cbn; lia) ltac:(cbn; lra).
    Lemma vm0_near : nb (get vm0 0) (- (s3 / 2 * r)) (225 * uu) 2.5983 /\ nb (get vm0 1) (- (r / 2)) (143 * uu) 1.5 /\ nb (get vm0 2) (- (s3 / 2)) (108 * uu) 0.86605.
    Proof.
      pose proof s3_val as S3.
      destruct (dir_nb (Z2D 1) (Z2D 0) (Z2D 0) (Z2D 0) ca _ _ _ _ r (nb_Z' 1 2 ltac:(cbn; lia) ltac:(cbn; lra)) z02 z02 z03 nb_ca) as (A0 & A1 & A2).
      destruct (dir_nb (Z2D 0) (Z2D 0) (Bopp (Z2D 1)) (Z2D 0) ca _ _ _ _ r z02 z02 (nb_no 1 2 ltac:(cbn; lia) ltac:(cbn; lra)) z03 nb_ca) as (B0 & B1 & B2).
      destruct (dir_nb (Z2D 0) (Z2D 0) (Z2D 0) (Z2D 1) ca _ _ _ _ r z02 z02 z02 (nb_Z' 1 3 ltac:(cbn; lia) ltac:(cbn; lra)) nb_ca) as (D0 & D1 & D2).
      fold pa in A0, A1, A2. fold pb in B0, B1, B2. fold pc in D0, D1, D2.
      to A0 1 1; [|lra|rewrite Rabs_pos_eq; lra]. to A1 0 0; [|lra|rewrite Rabs_R0; lra]. to A2 0 0; [|lra|rewrite Rabs_R0; lra].
      to B0 (/ 2) 0.5; [|lra|rewrite Rabs_pos_eq; lra]. to B1 (s3 / 2) 0.86605; [|lra|rewrite Rabs_pos_eq; lra]. to B2 0 0; [|lra|rewrite Rabs_R0; lra].
      to D0 0 0; [|lra|rewrite Rabs_R0; lra]. to D1 0 0; [|lra|rewrite Rabs_R0; lra]. to D2 r 3; [|lra|rewrite Rabs_pos_eq; lra].
      op2 nb_sub A0 B0 (32 * uu) 1.5 kE0. op2 nb_sub A1 B1 (49 * uu) 0.86605 kE1. op2 nb_sub A2 B2 (39 * uu) 0 kE2.
      op2 nb_sub D0 B0 (31 * uu) 0.5 kF0. op2 nb_sub D1 B1 (49 * uu) 0.86605 kF1. op2 nb_sub D2 B2 (42 * uu) 3 kF2.
      to kE0 (/ 2) 0.5; [|lra|rewrite Rabs_pos_eq; lra]. to kE1 (- (s3 / 2)) 0.86605; [|lra|rewrite Rabs_Ropp, Rabs_pos_eq; lra]. to kE2 0 0; [|lra|rewrite Rabs_R0; lra].
      to kF0 (- / 2) 0.5; [|lra|rewrite Rabs_Ropp, Rabs_pos_eq; lra]. to kF1 (- (s3 / 2)) 0.86605; [|lra|rewrite Rabs_Ropp, Rabs_pos_eq; lra]. to kF2 r 3; [|lra|rewrite Rabs_pos_eq; lra].
      unfold vm0, vecCrossProd. unfold get at 1 6 11. cbn [nth].
      change (get bas 0) with (Bminus mode_NE (get pa 0) (get pb 0)). change (get bas 1) with (Bminus mode_NE (get pa 1) (get pb 1)). change (get bas 2) with (Bminus mode_NE (get pa 2) (get pb 2)).
      change (get nbv 0) with (Bminus mode_NE (get pc 0) (get pb 0)). change (get nbv 1) with (Bminus mode_NE (get pc 1) (get pb 1)). change (get nbv 2) with (Bminus mode_NE (get pc 2) (get pb 2)).
      set (e0 := Bminus mode_NE (get pa 0) (get pb 0)) in *. set (e1 := Bminus mode_NE (get pa 1) (get pb 1)) in *. set (e2 := Bminus mode_NE (get pa 2) (get pb 2)) in *.
      set (f0 := Bminus mode_NE (get pc 0) (get pb 0)) in *. set (f1 := Bminus mode_NE (get pc 1) (get pb 1)) in *. set (f2 := Bminus mode_NE (get pc 2) (get pb 2)) in *.
      clearbody e0 e1 e2 f0 f1 f2. cbn [nadd nsub nmul nopp DN DNum].
      op2 nb_mul kE1 kF2 (187 * uu) 2.5982 kG0. op2 nb_mul kE2 kF1 (34 * uu) 0 kG1. op2 nb_sub kG0 kG1 (225 * uu) 2.5983 kG2.
      op2 nb_mul (nb_opp _ _ _ _ kE0) kF2 (119 * uu) 1.5 kH0. op2 nb_mul kE2 kF0 (20 * uu) 0 kH1. op2 nb_add kH0 kH1 (143 * uu) 1.5 kH2.
      op2 nb_mul kE0 kF1 (53 * uu) 0.4331 kI0. op2 nb_mul kE1 kF0 (53 * uu) 0.4331 kI1. op2 nb_sub kI0 kI1 (108 * uu) 0.9 kI2.
      split; [|split].
      - to kG2 (- (s3 / 2 * r)) 2.5983; [exact kG2|ring|]. destruct kG2 as (_ & _ & kG2). replace (- (s3 / 2 * r)) with (- (s3 / 2) * r - 0 * - (s3 / 2)) by ring. exact kG2.
      - to kH2 (- (r / 2)) 1.5; [exact kH2|lra|rewrite Rabs_Ropp, Rabs_pos_eq; lra].
      - to kI2 (- (s3 / 2)) 0.86605; [exact kI2|lra|rewrite Rabs_Ropp, Rabs_pos_eq; lra].
    Qed.
    Lemma normalize_get (v : list dbl) i : (i < 3)%nat -> get (vecsVNormalize 3 v) i = Bmult mode_NE (get v i)
      (Bdiv mode_NE (Z2D 1) (Bsqrt mode_NE (Bplus mode_NE (Bplus mode_NE (Bplus mode_NE (Z2D 0) (Bmult mode_NE (get v 0) (get v 0))) (Bmult mode_NE (get v 1) (get v 1))) (Bmult mode_NE (get v 2) (get v 2))))).
    Proof. intros Hi. unfold vecsVNormalize, vecsVsa. rewrite get_tab by assumption. unfold vecNorm. rewrite !sum_S, sum_0. reflexivity. Qed.

    Definition sA := vecsVNormalize 3 dA.
    Lemma sA_near : nb (get sA 0) (/ 2) (21 * uu) 0.5 /\ nb (get sA 1) (- (s3 / 2)) (34 * uu) 0.86605 /\ nb (get sA 2) 0 (7 * uu) 0.
    Proof.
      pose proof s3_val as S3. pose proof s3_sq as Q3. unfold sA. rewrite !normalize_get by lia. destruct dA_near as (hA & hB & hC).
      set (a := get dA 0) in *. set (b := get dA 1) in *. set (c := get dA 2) in *. clearbody a b c.
      op2 nb_mul hA hA (48 * uu) 2.25 kA. op2 nb_mul hB hB (132 * uu) 6.751 kB. op2 nb_mul hC hC (uu) 0 kC.
      pose proof (sum3_nb _ _ _ _ _ _ _ _ _ _ _ _ kA kB kC ltac:(lra) ltac:(un) ltac:(un) ltac:(un)) as kS.
      apply nb_weak with (e' := 205 * uu) (M' := 9.1) in kS; [|un|lra].
      to kS (3 * 3) 9.1; [|nra|rewrite Rabs_pos_eq; lra].
      pose proof (nb_sqrt _ _ _ _ 3 3 kS ltac:(lra) ltac:(lra) ltac:(un) ltac:(lra) ltac:(lra)) as kN. rewrite sqrt_square in kN by lra.
      apply nb_weak with (e' := 72 * uu) (M' := 3) in kN; [|un|lra].
      pose proof (nb_inv _ _ _ _ 3 kN ltac:(lra) ltac:(lra) ltac:(un)) as kI. apply nb_weak with (e' := 9 * uu) (M' := 0.3334) in kI; [|un|lra].
      op2 nb_mul hA kI (21 * uu) 0.5001 r0. op2 nb_mul hB kI (34 * uu) 0.8663 r1. op2 nb_mul hC kI (7 * uu) 0 r2.
      to r0 (/ 2) 0.5; [|lra|rewrite Rabs_pos_eq; lra]. to r1 (- (s3 / 2)) 0.86605; [|lra|rewrite Rabs_Ropp, Rabs_pos_eq; lra]. to r2 0 0; [|lra|rewrite Rabs_R0; lra].
      exact (conj r0 (conj r1 r2)).
    Qed.
    Definition sC := vecsVNormalize 3 dC.
    Lemma sC_near : nb (get sC 0) (- (Kd r * 3 / 2)) (37 * uu) 0.5 /\ nb (get sC 1) (- (Kd r * s3 * 3 / 2)) (64 * uu) 0.8 /\ nb (get sC 2) (Kd r * 3 * r) (199 * uu) 1.
    Proof.
      pose proof s3_val as S3. pose proof s3_sq as Q3. unfold sC. rewrite !normalize_get by lia. destruct dC_near as (hA & hB & hC).
      set (a := get dC 0) in *. set (b := get dC 1) in *. set (c := get dC 2) in *. clearbody a b c.
      assert (R2 : / 4 <= r * r <= 9) by nra.
      op2 nb_mul hA hA (48 * uu) 2.25 kA. op2 nb_mul hB hB (132 * uu) 6.751 kB. op2 nb_mul hC hC (424 * uu) 81 kC.
      pose proof (sum3_nb _ _ _ _ _ _ _ _ _ _ _ _ kA kB kC ltac:(lra) ltac:(un) ltac:(un) ltac:(un)) as kS.
      apply nb_weak with (e' := 714 * uu) (M' := 91) in kS; [|un|lra].
      to kS (9 + 3 * r * (3 * r)) 91; [|nra|rewrite Rabs_pos_eq; lra].
      pose proof (nb_sqrt _ _ _ _ 3.35 9.49 kS ltac:(lra) ltac:(lra) ltac:(un) ltac:(lra) ltac:(lra)) as kN.
      apply nb_weak with (e' := 223 * uu) (M' := 9.49) in kN; [|un|lra].
      assert (SL : 3.35 <= sqrt (9 + 3 * r * (3 * r))) by (rewrite <- (sqrt_square 3.35) by lra; apply sqrt_le_1_alt; lra).
      pose proof (nb_inv _ _ _ _ 3.35 kN ltac:(lra) SL ltac:(un)) as kI. apply nb_weak with (e' := 21 * uu) (M' := 0.2986) in kI; [|un|lra].
      to kI (Kd r) 0.2986; [|unfold Kd, Rdiv; ring|destruct kI as (_ & _ & kI); unfold Kd; unfold Rdiv in kI; rewrite Rmult_1_l in kI; exact kI].
      op2 nb_mul hA kI (37 * uu) 0.5 r0. op2 nb_mul hB kI (64 * uu) 0.8 r1. op2 nb_mul hC kI (199 * uu) 3 r2.
      destruct (Kd_pos r ltac:(lra)) as [K0 K1]. set (K := Kd r) in *. clearbody K.
      to r0 (- (K * 3 / 2)) 0.5; [|lra|destruct r0 as (_ & _ & r0); replace (- (K * 3 / 2)) with (- (3 / 2) * K) by lra; exact r0].
      to r1 (- (K * s3 * 3 / 2)) 0.8; [|lra|destruct r1 as (_ & _ & r1); replace (- (K * s3 * 3 / 2)) with (- (3 * s3 / 2) * K) by lra; exact r1].
      to r2 (K * 3 * r) 1; [|lra|]. { exact (conj r0 (conj r1 r2)). }
      assert (0 <= K * r) by (apply Rmult_le_pos; lra).
      apply abs_le. assert (K * 3 * r * (K * 3 * r) <= 1) by nra. split; nra.
    Qed.
    Definition W : R := sqrt (r * r + 3 / 4).
    Lemma W_facts : 1 <= W <= 3.13 /\ W * W = r * r + 3 / 4.
    Proof.
      assert (R2 : / 4 <= r * r <= 9) by nra. unfold W. split; [split|apply sqrt_sqrt; lra].
      - rewrite <- sqrt_1 at 1. apply sqrt_le_1_alt. lra.
      - rewrite <- (sqrt_square 3.13) by lra. apply sqrt_le_1_alt. lra.
    Qed.
    Lemma Kp_W : Kp r = s3 / 2 * r * (1 / W).
    Proof.
      destruct W_facts as [W1 W2]. pose proof s3_val as S3. pose proof s3_sq as Q3. unfold Kp.
      assert (P : 0 < s3 * r) by (apply Rmult_lt_0_compat; lra).
      replace (4 / 3 + 1 / r * (1 / r)) with (W * 2 / (s3 * r) * (W * 2 / (s3 * r))).
      - rewrite sqrt_square; [field; lra|]. unfold Rdiv. apply Rmult_le_pos; [lra|]. left. now apply Rinv_0_lt_compat.
      - replace (W * 2 / (s3 * r) * (W * 2 / (s3 * r))) with (4 * (W * W) / (s3 * s3 * (r * r))) by (field; lra). rewrite W2, Q3. field. lra.
    Qed.
    Definition vm1 := vecsVNormalize 3 vm0.
    Lemma vm1_near : nb (get vm1 0) (- Kp r) (5040 * uu) 0.8661 /\ nb (get vm1 1) (- (Kp r * s3 / 3)) (2922 * uu) 0.50001 /\ nb (get vm1 2) (- (Kp r / r)) (1713 * uu) 0.86605.
    Proof.
      pose proof s3_val as S3. pose proof s3_sq as Q3. unfold vm1. rewrite !normalize_get by lia. destruct vm0_near as (hA & hB & hC).
      set (a := get vm0 0) in *. set (b := get vm0 1) in *. set (c := get vm0 2) in *. clearbody a b c.
      assert (R2 : / 4 <= r * r <= 9) by nra. destruct W_facts as [W1 W2].
      op2 nb_mul hA hA (1177 * uu) 6.7512 kA. op2 nb_mul hB hB (432 * uu) 2.25 kB. op2 nb_mul hC hC (188 * uu) 0.7501 kC.
      pose proof (sum3_nb _ _ _ _ _ _ _ _ _ _ _ _ kA kB kC ltac:(lra) ltac:(un) ltac:(un) ltac:(un)) as kS.
      apply nb_weak with (e' := 1842 * uu) (M' := 9.76) in kS; [|un|lra].
      to kS (r * r + 3 / 4) 9.76; [|nra|rewrite Rabs_pos_eq; lra].
      pose proof (nb_sqrt _ _ _ _ 1 3.13 kS ltac:(lra) ltac:(lra) ltac:(un) ltac:(lra) ltac:(lra)) as kN. fold W in kN.
      apply nb_weak with (e' := 1846 * uu) (M' := 3.13) in kN; [|un|lra].
      pose proof (nb_inv _ _ _ _ 1 kN ltac:(lra) ltac:(lra) ltac:(un)) as kI. apply nb_weak with (e' := 1851 * uu) (M' := 1) in kI; [|un|lra].
      op2 nb_mul hA kI (5040 * uu) 2.6 r0. op2 nb_mul hB kI (2922 * uu) 1.5 r1. op2 nb_mul hC kI (1713 * uu) 0.86605 r2.
      rewrite Kp_W. assert (I0 : 0 < / W) by (apply Rinv_0_lt_compat; lra). assert (I1 : / W <= 1) by (rewrite <- Rinv_1; apply Rinv_le_contravar; lra).
      assert (RW : r * / W <= 1). { apply (Rmult_le_reg_r W); [lra|]. rewrite Rmult_assoc, Rinv_l by lra. nra. }
      assert (RW0 : 0 <= r * / W) by (apply Rmult_le_pos; lra).
      unfold Rdiv in *. set (w := / W) in *. set (q := r * w) in *.
      to r0 (- (s3 * / 2 * r * (1 * w))) 0.8661; [|ring|]. to r1 (- (s3 * / 2 * r * (1 * w) * s3 * / 3)) 0.50001.
      to r2 (- (s3 * / 2 * r * (1 * w) * / r)) 0.86605.
      - exact (conj r0 (conj r1 r2)).
      - field. lra.
      - rewrite Rabs_Ropp. replace (s3 * / 2 * r * (1 * w) * / r) with (s3 * / 2 * w) by (field; lra). apply abs_le. split; nra.
      - replace (s3 * / 2 * r * (1 * w) * s3 * / 3) with (s3 * s3 * / 6 * (r * w)) by field. rewrite Q3. unfold q. lra.
      - rewrite Rabs_Ropp. replace (s3 * / 2 * r * (1 * w) * s3 * / 3) with (s3 * s3 * / 6 * (r * w)) by field. rewrite Q3. fold q. apply abs_le. lra.
      - rewrite Rabs_Ropp. replace (s3 * / 2 * r * (1 * w)) with (s3 * / 2 * q) by (unfold q; ring). apply abs_le. split; nra.
    Qed.
    Definition mm : list dbl := tab 3 (fun i => nopp (get vm1 i)).
    Lemma mm_near : nb (get mm 0) (Kp r) (5040 * uu) 0.8661 /\ nb (get mm 1) (Kp r * s3 / 3) (2922 * uu) 0.50001 /\ nb (get mm 2) (Kp r / r) (1713 * uu) 0.86605.
    Proof.
      destruct vm1_near as (hA & hB & hC). apply nb_opp in hA, hB, hC. rewrite Ropp_involutive in hA, hB, hC. exact (conj hA (conj hB hC)).
    Qed.
    Lemma Kp_r_lo : 0.27 <= Kp r / r.
    Proof.
      rewrite Kp_W. destruct W_facts as [W1 W2]. pose proof s3_val as S3. replace (s3 / 2 * r * (1 / W) / r) with (s3 / 2 * / W) by (field; lra).
      assert (/ 3.13 <= / W) by (apply Rinv_le_contravar; lra). apply Rle_trans with (0.866 * / 3.13); [lra|]. apply Rmult_le_compat; lra.
    Qed.
    Definition nann : list dbl := [one; zero; nopp one; one].
    Lemma miller_D (abb vs : list dbl) : vecsVNormalize 3 (m_to_o_dir abb ca) = vs ->
      nb (vecsssum 3 abb) 0 (100 * uu) 10 -> nb (vecsyadotb 3 mm vs) 0 (100000 * uu) 10 ->
      miller_to_orthog_sngl nann abb ca = Some (mm, vs).
    Proof.
      intros EV HA HD. unfold miller_to_orthog_sngl. rewrite EV. clear EV.
      destruct (eps_ok L) as [FE VE]. pose proof eps_hi as VH. change (DNum L) with DN in FE, VE, VH.
      pose proof (fun x X e M => lt_false (idp_eps_sqrt : dbl) x X e M FE) as LF.
      assert (B1 : (idp_eps_sqrt <? nabs (vecsssum 3 nann))%num = false).
      { assert (N : nb (vecsssum 3 nann) 0 (100 * uu) 10).
        { unfold vecsssum. rewrite !sum_S, sum_0. change (get nann 0) with (Z2D 1). change (get nann 1) with (Z2D 0). change (get nann 2) with (Bopp (Z2D 1)).
          pose proof (sum3_nb _ _ _ _ _ _ _ _ _ _ _ _ (nb_Z' 1 1 ltac:(cbn; lia) ltac:(cbn; lra)) (nb_Z' 0 1 ltac:(cbn; lia) ltac:(cbn; lra)) (nb_no 1 1 ltac:(cbn; lia) ltac:(cbn; lra)) ltac:(lra) ltac:(un) ltac:(un) ltac:(un)) as N.
          apply nb_weak with (e' := 100 * uu) (M' := 10) in N; [|un|lra]. to N 0 10; [exact N|lra|rewrite Rabs_R0; lra]. }
        apply (LF _ _ _ _ N). rewrite Rabs_R0. unfold uu in *. lra. }
      assert (B2 : (idp_eps_sqrt <? nabs (vecsssum 3 abb))%num = false) by (apply (LF _ _ _ _ HA); rewrite Rabs_R0; unfold uu in *; lra).
      rewrite B1, B2.
      assert (B3 : (vecsssumabs 3 nann <? idp_eps_sqrt)%num = false).
      { assert (N : nb (vecsssumabs 3 nann) 2 (100 * uu) 10).
        { unfold vecsssumabs. rewrite !sum_S, sum_0. change (get nann 0) with (Z2D 1). change (get nann 1) with (Z2D 0). change (get nann 2) with (Bopp (Z2D 1)).
          pose proof (sum3_nb _ _ _ _ _ _ _ _ _ _ _ _ (nb_abs _ _ _ _ (nb_Z' 1 1 ltac:(cbn; lia) ltac:(cbn; lra))) (nb_abs _ _ _ _ (nb_Z' 0 1 ltac:(cbn; lia) ltac:(cbn; lra))) (nb_abs _ _ _ _ (nb_no 1 1 ltac:(cbn; lia) ltac:(cbn; lra))) ltac:(lra) ltac:(un) ltac:(un) ltac:(un)) as N.
          apply nb_weak with (e' := 100 * uu) (M' := 10) in N; [|un|lra]. to N 2 10; [exact N| |rewrite Rabs_pos_eq; lra].
          rewrite Rabs_Ropp, Rabs_R0, Rabs_R1. lra. }
        destruct N as (F & H & _). apply abs_le in H. cbn [nltb DN DNum]. rewrite Bltb_correct by assumption. apply Rlt_bool_false. unfold uu in *. lra. }
      rewrite B3.
      change (get nann 0) with (Z2D 1). change (get nann 1) with (Z2D 0). change (get nann 2) with (Bopp (Z2D 1)). change (get nann 3) with (Z2D 1).
      destruct (Z2D_ok 1 ltac:(cbn; lia)) as [F1 V1]. destruct (Z2D_ok 0 ltac:(cbn; lia)) as [F0 V0].
      assert (B4 : (nabs (Z2D 1) <? idp_eps_sqrt)%num = false).
      { cbn [nabs nltb DN DNum]. rewrite Bltb_correct by (try exact FE; now rewrite is_finite_Babs). rewrite B2R_Babs, V1, Rabs_R1. apply Rlt_bool_false. lra. }
      assert (B5 : (nabs (Z2D 0) <? idp_eps_sqrt)%num = true).
      { cbn [nabs nltb DN DNum]. rewrite Bltb_correct by (try exact FE; now rewrite is_finite_Babs). rewrite B2R_Babs, V0, Rabs_R0. apply Rlt_bool_true. lra. }
      rewrite !B4, B5. change (one / Z2D 1 : dbl)%num with (Bdiv mode_NE (Z2D 1) (Z2D 1)). change (one / Bopp (Z2D 1) : dbl)%num with (Bdiv mode_NE (Z2D 1) (Bopp (Z2D 1))).
      rewrite div11, div1m.
      change (vecsVNormalize 3 _) with vm1.
      assert (B6 : (get vm1 2 * Z2D 1 <? nZ 0)%num = true).
      { destruct vm1_near as (_ & _ & N). pose proof Kp_r_lo as KL. op2 nb_mul N (nb_Z' 1 1 ltac:(cbn; lia) ltac:(cbn; lra)) (2000 * uu) 1 kM.
        destruct kM as (F & H & _). apply abs_le in H. cbn [nltb nmul nZ DN DNum]. rewrite Bltb_correct by assumption. rewrite V0. apply Rlt_bool_true. unfold uu in *. lra. }
      rewrite B6. change (tab 3 (fun i => nopp (get vm1 i))) with mm.
      assert (B7 : (idp_eps_sqrt <? nabs (vecsyadotb 3 mm vs))%num = false) by (apply (LF _ _ _ _ HD); rewrite Rabs_R0; unfold uu in *; lra).
      rewrite B7. reflexivity.
    Qed.
    Lemma dot_nb (u v : list dbl) U0 U1 U2 V0 V1 V2 : nb (get u 0) U0 (6000 * uu) 1 -> nb (get u 1) U1 (6000 * uu) 1 -> nb (get u 2) U2 (6000 * uu) 1 ->
      nb (get v 0) V0 (6000 * uu) 1 -> nb (get v 1) V1 (6000 * uu) 1 -> nb (get v 2) V2 (6000 * uu) 1 -> U0 * V0 + U1 * V1 + U2 * V2 = 0 ->
      nb (vecsyadotb 3 u v) 0 (100000 * uu) 10.
    Proof.
      intros hA hB hC hD hE hF E. unfold vecsyadotb. rewrite !sum_S, sum_0. cbn [nadd nmul nZ DN DNum].
      op2 nb_mul hA hD (12002 * uu) 1 kA. op2 nb_mul hB hE (12002 * uu) 1 kB. op2 nb_mul hC hF (12002 * uu) 1 kC.
      pose proof (sum3_nb _ _ _ _ _ _ _ _ _ _ _ _ kA kB kC ltac:(lra) ltac:(un) ltac:(un) ltac:(un)) as N.
      apply nb_weak with (e' := 100000 * uu) (M' := 10) in N; [|un|lra]. to N 0 10; [exact N|exact E|rewrite Rabs_R0; lra].
    Qed.
    Ltac wk H := eapply nb_weak; [exact H|un|lra].
    Lemma mm_n : nb (get mm 0) (Kp r) (6000 * uu) 1 /\ nb (get mm 1) (Kp r * s3 / 3) (6000 * uu) 1 /\ nb (get mm 2) (Kp r / r) (6000 * uu) 1.
    Proof. destruct mm_near as (hA & hB & hC). split; [|split]; [wk hA|wk hB|wk hC]. Qed.
    Lemma sA_n : nb (get sA 0) (/ 2) (6000 * uu) 1 /\ nb (get sA 1) (- (s3 / 2)) (6000 * uu) 1 /\ nb (get sA 2) 0 (6000 * uu) 1.
    Proof. destruct sA_near as (hA & hB & hC). split; [|split]; [wk hA|wk hB|wk hC]. Qed.
    Lemma sC_n : nb (get sC 0) (- (Kd r * 3 / 2)) (6000 * uu) 1 /\ nb (get sC 1) (- (Kd r * s3 * 3 / 2)) (6000 * uu) 1 /\ nb (get sC 2) (Kd r * 3 * r) (6000 * uu) 1.
    Proof. destruct sC_near as (hA & hB & hC). split; [|split]; [wk hA|wk hB|wk hC]. Qed.
    Lemma miller_A : miller_to_orthog_sngl nann [one; nopp two; one; zero] ca = Some (mm, sA).
    Proof.
      destruct mm_n as (hA & hB & hC), sA_n as (hD & hE & hF). apply miller_D; [reflexivity| |].
      - unfold vecsssum. rewrite !sum_S, sum_0.
        change (nb (Bplus mode_NE (Bplus mode_NE (Bplus mode_NE (Z2D 0) (Z2D 1)) (Bopp (Z2D 2))) (Z2D 1)) 0 (100 * uu) 10).
        pose proof (sum3_nb _ _ _ _ _ _ _ _ _ _ _ _ (nb_Z' 1 2 ltac:(cbn; lia) ltac:(cbn; lra)) (nb_no 2 2 ltac:(cbn; lia) ltac:(cbn; lra)) (nb_Z' 1 2 ltac:(cbn; lia) ltac:(cbn; lra)) ltac:(lra) ltac:(un) ltac:(un) ltac:(un)) as N.
        apply nb_weak with (e' := 100 * uu) (M' := 10) in N; [|un|lra]. to N 0 10; [exact N|lra|rewrite Rabs_R0; lra].
      - apply (dot_nb _ _ _ _ _ _ _ _ hA hB hC hD hE hF). pose proof s3_sq as Q.
        replace (Kp r * / 2 + Kp r * s3 / 3 * - (s3 / 2) + Kp r / r * 0) with (Kp r * / 2 - Kp r * (s3 * s3) / 6) by (field; lra). rewrite Q. field.
    Qed.
    Lemma miller_C : miller_to_orthog_sngl nann [nopp one; nopp one; two; three] ca = Some (mm, sC).
    Proof.
      destruct mm_n as (hA & hB & hC), sC_n as (hD & hE & hF). apply miller_D; [reflexivity| |].
      - unfold vecsssum. rewrite !sum_S, sum_0.
        change (nb (Bplus mode_NE (Bplus mode_NE (Bplus mode_NE (Z2D 0) (Bopp (Z2D 1))) (Bopp (Z2D 1))) (Z2D 2)) 0 (100 * uu) 10).
        pose proof (sum3_nb _ _ _ _ _ _ _ _ _ _ _ _ (nb_no 1 2 ltac:(cbn; lia) ltac:(cbn; lra)) (nb_no 1 2 ltac:(cbn; lia) ltac:(cbn; lra)) (nb_Z' 2 2 ltac:(cbn; lia) ltac:(cbn; lra)) ltac:(lra) ltac:(un) ltac:(un) ltac:(un)) as N.
        apply nb_weak with (e' := 100 * uu) (M' := 10) in N; [|un|lra]. to N 0 10; [exact N|lra|rewrite Rabs_R0; lra].
      - apply (dot_nb _ _ _ _ _ _ _ _ hA hB hC hD hE hF). pose proof s3_sq as Q.
        replace (Kp r * - (Kd r * 3 / 2) + Kp r * s3 / 3 * - (Kd r * s3 * 3 / 2) + Kp r / r * (Kd r * 3 * r)) with (Kp r * Kd r * (3 / 2 - (s3 * s3) / 2)) by (field; lra).
        rewrite Q. field.
    Qed.
    Definition mpp : dbl := nsqrt (nZ 1 - get mm 2 * get mm 2)%num.
    Definition spp : dbl := nsqrt (nZ 1 - get sC 2 * get sC 2)%num.
    Lemma mpp_near : nb mpp (Kp r * s3 * 2 / 3) (6000 * uu) 1.
    Proof.
      destruct mm_near as (_ & _ & hC). unfold mpp. cbn [nsqrt nsub nmul nZ DN DNum]. set (c := get mm 2) in *. clearbody c.
      pose proof s3_sq as Q3. pose proof s3_val as S3. destruct (Kp_pos r ltac:(lra)) as [K0 K1]. assert (R2 : / 4 <= r * r <= 9) by nra.
      pose proof (nb_Z' 1 1 ltac:(cbn; lia) ltac:(cbn; lra)) as Z1. pose proof (nb_Z 1 ltac:(cbn; lia)) as Z1'. rewrite Rabs_R1 in Z1'.
      op2 nb_mul hC hC (2969 * uu) 0.7501 kA. op2 nb_sub Z1' kA (2971 * uu) 1.76 kB.
      set (K := Kp r) in *. clearbody K.
      assert (E : 1 - K / r * (K / r) = K * s3 * 2 / 3 * (K * s3 * 2 / 3)).
      { rewrite <- K1. replace (K * s3 * 2 / 3 * (K * s3 * 2 / 3)) with (K * K * 4 / 9 * (s3 * s3)) by field. rewrite Q3. field. lra. }
      assert (P0 : 0 <= K * s3 * 2 / 3) by (assert (0 < K * s3) by (apply Rmult_lt_0_compat; lra); lra).
      assert (LO : / 4 <= 1 - K / r * (K / r) <= 1).
      { split; [|set (t := K / r); nra]. rewrite E. replace (K * s3 * 2 / 3 * (K * s3 * 2 / 3)) with (K * K * 4 / 9 * (s3 * s3)) by field. rewrite Q3.
        assert (I : / r <= 2) by (rewrite <- (Rinv_inv 2); apply Rinv_le_contravar; lra). assert (I0 : 0 < / r) by (apply Rinv_0_lt_compat; lra).
        unfold Rdiv in K1. rewrite Rmult_1_l in K1. assert (I2 : / r * / r <= 4) by nra. set (k2 := K * K) in *. assert (0 < k2) by (unfold k2; nra). clearbody k2.
        set (t := / r * / r) in *. clearbody t. nra. }
      pose proof (nb_sqrt _ _ _ _ 0.5 1 kB ltac:(lra) ltac:(lra) ltac:(un) ltac:(lra) ltac:(lra)) as kN. rewrite E, sqrt_square in kN by lra.
      eapply nb_weak; [exact kN|un|lra].
    Qed.
    Lemma spp_near : nb spp (3 * Kd r) (6000 * uu) 1.
    Proof.
      destruct sC_near as (_ & _ & hC). unfold spp. cbn [nsqrt nsub nmul nZ DN DNum]. set (c := get sC 2) in *. clearbody c.
      destruct (Kd_pos r ltac:(lra)) as [K0 K1]. assert (R2 : / 4 <= r * r <= 9) by nra.
      pose proof (nb_Z 1 ltac:(cbn; lia)) as Z1'. rewrite Rabs_R1 in Z1'.
      op2 nb_mul hC hC (400 * uu) 1 kA. op2 nb_sub Z1' kA (403 * uu) 2 kB.
      set (K := Kd r) in *. clearbody K.
      assert (E : 1 - K * 3 * r * (K * 3 * r) = 3 * K * (3 * K)). { rewrite <- K1. ring. }
      assert (LO : 0.1 <= 1 - K * 3 * r * (K * 3 * r) <= 1).
      { rewrite E. replace (3 * K * (3 * K)) with (9 * (K * K)) by ring. assert (KK : 0 < K * K) by nra. set (k2 := K * K) in *. clearbody k2.
        replace (9 + 3 * r * (3 * r)) with (9 + 9 * (r * r)) in K1 by ring. set (t := r * r) in *. clearbody t. split; nra. }
      pose proof (nb_sqrt _ _ _ _ 0.31 1 kB ltac:(lra) ltac:(lra) ltac:(un) ltac:(lra) ltac:(lra)) as kN. rewrite E, sqrt_square in kN by lra.
      eapply nb_weak; [exact kN|un|lra].
    Qed.
    Lemma hcp_tables_D : hcp_tables ca = Some (hcp_m mm mpp mm mpp, hcp_s sA sC spp).
    Proof. unfold hcp_tables. fold nann. rewrite miller_A, miller_C. reflexivity. Qed.
    Lemma c_one : nb (one : dbl) (one : R) (6000 * uu) 1.
    Proof. pose proof (nb_Z' 1 1 ltac:(cbn; lia) ltac:(cbn; lra)) as H. wk H. Qed.
    Lemma c_zero : nb (zero : dbl) (zero : R) (6000 * uu) 1.
    Proof. pose proof (nb_Z' 0 1 ltac:(cbn; lia) ltac:(cbn; lra)) as H. wk H. Qed.
    Lemma c_half : nb (onehalf : dbl) (onehalf : R) (6000 * uu) 1.
    Proof. change (@onehalf R RNum) with (@nlit R RNum 5 (-1)). rewrite rhalf. pose proof (nb_half L) as H. wk H. Qed.
    Lemma c_h3 : nb (halfsqr3 : dbl) (halfsqr3 : R) (6000 * uu) 1.
    Proof.
      destruct model_roots as (_ & _ & _ & _ & _ & _ & _ & _ & E & _). rewrite E. pose proof nb_halfsqr3 as H. wk H.
    Qed.
    Ltac tabh := unfold tabnear;
      repeat (apply Forall2_cons; [first [assumption | apply nb_opp; assumption]|]); apply Forall2_nil.
    Lemma hcp_m_near : tabnear (6000 * uu) (hcp_m mm mpp mm mpp) (hcpM r).
    Proof.
      destruct mm_n as (hA & hB & hC). pose proof mpp_near. pose proof c_one. pose proof c_zero. pose proof c_half. pose proof c_h3.
      unfold hcpM, hcp_m. cbv zeta. change (get [Kp r; Kp r * s3 / 3; Kp r / r] 0) with (Kp r). change (get [Kp r; Kp r * s3 / 3; Kp r / r] 1) with (Kp r * s3 / 3).
      change (get [Kp r; Kp r * s3 / 3; Kp r / r] 2) with (Kp r / r). tabh.
    Qed.
    Lemma hcp_s_near : tabnear (6000 * uu) (hcp_s sA sC spp) (hcpS r).
    Proof.
      destruct sA_n as (hA & hB & hC), sC_n as (hD & hE & hF). pose proof spp_near. pose proof c_one. pose proof c_zero. pose proof c_half. pose proof c_h3.
      unfold hcpS, hcp_s. cbv zeta.
      set (a0 := get [/ 2; _; _] 0). change a0 with (/ 2). set (a1 := get [/ 2; _; _] 1). change a1 with (- (s3 / 2)).
      set (b0 := get [- (Kd r * 3 / 2); _; _] 0). change b0 with (- (Kd r * 3 / 2)). set (b1 := get [- (Kd r * 3 / 2); _; _] 1). change b1 with (- (Kd r * s3 * 3 / 2)).
      set (b2 := get [- (Kd r * 3 / 2); _; _] 2). change b2 with (Kd r * 3 * r). tabh.
    Qed.
  End Ca.
  Lemma dgeom_hcp (ca : dbl) : fin ca -> / 2 <= B2R ca <= 3 -> exists g : SlipGeom dbl, slipGeomHCP ca = Some g /\ sg_nslip g = 24%nat /\
    schmid_near (/ 10 ^ 11) (sg_P g) (sg_Q g) 24 (fun i => unitv (hexnrm (B2R ca) (fst (nth i sys_hcp d4)))) (fun i => unitv (hexdir (B2R ca) (snd (nth i sys_hcp d4)))).
  Proof.
    intros FC RC. assert (R0 : 0 < B2R ca) by lra. destruct (geom_hcp (B2R ca) R0) as (gR & E & N & S & (U & _)).
    unfold slipGeomHCP in E. rewrite hcp_tables_eq in E by exact R0. unfold slipGeomHCP. rewrite (hcp_tables_D ca FC RC).
    refine (near_of L (hcp_m (mm ca) (mpp ca) (mm ca) (mpp ca)) (hcp_s (sA ca) (sC ca) (spp ca)) (hcpM (B2R ca)) (hcpS (B2R ca)) 24 (6000 * uu) (/ 10 ^ 11) _ _ gR _ _ _ eq_refl eq_refl (hcp_m_near ca FC RC) (hcp_s_near ca FC RC) _ E S).
    1, 2, 3: unfold uu; cbn [pow]; lra.
    intros i Hi. rewrite (hcp_m_rows _ R0 i Hi), (hcp_s_rows _ R0 i Hi), dot_model. exact (proj2 (proj2 (U i Hi))).
  Qed.
End L.
