(** Doubles: the volume after pow, log and exp; bulk modulus, pressure, temperature and energy with error bounds. *)
From Coq Require Import List ZArith Bool Lia PeanoNat Reals Lra.
From Flocq Require Import Core IEEE754.BinarySingleNaN.
From Verif Require Import Num Arr NumR Util SlipGeom Eos Hard Elast Evptn MatModel Cases Const SpecConst P_Const Prop_Const
  P_Sngl P_Batch P_Batch2 P_Batch3 P_Api P_Builtin SpecTensor SpecApi P_Gen NumD P_Dbl P_Dbl2 P_Dbl3 P_Dbl4 P_Dbl5 P_Dbl7 P_Dbl8 P_Dbl9 P_Dbl10 SpecDbl SpecDblFin SpecDblAcc
  P_Dbl13 P_Dbl14 P_Dbl15 P_Dbl16 P_Dbl17 P_Dbl19.
Import ListNotations.
Local Open Scope R_scope.

(** computes the error of an expression from those of its leaves *)
Ltac okn := unfold okm, okt, okk'; cbn; lia.
Ltac acc := match goal with
  | |- ac (Bplus mode_NE _ _) _ _ _ _ _ => eapply ac_add; [acc | acc | okn | okn | okn | okn | okn | okn | okn | okn]
  | |- ac (Bminus mode_NE _ _) _ _ _ _ _ => eapply ac_sub; [acc | acc | okn | okn | okn | okn | okn | okn | okn | okn]
  | |- ac (Bmult mode_NE _ _) _ _ _ _ _ => eapply ac_mul; [acc | acc | okn | okn | okn | okn | okn | okn | okn | okn | okn]
  | |- ac (Bopp _) _ _ _ _ _ => eapply ac_opp; acc
  | |- ac (dmax _ _) _ _ _ _ _ => eapply ac_max; [acc | acc | okn | okn]
  | |- ac _ _ _ _ _ _ => eassumption
  end.

Lemma exp_near x : Rabs x <= / 1000 -> Rabs (exp x - 1) <= 1.01 * Rabs x.
Proof.
  intros H. assert (L1 : 1 + x <= exp x). { destruct (Req_dec x 0) as [->|N]; [rewrite exp_0; lra|]. left. now apply exp_ineq1. }
  assert (L2 : 1 - x <= exp (- x)). { destruct (Req_dec x 0) as [->|N]; [rewrite Ropp_0, exp_0; lra|]. left. apply (exp_ineq1 (- x)). lra. }
  rewrite exp_Ropp in L2. pose proof (exp_pos x) as P. apply abs_le in H.
  assert (U : exp x * (1 - x) <= 1). { apply Rle_trans with (exp x * / exp x); [apply Rmult_le_compat_l; lra|]. rewrite Rinv_r; lra. }
  destruct (Rle_lt_dec 0 x) as [Q|Q].
  - rewrite (Rabs_pos_eq x Q). rewrite Rabs_pos_eq by lra. nra.
  - rewrite (Rabs_left x Q). rewrite Rabs_left1; [lra|]. apply Rnot_lt_le. intros C. nra.
Qed.
Lemma ln_near x y : 0 < y -> Rabs (x - y) <= / 4 * y -> 0 < x /\ Rabs (ln x - ln y) <= 2 * (Rabs (x - y) / y).
Proof.
  intros Py H. apply abs_le in H. assert (Px : 0 < x) by lra. split; [exact Px|].
  assert (UB : forall a b, 0 < a -> 0 < b -> ln a - ln b <= (a - b) / b).
  { intros a b Pa Pb. assert (LD : ln a - ln b = ln (a / b)) by (unfold Rdiv; rewrite ln_mult by (assumption || now apply Rinv_0_lt_compat); rewrite ln_Rinv by assumption; ring).
    rewrite LD. replace ((a - b) / b) with (a / b - 1) by (field; lra).
    assert (PD : 0 < a / b) by (apply Rdiv_lt_0_compat; assumption). pose proof (exp_ineq1_le (ln (a / b))) as E. rewrite exp_ln in E by exact PD. lra. }
  pose proof (UB x y Px Py) as A. pose proof (UB y x Py Px) as B.
  assert (DX : (y - x) / x <= 2 * (Rabs (x - y) / y)).
  { pose proof (Rabs_pos (x - y)) as P0. assert (E : y - x <= Rabs (x - y)) by (rewrite Rabs_minus_sym; apply Rle_abs).
    apply Rle_trans with (Rabs (x - y) / x). { apply Rmult_le_compat_r; [left; now apply Rinv_0_lt_compat|exact E]. }
    replace (2 * (Rabs (x - y) / y)) with (Rabs (x - y) * (2 / y)) by (field; lra). apply Rmult_le_compat_l; [exact P0|].
    apply Rmult_le_reg_r with (x * y); [nra|]. replace (/ x * (x * y)) with y by (field; lra). replace (2 / y * (x * y)) with (2 * x) by (field; lra). lra. }
  assert (DY : (x - y) / y <= 2 * (Rabs (x - y) / y)).
  { pose proof (Rabs_pos (x - y)). pose proof (Rle_abs (x - y)). unfold Rdiv. rewrite <- Rmult_assoc. apply Rmult_le_compat_r; [left; now apply Rinv_0_lt_compat|lra]. }
  apply abs_le. lra.
Qed.
Lemma u50 : / 2 ^ 50 = 8 * uu. Proof. unfold uu. cbn [pow]. lra. Qed.
Lemma tiny_uu : / 10 ^ 300 <= uu / 2 ^ 20.
Proof. apply Rle_trans with (1 := tiny_300). rewrite uu_bpow. apply Rle_trans with (bpow radix2 (-73)); [apply bpow_le; lia|]. right. change (-73)%Z with (-53 + -20)%Z. rewrite bpow_plus. unfold Rdiv. f_equal. change (bpow radix2 (-20)) with (/ 1048576). cbn [pow]. f_equal. lra. Qed.

Section L.
  Variable L : Libm.
  Let DN : Num dbl := DNum L.
  #[local] Existing Instance DN.
  Hypothesis LM : libm_ok L.

  Lemma third_val : fin (onethird : dbl) /\ Rabs (B2R (onethird : dbl) - / 3) <= uu * 0.34.
  Proof.
    unfold onethird, one, three. cbn [ndiv nZ DN DNum].
    destruct (Z2D_ok 1 ltac:(lia)) as [F1 V1], (Z2D_ok 3 ltac:(lia)) as [F3 V3].
    assert (Q : B2R (Z2D 1) / B2R (Z2D 3) = / 3) by (rewrite V1, V3; lra).
    destruct (div_ok (Z2D 1) (Z2D 3) F1) as [F V]; [rewrite V3; lra|rewrite Q, Rabs_pos_eq by lra; pose proof big_10; lra|].
    rewrite Q in V. split; [exact F|]. rewrite V. pose proof (rnd_err (/ 3)) as H. rewrite (Rabs_pos_eq (/ 3)) in H by lra. pose proof eta_uu. assert (0 < uu) by (unfold uu; lra). lra.
  Qed.
  Lemma s3_val : fin (sqr3 : dbl) /\ Rabs (B2R (sqr3 : dbl) - sqrt 3) <= 4 * uu.
  Proof.
    destruct C37_roots as (_ & HC & _). pose proof (sqrt_sqrt 3 ltac:(lra)) as S. pose proof (sqrt_lt_R0 3 ltac:(lra)) as P.
    assert (B : 1.7 <= sqrt 3 <= 2) by nra. destruct (nb_const _ _ HC ltac:(lra)) as (F & E & _). split; [exact F|]. unfold uu in *. cbn [sqr3 DN DNum]. lra.
  Qed.
  Section V.
    Variable v : dbl.
    Hypothesis FV : fin v.
    Hypothesis BV : bpow radix2 (- (10)) <= B2R v <= bpow radix2 10.
    Let x := B2R v.
    Let c := Rpower x (/ 3).
    Let a := lm_pow L v onethird.
    Lemma x_pos' : 0 < x. Proof. pose proof (bpow_gt_0 radix2 (- (10))). unfold x. lra. Qed.
    Lemma ln_x : Rabs (ln x) <= 10. Proof. exact (ln_mag x 10 ltac:(lia) BV). Qed.
    Lemma c_lo : bpow radix2 (- (10)) <= c <= bpow radix2 10. Proof. apply rpower_frac; [lia|exact BV|lra]. Qed.
    (** the cube root *)
    Lemma cube_root : fin a /\ Rabs (B2R a - c) <= uu * 18 * c.
    Proof.
      destruct third_val as [F3 E3]. pose proof x_pos' as PX. pose proof ln_x as LX. pose proof c_lo as [CL CH]. pose proof (bpow_gt_0 radix2 (- (10))) as P10.
      set (t := B2R (onethird : dbl)) in *. set (r := Rpower x t).
      assert (ER : r = c * exp ((t - / 3) * ln x)). { unfold r, c, Rpower. rewrite <- exp_plus. f_equal. ring. }
      assert (UU : 0 < uu <= / 1000000) by (unfold uu; lra).
      assert (EX : Rabs ((t - / 3) * ln x) <= 3.4 * uu). { rewrite Rabs_mult. apply Rle_trans with (uu * 0.34 * 10); [apply Rmult_le_compat; auto using Rabs_pos|lra]. }
      assert (EE : Rabs (exp ((t - / 3) * ln x) - 1) <= 6.8 * uu). { eapply Rle_trans; [apply exp_near; unfold uu in *; lra|lra]. }
      assert (RC : Rabs (r - c) <= 6.8 * uu * c).
      { rewrite ER. replace (c * exp ((t - / 3) * ln x) - c) with ((exp ((t - / 3) * ln x) - 1) * c) by ring. rewrite Rabs_mult, (Rabs_pos_eq c) by lra. apply Rmult_le_compat_r; lra. }
      assert (RB : 0 <= r <= 2 * c). { apply abs_le in RC. assert (6.8 * uu * c <= 0.1 * c) by (apply Rmult_le_compat_r; lra). lra. }
      destruct LM as (_ & _ & HP).
      assert (R300 : r <= 10 ^ 300). { pose proof pow_900 as P9. apply Rle_trans with (2 := P9). apply Rle_trans with (bpow radix2 11); [|apply bpow_le; lia]. change (bpow radix2 11) with (2 * bpow radix2 10). lra. }
      destruct (HP v onethird FV F3 PX R300) as [FA EA]. fold a in FA, EA. split; [exact FA|]. change (Rpower (B2R v) (B2R onethird)) with r in EA.
      rewrite u50, (Rabs_pos_eq r) in EA by lra. pose proof tiny_uu as TU.
      assert (TC : uu / 2 ^ 20 <= uu * c). { unfold Rdiv. apply Rmult_le_compat_l; [lra|]. apply Rle_trans with (2 := CL). change (bpow radix2 (- (10))) with (/ 1024). cbn [pow]. lra. }
      replace (B2R a - c) with ((B2R a - r) + (r - c)) by ring. apply Rle_trans with (1 := Rabs_triang _ _).
      assert (U1 : uu * r <= uu * (c + 6.8 * uu * c)). { apply Rmult_le_compat_l; [lra|]. apply abs_le in RC. lra. }
      assert (U2 : uu * (uu * c) <= / 1000000 * (uu * c)). { apply Rmult_le_compat_r; [apply Rmult_le_pos; lra|lra]. }
      assert (U3 : 0 <= uu * c) by (apply Rmult_le_pos; lra).
      set (g := / 10 ^ 300) in *. clearbody g. set (g2 := uu / 2 ^ 20) in *. clearbody g2. lra.
    Qed.
    Let lg := Bmult mode_NE (dconst lit_SQRT3) (lm_log L a).
    Let ex := Bmult mode_NE (dconst lit_SQRT3) lg.
    Lemma third_log : fin (lm_log L a) /\ Rabs (B2R (lm_log L a) - ln x / 3) <= 90 * uu.
    Proof.
      destruct cube_root as [FA EA]. pose proof c_lo as [CL CH]. pose proof (bpow_gt_0 radix2 (- (10))) as P10. assert (PC : 0 < c) by lra.
      assert (UU : 0 < uu <= / 1000000) by (unfold uu; lra). pose proof ln_x as LX.
      assert (QA : Rabs (B2R a - c) <= / 4 * c). { apply Rle_trans with (1 := EA). apply Rmult_le_compat_r; lra. }
      destruct (ln_near _ _ PC QA) as [PA LA].
      assert (LA' : Rabs (ln (B2R a) - ln c) <= 36 * uu).
      { apply Rle_trans with (1 := LA). apply Rle_trans with (2 * (uu * 18 * c / c)); [|right; field; lra]. apply Rmult_le_compat_l; [lra|]. apply Rmult_le_compat_r; [left; now apply Rinv_0_lt_compat|exact EA]. }
      assert (LC : ln c = ln x / 3) by (unfold c, Rpower; rewrite ln_exp; field).
      rewrite LC in LA'. destruct LM as (_ & HL & _). destruct (HL a FA PA) as [FL EL]. split; [exact FL|]. rewrite u50 in EL.
      apply abs_le in LX, LA'. assert (AB : Rabs (ln (B2R a)) <= 4) by (apply abs_le; lra).
      pose proof tiny_uu as TU. assert (TU' : uu / 2 ^ 20 <= uu). { unfold Rdiv. rewrite <- (Rmult_1_r uu) at 2. apply Rmult_le_compat_l; [lra|]. cbn [pow]. lra. }
      assert (8 * uu * Rabs (ln (B2R a)) <= 8 * uu * 4) by (apply Rmult_le_compat_l; lra).
      set (g := / 10 ^ 300) in *. clearbody g. set (g2 := uu / 2 ^ 20) in *. clearbody g2. apply abs_le in EL. apply abs_le. lra.
    Qed.
    Lemma s3_mul y Y e : fin y -> Rabs (B2R y - Y) <= e * uu -> Rabs Y <= 8 -> 0 <= e <= 400 -> let z := Bmult mode_NE (dconst lit_SQRT3) y in
      fin z /\ Rabs (B2R z - sqrt 3 * Y) <= (1.74 * e + 48) * uu.
    Proof.
      intros FY EY BY He. cbv zeta. destruct s3_val as [FS ES]. change (sqr3 : dbl) with (dconst lit_SQRT3) in FS, ES.
      pose proof (sqrt_sqrt 3 ltac:(lra)) as S. pose proof (sqrt_lt_R0 3 ltac:(lra)) as P. assert (B : 1.7 <= sqrt 3 <= 1.7321) by nra.
      assert (UU : 0 < uu <= / 1000000) by (unfold uu; lra). set (s := B2R (dconst lit_SQRT3)) in *. set (q := sqrt 3) in *. clearbody q.
      assert (EU : e * uu <= 400 * / 1000000) by (apply Rmult_le_compat; lra).
      assert (D : Rabs (s * B2R y - q * Y) <= (1.7322 * e + 33) * uu).
      { replace (s * B2R y - q * Y) with ((s - q) * B2R y + q * (B2R y - Y)) by ring. apply Rle_trans with (1 := Rabs_triang _ _). rewrite !Rabs_mult, (Rabs_pos_eq q) by lra.
        assert (YB : Rabs (B2R y) <= 8.1). { replace (B2R y) with ((B2R y - Y) + Y) by ring. apply Rle_trans with (1 := Rabs_triang _ _). lra. }
        assert (Rabs (s - q) * Rabs (B2R y) <= 4 * uu * 8.1) by (apply Rmult_le_compat; auto using Rabs_pos).
        assert (q * Rabs (B2R y - Y) <= 1.7322 * (e * uu)) by (apply Rmult_le_compat; [lra|apply Rabs_pos|lra|lra]). lra. }
      assert (MB : Rabs (s * B2R y) <= 14).
      { replace (s * B2R y) with ((s * B2R y - q * Y) + q * Y) by ring. apply Rle_trans with (1 := Rabs_triang _ _). rewrite (Rabs_mult q), (Rabs_pos_eq q) by lra.
        assert (q * Rabs Y <= 1.7322 * 8) by (apply Rmult_le_compat; [lra|apply Rabs_pos|lra|lra]).
        assert ((1.7322 * e + 33) * uu <= 1000 * / 1000000) by (apply Rmult_le_compat; lra). lra. }
      destruct (mul_ok (dconst lit_SQRT3) y FS FY) as [F V]; [fold s; pose proof big_10; lra|]. split; [exact F|]. rewrite V. fold s.
      pose proof (rnd_err (s * B2R y)) as E. pose proof eta_uu as HE. assert (uu * Rabs (s * B2R y) <= uu * 14) by (apply Rmult_le_compat_l; lra).
      replace (rnd (s * B2R y) - q * Y) with ((rnd (s * B2R y) - s * B2R y) + (s * B2R y - q * Y)) by ring. apply Rle_trans with (1 := Rabs_triang _ _). 
      assert (0 <= e * uu) by (apply Rmult_le_pos; lra). lra.
    Qed.
    Lemma vol_back : fin (lm_exp L ex) /\ Rabs (B2R (lm_exp L ex) - x) <= uu * 430 * x.
    Proof.
      destruct third_log as [F1 E1]. pose proof ln_x as LX. pose proof x_pos' as PX.
      pose proof (sqrt_sqrt 3 ltac:(lra)) as S. pose proof (sqrt_lt_R0 3 ltac:(lra)) as P. assert (B : 1.7 <= sqrt 3 <= 1.7321) by nra.
      assert (UU : 0 < uu <= / 1000000) by (unfold uu; lra).
      assert (B1 : Rabs (ln x / 3) <= 8). { unfold Rdiv. rewrite Rabs_mult, (Rabs_pos_eq (/ 3)) by lra. lra. }
      destruct (s3_mul _ _ 90 F1 E1 B1 ltac:(lra)) as [F2 E2]. change (Bmult mode_NE (dconst lit_SQRT3) (lm_log L a)) with lg in F2, E2.
      assert (B2 : Rabs (sqrt 3 * (ln x / 3)) <= 8).
      { rewrite Rabs_mult, (Rabs_pos_eq (sqrt 3)) by lra. unfold Rdiv. rewrite (Rabs_mult (ln x)), (Rabs_pos_eq (/ 3)) by lra.
        apply Rle_trans with (1.7321 * (10 * / 3)); [|lra]. apply Rmult_le_compat; [lra| |lra|]. - apply Rmult_le_pos; [apply Rabs_pos|lra]. - apply Rmult_le_compat_r; lra. }
      destruct (s3_mul lg (sqrt 3 * (ln x / 3)) 206 F2 ltac:(lra) B2 ltac:(lra)) as [F3 E3]. change (Bmult mode_NE (dconst lit_SQRT3) lg) with ex in F3, E3.
      replace (sqrt 3 * (sqrt 3 * (ln x / 3))) with (ln x) in E3 by (rewrite <- Rmult_assoc, S; field).
      assert (EE : exp (B2R ex) = x * exp (B2R ex - ln x)). { transitivity (exp (ln x) * exp (B2R ex - ln x)); [rewrite <- exp_plus; f_equal; ring|now rewrite exp_ln]. }
      assert (EN : Rabs (exp (B2R ex - ln x) - 1) <= 412 * uu). { eapply Rle_trans; [apply exp_near; lra|]. lra. }
      assert (DX : Rabs (exp (B2R ex) - x) <= 412 * uu * x).
      { rewrite EE. replace (x * exp (B2R ex - ln x) - x) with ((exp (B2R ex - ln x) - 1) * x) by ring. rewrite Rabs_mult, (Rabs_pos_eq x) by lra. apply Rmult_le_compat_r; lra. }
      assert (XB : exp (B2R ex) <= 2 * x). { apply abs_le in DX. assert (412 * uu * x <= 0.1 * x) by (apply Rmult_le_compat_r; lra). lra. }
      destruct LM as (HE & _ & _). pose proof (exp_pos (B2R ex)) as PE.
      assert (R300 : exp (B2R ex) <= 10 ^ 300). { pose proof pow_900 as P9. apply Rle_trans with (2 := P9). apply Rle_trans with (bpow radix2 11); [|apply bpow_le; lia]. change (bpow radix2 11) with (2 * bpow radix2 10). unfold x in *. lra. }
      destruct (HE ex F3 R300) as [FE EF]. split; [exact FE|]. rewrite u50, (Rabs_pos_eq (exp _)) in EF by lra.
      pose proof tiny_uu as TU.
      assert (TC : uu / 2 ^ 20 <= uu * x). { unfold Rdiv. apply Rmult_le_compat_l; [lra|]. apply Rle_trans with (2 := proj1 BV). change (bpow radix2 (- (10))) with (/ 1024). cbn [pow]. lra. }
      replace (B2R (lm_exp L ex) - x) with ((B2R (lm_exp L ex) - exp (B2R ex)) + (exp (B2R ex) - x)) by ring. apply Rle_trans with (1 := Rabs_triang _ _).
      assert (uu * exp (B2R ex) <= uu * (2 * x)) by (apply Rmult_le_compat_l; lra). assert (U3 : 0 <= uu * x) by (apply Rmult_le_pos; lra).
      set (g := / 10 ^ 300) in *. clearbody g. set (g2 := uu / 2 ^ 20) in *. clearbody g2. lra.
    Qed.
  End V.
End L.
