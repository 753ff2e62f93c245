(** Doubles: the slip rates of the power-law models are finite. *)
From Coq Require Import List ZArith Bool Lia PeanoNat Reals Lra Psatz.
From Flocq Require Import Core IEEE754.BinarySingleNaN.
From Verif Require Import Num Arr NumR Util SlipGeom Eos Hard KinVoce Elast Evptn MatModel Cases Const
  P_Sngl P_Batch P_Batch2 P_Batch3 P_Api P_Builtin SpecApi P_Gen NumD SpecTensor SpecSlip SpecDblGeom P_Dbl P_Dbl2 P_Dbl3 P_Dbl4 P_Dbl5 P_Dbl6 P_Dbl7 P_Dbl8 P_Dbl9 P_Dbl10 SpecDbl SpecDblFin P_Dbl13 P_Dbl14 P_Dbl15 P_Dbl16.
Import ListNotations.
Local Open Scope R_scope.

(** a positive result that is accurate: logarithm of the result *)
Lemma acc_ln y r : accurate y r -> bpow radix2 (-500) <= r -> 0 < B2R y /\ ln r - / 2 ^ 40 <= ln (B2R y) <= ln r + / 2 ^ 40.
Proof.
  intros [F H] HR. pose proof (bpow_gt_0 radix2 (-500)) as P. assert (RP : 0 < r) by lra.
  assert (T : / 10 ^ 300 <= / 2 ^ 50 * r).
  { apply Rle_trans with (1 := tiny_300). apply Rle_trans with (bpow radix2 (-50) * bpow radix2 (-500)).
    - rewrite <- bpow_plus. apply bpow_le. lia.
    - change (bpow radix2 (-50)) with (/ IZR (2 ^ 50)). rewrite (pow_IZR 2 50). apply Rmult_le_compat_l; [|exact HR].
      left. apply Rinv_0_lt_compat. apply IZR_lt. reflexivity. }
  rewrite (Rabs_pos_eq r) in H by lra. set (t := / 10 ^ 300) in *. clearbody t.
  assert (E : / 2 ^ 50 <= / 4 * / 2 ^ 40) by (rewrite (pow_IZR 2 50), (pow_IZR 2 40); change (Z.of_nat 50) with 50%Z; change (Z.of_nat 40) with 40%Z; cbn [Z.pow Z.pow_pos Pos.iter Z.mul Pos.mul]; lra).
  assert (E0 : 0 < / 2 ^ 50) by (apply Rinv_0_lt_compat; apply pow_lt; lra).
  assert (E1 : / 2 ^ 40 <= / 4) by (apply Rinv_le_contravar; [lra|]; apply Rle_trans with (2 ^ 2); [cbn [pow]; lra|apply Rle_pow; [lra|lia]]).
  set (c := / 2 ^ 50) in *. set (d := / 2 ^ 40) in *. clearbody c d. apply abs_le in H.
  assert (D : c * r <= / 4 * d * r) by (apply Rmult_le_compat_r; lra).
  assert (Q1 : r * (1 - d / 2) <= B2R y) by nra. assert (Q2 : B2R y <= r * (1 + d)) by nra.
  assert (QP : 0 < r * (1 - d / 2)) by (apply Rmult_lt_0_compat; lra).
  assert (YP : 0 < B2R y) by lra. split; [exact YP|].
  assert (MO : forall a b, a <= b -> exp a <= exp b). { intros a b [K| ->]; [left; now apply exp_increasing|right; reflexivity]. }
  split.
  - replace (ln r - d) with (ln r + - d) by ring. rewrite <- (ln_exp (ln r + - d)). apply ln_le; [apply exp_pos|].
    rewrite exp_plus, exp_ln by exact RP. apply Rle_trans with (2 := Q1). apply Rmult_le_compat_l; [lra|].
    rewrite exp_Ropp. pose proof (exp_ineq1_le d) as X. apply Rmult_le_reg_r with (exp d); [apply exp_pos|]. rewrite Rinv_l by (pose proof (exp_pos d); lra).
    apply Rle_trans with ((1 - d / 2) * (1 + d)); [nra|]. apply Rmult_le_compat_l; lra.
  - rewrite <- (ln_exp (ln r + d)). apply ln_le; [exact YP|]. rewrite exp_plus, exp_ln by exact RP. apply Rle_trans with (1 := Q2).
    apply Rmult_le_compat_l; [lra|]. apply exp_ineq1_le.
Qed.
Lemma mag_copysign x y k : mag x k -> mag (dcopysign x y) k.
Proof. intros H. unfold dcopysign. destruct Bsign; [apply mag_opp|]; now apply mag_abs. Qed.
Lemma ltb_fin (x y : dbl) : fin x -> fin y -> (Bltb x y = true <-> B2R x < B2R y).
Proof. intros F1 F2. rewrite Bltb_correct by assumption. split; [|apply Rlt_bool_true]. case Rlt_bool_spec; [auto|discriminate]. Qed.

Section L.
  Variable L : Libm.
  Let DN : Num dbl := DNum L.
  #[local] Existing Instance DN.
  Hypothesis TR : trig_ok L.
  Hypothesis LM : libm_ok L.

  Lemma lit_range : fin (gam_ratio_ovf : dbl) /\ 1 <= B2R (gam_ratio_ovf : dbl) <= bpow radix2 200 /\ fin (gam_ratio_min : dbl) /\ bpow radix2 (-200) <= B2R (gam_ratio_min : dbl) <= 1.
  Proof.
    assert (A : Rabs (Rlit 1 60) <= bpow radix2 200).
    { change (Rlit 1 60) with (IZR (1 * 10 ^ 60)). change (bpow radix2 200) with (IZR (2 ^ 200)). rewrite <- abs_IZR. apply IZR_le. vm_compute. discriminate. }
    assert (A1 : 1 <= Rlit 1 60).
    { change (Rlit 1 60) with (IZR (1 * 10 ^ 60)). apply IZR_le. vm_compute. discriminate. }
    assert (B : bpow radix2 (-200) <= Rlit 1 (-60) <= 1).
    { rewrite rlit_neg. change (bpow radix2 (-200)) with (/ IZR (2 ^ 200)). unfold Rdiv. rewrite Rmult_1_l. split.
      - apply Rinv_le_contravar; [apply IZR_lt; reflexivity|]. apply IZR_le. vm_compute. discriminate.
      - rewrite <- Rinv_1. apply Rinv_le_contravar; [lra|]. apply IZR_le. vm_compute. discriminate. }
    assert (R1 : rnd 1 = 1) by (change 1 with (bpow radix2 0); apply rnd_bpow; unfold okz; lia).
    pose proof (bpow_gt_0 radix2 (-200)) as P.
    unfold gam_ratio_ovf, gam_ratio_min. cbn [nlit DN DNum].
    destruct (mag_R2D (Rlit 1 60) 200 ltac:(unfold okz; lia) A) as [F1 V1]. destruct (R2D_ok (Rlit 1 60) (Rle_trans _ _ _ A (okz_big 200 ltac:(unfold okz; lia)))) as [_ W1].
    destruct (R2D_ok (Rlit 1 (-60))) as [F2 W2]. { rewrite Rabs_pos_eq by lra. pose proof big_10. lra. }
    split; [exact F1|]. split; [split; [|apply abs_le in V1; apply V1]|].
    - rewrite W1, <- R1. apply rnd_le. exact A1.
    - split; [exact F2|]. rewrite W2. split; [rewrite <- (rnd_bpow (-200)) by (unfold okz; lia)|rewrite <- R1]; apply rnd_le; lra.
  Qed.

  (** the exponent of the power law *)
  Section V.
    Variable xm : dbl.
    Hypothesis Fm : fin xm.
    Hypothesis Bm : / 1000000 <= B2R xm <= 1.
    Let mR := B2R xm.
    Lemma tmax_ln : fin (npow gam_ratio_ovf xm) /\ 0 < B2R (npow gam_ratio_ovf xm) <= bpow radix2 201 /\ ln (B2R (npow gam_ratio_ovf xm)) <= 200 * mR + / 2 ^ 40.
    Proof.
      destruct lit_range as (F & B & _). pose proof ln2_le as [L0 L1]. cbn [npow DN DNum]. destruct LM as (_ & _ & HP).
      set (X := gam_ratio_ovf) in *. clearbody X.
      assert (RB : 1 <= Rpower (B2R X) mR <= bpow radix2 200).
      { assert (BX : bpow radix2 (- (200)) <= B2R X <= bpow radix2 200). { split; [|apply B]. apply Rle_trans with (2 := proj1 B). apply (bpow_le radix2 (- (200)) 0). lia. }
        split; [|apply (rpower_frac _ _ 200 ltac:(lia) BX); unfold mR; lra].
        unfold Rpower. rewrite <- exp_0. assert (LX : 0 <= ln (B2R X)) by (rewrite <- ln_1; apply ln_le; lra).
        assert (0 <= mR * ln (B2R X)) by (apply Rmult_le_pos; [unfold mR; lra|exact LX]).
        destruct H as [H|H]; [left; now apply exp_increasing|rewrite <- H; right; reflexivity]. }
      pose proof (HP X xm F Fm ltac:(lra)) as A. fold mR in A.
      assert (A' : accurate (lm_pow L X xm) (Rpower (B2R X) mR)). { apply A. apply Rle_trans with (1 := proj2 RB). apply Rle_trans with (2 := pow_900). apply bpow_le. lia. }
      clear A. destruct (acc_ln _ _ A') as [YP [_ YL]].
      { apply Rle_trans with (2 := proj1 RB). apply (bpow_le radix2 (-500) 0). lia. }
      destruct (acc_hi _ _ 200 A') as [FY HY]; [rewrite Rabs_pos_eq; lra|lia|].
      split; [exact FY|]. split; [split; [exact YP|apply abs_le in HY; apply HY]|].
      refine (Rle_trans _ _ _ YL _). apply Rplus_le_compat_r. unfold Rpower. rewrite ln_exp. rewrite Rmult_comm. apply Rmult_le_compat_r; [unfold mR; lra|].
      assert (X2 : ln (B2R X) <= IZR 200 * ln 2) by (rewrite <- ln_bpow; apply ln_le; lra). nra.
    Qed.
    Lemma tmin_ln : fin (npow gam_ratio_min xm) /\ 0 < B2R (npow gam_ratio_min xm) /\ - (200 * mR) - / 2 ^ 40 <= ln (B2R (npow gam_ratio_min xm)).
    Proof.
      destruct lit_range as (_ & _ & F & B). pose proof ln2_le as [L0 L1]. cbn [npow DN DNum]. destruct LM as (_ & _ & HP).
      set (X := gam_ratio_min) in *. clearbody X. pose proof (bpow_gt_0 radix2 (-200)) as P.
      assert (RB : bpow radix2 (- (200)) <= Rpower (B2R X) mR <= bpow radix2 200).
      { assert (BX : bpow radix2 (- (200)) <= B2R X <= bpow radix2 200). { split; [apply B|]. apply Rle_trans with (1 := proj2 B). apply (bpow_le radix2 0 200). lia. }
        apply (rpower_frac _ _ 200 ltac:(lia) BX). unfold mR; lra. }
      pose proof (HP X xm F Fm ltac:(lra)) as A. fold mR in A.
      assert (A' : accurate (lm_pow L X xm) (Rpower (B2R X) mR)). { apply A. apply Rle_trans with (1 := proj2 RB). apply Rle_trans with (2 := pow_900). apply bpow_le. lia. }
      clear A. destruct (acc_ln _ _ A') as [YP [YL _]].
      { apply Rle_trans with (2 := proj1 RB). apply bpow_le. lia. }
      split; [exact (proj1 A')|]. split; [exact YP|].
      refine (Rle_trans _ _ _ _ YL). apply Rplus_le_compat_r. unfold Rpower. rewrite ln_exp.
      assert (X2 : IZR (-200) * ln 2 <= ln (B2R X)) by (rewrite <- ln_bpow; apply ln_le; [exact P|apply B]).
      assert (X3 : -200 <= ln (B2R X)) by nra. assert (0 < mR) by (unfold mR; lra). set (l := ln (B2R X)) in *. clearbody l. nra.
    Qed.
    Lemma xn_mag : let xnn := (one / xm)%num in fin xnn /\ fin (xnn - one)%num /\ 0 <= B2R (xnn - one)%num <= 1.01 / mR.
    Proof.
      cbv zeta. unfold one. cbn [nsub ndiv nZ DN DNum]. destruct (Z2D_ok 1 ltac:(lia)) as [F1 V1].
      assert (M0 : 0 < mR) by (unfold mR; lra).
      assert (Q : B2R (Z2D 1) / B2R xm = / mR) by (rewrite V1; unfold mR, Rdiv; ring).
      assert (QB : 1 <= / mR <= 1000000).
      { split; [rewrite <- Rinv_1; apply Rinv_le_contravar; unfold mR in *; lra|]. replace 1000000 with (/ / 1000000) by lra. apply Rinv_le_contravar; unfold mR in *; lra. }
      assert (BG : 2000000 <= bpow radix2 30) by (change (bpow radix2 30) with 1073741824; lra). assert (BG2 : bpow radix2 30 <= big) by (apply bpow_le; lia).
      destruct (div_ok (Z2D 1) xm F1) as [F V]; [apply Rgt_not_eq; unfold mR in *; lra|rewrite Q, Rabs_pos_eq; lra|]. rewrite Q in V.
      assert (R1 : rnd 1 = 1) by (change 1 with (bpow radix2 0); apply rnd_bpow; unfold okz; lia).
      assert (V0 : 1 <= rnd (/ mR)) by (rewrite <- R1; apply rnd_le; lra).
      pose proof (rnd_err (/ mR)) as E. rewrite (Rabs_pos_eq (/ mR)) in E by lra. apply abs_le in E. pose proof eta_uu as EU.
      assert (V2 : rnd (/ mR) <= 1.005 * / mR) by (unfold uu in *; lra).
      split; [exact F|]. set (q := Bdiv mode_NE (Z2D 1) xm) in *. clearbody q.
      destruct (sub_ok q (Z2D 1) F F1) as [FS VS]. { rewrite V, V1, Rabs_pos_eq; lra. }
      split; [exact FS|]. rewrite VS, V, V1. split; [apply rnd_nonneg; lra|].
      assert (R3 : rnd (rnd (/ mR) - 1) <= rnd (B2R q)) by (apply rnd_le; lra). rewrite rnd_B2R, V in R3. unfold Rdiv. lra.
    Qed.
    (** between the two thresholds the power stays below 2^416 *)
    Lemma exp_xn (at_ : dbl) : fin at_ -> B2R (npow gam_ratio_min xm) < B2R at_ -> B2R at_ <= B2R (npow gam_ratio_ovf xm) ->
      mag at_ 201 /\ mag (nexp ((one / xm - one) * nlog at_))%num 421.
    Proof.
      intros FA HA1 HA2. destruct tmax_ln as (_ & [_ M2] & M3). destruct tmin_ln as (_ & N2 & N3). destruct xn_mag as (_ & FX & X0 & X1).
      set (tx := npow gam_ratio_ovf xm) in *. set (tn := npow gam_ratio_min xm) in *. clearbody tx tn.
      set (xn := (one / xm - one)%num) in *. clearbody xn. cbn [nexp nlog nmul DN DNum].
      assert (AP : 0 < B2R at_) by lra. split; [split; [exact FA|rewrite Rabs_pos_eq; lra]|].
      assert (M0 : 0 < mR) by (unfold mR; lra).
      assert (D : / 2 ^ 40 <= / 4 * mR).
      { apply Rle_trans with (/ 4000000); [|unfold mR; lra]. apply Rinv_le_contravar; [lra|]. apply Rle_trans with (2 ^ 22); [cbn [pow]; lra|apply Rle_pow; [lra|lia]]. }
      assert (LB : Rabs (ln (B2R at_)) <= 200.25 * mR).
      { apply abs_le. set (dd := / 2 ^ 40) in *. clearbody dd. split.
        - assert (ln (B2R tn) <= ln (B2R at_)) by (apply ln_le; lra). lra.
        - assert (ln (B2R at_) <= ln (B2R tx)) by (apply ln_le; lra). lra. }
      destruct LM as (HE & HL & _). destruct (HL at_ FA AP) as [FL EL].
      assert (LB2 : Rabs (B2R (lm_log L at_)) <= 201 * mR).
      { pose proof tiny_300 as T3. assert (T4 : bpow radix2 (-900) <= / 2 ^ 40).
        { rewrite (pow_IZR 2 40). change (/ IZR (2 ^ Z.of_nat 40)) with (bpow radix2 (-40)). apply bpow_le. lia. }
        assert (C5 : / 2 ^ 50 <= / 1000) by (apply Rinv_le_contravar; [lra|]; apply Rle_trans with (2 ^ 10); [cbn [pow]; lra|apply Rle_pow; [lra|lia]]).
        assert (C6 : 0 < / 2 ^ 50) by (apply Rinv_0_lt_compat; apply pow_lt; lra).
        set (t := / 10 ^ 300) in *. set (dd := / 2 ^ 40) in *. set (cc := / 2 ^ 50) in *. clearbody t dd cc.
        replace (B2R (lm_log L at_)) with (ln (B2R at_) + (B2R (lm_log L at_) - ln (B2R at_))) by ring. apply Rle_trans with (1 := Rabs_triang _ _).
        pose proof (Rabs_pos (ln (B2R at_))) as AP2. set (al := Rabs (ln (B2R at_))) in *. clearbody al.
        assert (cc * al <= / 1000 * al) by (apply Rmult_le_compat_r; lra). lra. }
      set (lg := lm_log L at_) in *. clearbody lg. clear EL LB.
      assert (PB : Rabs (B2R xn * B2R lg) <= 204).
      { rewrite Rabs_mult, (Rabs_pos_eq (B2R xn)) by exact X0. apply Rle_trans with (1.01 / mR * (201 * mR)).
        - apply Rmult_le_compat; [exact X0|apply Rabs_pos|exact X1|exact LB2].
        - replace (1.01 / mR * (201 * mR)) with (1.01 * 201) by (field; lra). lra. }
      destruct (mul_ok xn lg FX FL) as [FP VP]; [pose proof big_10; lra|].
      assert (EB : B2R (Bmult mode_NE xn lg) <= 210). { rewrite VP. pose proof (rnd_abs (B2R xn * B2R lg)) as K. pose proof eta_uu. unfold uu in *. pose proof (Rle_abs (rnd (B2R xn * B2R lg))). lra. }
      set (z := Bmult mode_NE xn lg) in *. clearbody z.
      assert (H : exp (B2R z) <= bpow radix2 420). { apply (exp_hi _ 210). replace (INR 210) with 210 by (rewrite INR_IZR_INZ; reflexivity). lra. }
      pose proof (exp_pos (B2R z)). apply (acc_hi _ (exp (B2R z)) 420); [|rewrite Rabs_pos_eq; lra|lia].
      apply HE; [exact FP|]. apply Rle_trans with (1 := H). apply Rle_trans with (2 := pow_900). apply bpow_le. lia.
    Qed.
  End V.

  Lemma voce_rate_mag nl p g tau : fin (get p 1) -> / 1000000 <= B2R (get p 1) <= 1 -> mag (get p 2) 100 ->
    fin g -> bpow radix2 (-100) <= B2R g -> mag tau 600 ->
    mag (fst (fst (fst (voce_evalGdot (voce_setParams nl p) g tau)))) 730.
  Proof.
    intros Fm Bm HG FG BG HT. unfold voce_evalGdot. cbv zeta. unfold voce_setParams. cbv zeta. cbn [v_t_min v_t_max v_xn v_gam_w v_xnn].
    assert (GI : mag (one / g)%num 103).
    { apply (mag_div _ _ 3 (-100)); [apply mag_Z2D; lia|exact FG|apply Rle_trans with (1 := BG); apply Rle_abs|unfold okz; lia]. }
    set (gi := (one / g)%num) in *. clearbody gi.
    assert (TF : mag (tau * gi)%num 703) by (cbn [nmul DN DNum]; mgt). set (tf := (tau * gi)%num) in *. clearbody tf.
    assert (AT : mag (nabs tf) 703) by (cbn [nabs DN DNum]; mgt).
    destruct (tmax_ln _ Fm Bm) as (FX & _). destruct (tmin_ln _ Fm Bm) as (FN & _).
    pose proof (exp_xn _ Fm Bm (nabs tf) (proj1 AT)) as EX.
    destruct (npow gam_ratio_min (get p 1) <? nabs tf)%num eqn:E1; [|cbn [fst]; apply mag_0].
    destruct (npow gam_ratio_ovf (get p 1) <? nabs tf)%num eqn:E2.
    - cbn [fst]. cbn [ncopysign nmul DN DNum]. apply mag_copysign. unfold gam_ratio_ovffx. cbn [nlit DN DNum].
      assert (OV : mag (R2D (Rlit 1 45)) 150).
      { apply mag_R2D; [unfold okz; lia|]. change (Rlit 1 45) with (IZR (1 * 10 ^ 45)). change (bpow radix2 150) with (IZR (2 ^ 150)). rewrite <- abs_IZR. apply IZR_le. vm_compute. discriminate. }
      set (ov := R2D (Rlit 1 45)) in *. clearbody ov. mgt.
    - cbn [fst]. change (@nltb dbl DN) with (@Bltb 53 1024) in E1, E2.
      apply ltb_fin in E1; [|exact FN|exact (proj1 AT)].
      assert (E3 : B2R (nabs tf) <= B2R (npow gam_ratio_ovf (get p 1))).
      { destruct (Rle_or_lt (B2R (nabs tf)) (B2R (npow gam_ratio_ovf (get p 1)))) as [K|K]; [exact K|].
        assert (X : Bltb (npow gam_ratio_ovf (get p 1)) (nabs tf) = true) by (apply ltb_fin; [exact FX|exact (proj1 AT)|exact K]). congruence. }
      destruct (EX E1 E3) as [A1 A2]. set (ex := nexp _) in *. clearbody ex.
      assert (TF2 : mag tf 201). { destruct A1 as [_ A1]. destruct TF as [FT _]. split; [exact FT|]. cbn [nabs DN DNum] in A1. rewrite B2R_Babs, Rabs_Rabsolu in A1. exact A1. }
      clear TF. cbn [nmul DN DNum]. mgt.
  Qed.
End L.
