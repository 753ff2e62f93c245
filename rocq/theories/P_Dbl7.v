(** Doubles: histories of the accumulated shear, choice between q and -q, trace of the stress. *)
From Coq Require Import List ZArith Bool Lia PeanoNat Reals Lra Psatz.
From Flocq Require Import Core IEEE754.BinarySingleNaN.
From Verif Require Import Num Arr NumR Util SlipGeom Eos Hard KinVoce KinKMBalD Elast Evptn MatModel Cases Const
  P_Sngl P_Batch P_Batch2 P_Batch3 P_Api P_Builtin P_Gen NumD P_Dbl P_Dbl2 P_Dbl3 P_Dbl4 P_Dbl5 P_Dbl6 SpecDbl.
Import ListNotations.
Local Open Scope R_scope.

Lemma not_below (d : dbl) : fin d -> Bltb d dz = false -> 0 <= B2R d.
Proof. intros F H. rewrite Bltb_correct in H by (assumption || reflexivity). revert H. case Rlt_bool_spec; [discriminate|]. intros H _. exact H. Qed.
Lemma below (d : dbl) : fin d -> Bltb d dz = true -> B2R d < 0.
Proof. intros F H. rewrite Bltb_correct in H by (assumption || reflexivity). revert H. case Rlt_bool_spec; [|discriminate]. intros H _. exact H. Qed.

Lemma prod_near1 (a b : dbl) : fin a -> fin b -> Rabs (B2R a) <= 1.01 -> Rabs (B2R b) <= 1.01 ->
  near (Bmult mode_NE a b) (B2R a * B2R b) (1.1 * uu) /\ Rabs (B2R a * B2R b) <= 1.03.
Proof.
  intros FA FB HA HB.
  assert (P : Rabs (B2R a * B2R b) <= 1.03).
  { rewrite Rabs_mult. apply Rle_trans with (1.01 * 1.01); [apply Rmult_le_compat; auto using Rabs_pos|lra]. }
  split; [|exact P]. destruct (mul_ok a b FA FB) as [F V]; [pose proof big_10; lra|]. split; [exact F|]. rewrite V.
  pose proof (rnd_err (B2R a * B2R b)) as H. pose proof eta_uu. unfold uu in *. lra.
Qed.
Lemma add_near (x y : dbl) X Y e f M : near x X e -> near y Y f -> Rabs X <= M -> Rabs Y <= 1.03 -> M <= 10 -> e <= 1 -> f <= 1 ->
  near (Bplus mode_NE x y) (X + Y) (e + f + uu * (M + 1.03 + e + f) + eta) /\ Rabs (X + Y) <= M + 1.03.
Proof.
  intros [FX EX] [FY EY] HX HY HM He Hf. apply abs_le in EX, EY, HX, HY.
  assert (B : Rabs (B2R x + B2R y) <= M + 1.03 + e + f) by (apply abs_le; lra).
  destruct (add_ok x y FX FY) as [F R]. { pose proof big_10. lra. }
  split; [split; [exact F|]|apply abs_le; lra]. rewrite R. pose proof (rnd_err (B2R x + B2R y)) as H.
  apply abs_le in H. apply abs_le.
  assert (uu * Rabs (B2R x + B2R y) <= uu * (M + 1.03 + e + f)) by (apply Rmult_le_compat_l; [unfold uu; lra|exact B]). lra.
Qed.
Lemma near_weak x X e e' : near x X e -> e <= e' -> near x X e'.
Proof. intros [F H] K. split; [exact F|lra]. Qed.

Section L.
  Variable L : Libm.
  Let DN : Num dbl := DNum L.
  #[local] Existing Instance DN.

  Lemma dchain_shear hs c i : forall l b0, dchain L hs c (b0 :: l) -> (i < d_n b0)%nat ->
    (forall b, In b (b0 :: l) -> nn (d_dt b)) ->
    forall b, In b (b0 :: l) ->
    nn (dval (d_s b) (d_m1 b) AH i 0) /\
    (is_nan (dval (d_s b) (d_m1 b) AH i 1) = true \/ Bleb (dval (d_s b0) (d_m b0) AH i 1) (dval (d_s b) (d_m1 b) AH i 1) = true).
  Proof.
    induction l as [|b1 l IH]; intros b0 (HG & HF & HC) Hi HD b HI;
      destruct (dcall_shear L hs c b0 i HG Hi) as (S1 & _ & S2); cbv zeta in *; specialize (S2 (HD b0 (or_introl eq_refl)));
      (destruct HI as [<-|HI]; [split; [exact S1|exact S2]|]).
    - destruct HI.
    - destruct HF as (F1 & F2 & F3). destruct (IH b1 HC ltac:(lia) (fun b H => HD b (or_intror H)) b HI) as [I1 I2].
      split; [exact I1|]. rewrite (dval_eq (d_s b0) (d_s b1) (d_m1 b0) (d_m b1) AH i 1 F1 F3) in I2.
      destruct I2 as [I2|I2]; [left; exact I2|].
      set (x := dval (d_s b0) (d_m b0) AH i 1) in *. set (y := dval (d_s b0) (d_m1 b0) AH i 1) in *. set (z := dval (d_s b) (d_m1 b) AH i 1) in *.
      destruct (is_nan z) eqn:EZ; [left; reflexivity|]. right.
      assert (EY : is_nan y = false). { destruct (is_nan y) eqn:EY; [|reflexivity]. apply nan_eq in EY. rewrite EY in I2. discriminate. }
      destruct S2 as [S2|S2]; [congruence|].
      assert (EX : is_nan x = false). { destruct (is_nan x) eqn:EX; [|reflexivity]. apply nan_eq in EX. rewrite EX in S2. discriminate. }
      apply leb_pos in I2; [|assumption ..]. apply leb_pos in S2; [|assumption ..]. apply leb_pos; [assumption ..|]. lra.
  Qed.

  (** computed scalar product of two almost unit quaternions *)
  Lemma dot_near a b : (forall k, (k < 4)%nat -> fin (get a k) /\ Rabs (B2R (get a k)) <= 1.01) -> (forall k, (k < 4)%nat -> fin (get b k) /\ Rabs (B2R (get b k)) <= 1.01) ->
    near (vecsyadotb 4 a b) (B2R (get a 0) * B2R (get b 0) + B2R (get a 1) * B2R (get b 1) + B2R (get a 2) * B2R (get b 2) + B2R (get a 3) * B2R (get b 3)) (17 * uu).
  Proof.
    intros HA HB. unfold vecsyadotb. rewrite !sum_S, sum_0. cbn [nadd nmul DN DNum].
    assert (P : forall k, (k < 4)%nat -> near (Bmult mode_NE (get a k) (get b k)) (B2R (get a k) * B2R (get b k)) (1.1 * uu) /\ Rabs (B2R (get a k) * B2R (get b k)) <= 1.03).
    { intros k Hk. destruct (HA k Hk), (HB k Hk). apply prod_near1; assumption. }
    destruct (P 0%nat ltac:(lia)) as [N0 B0]. destruct (P 1%nat ltac:(lia)) as [N1 B1]. destruct (P 2%nat ltac:(lia)) as [N2 B2]. destruct (P 3%nat ltac:(lia)) as [N3 B3].
    unfold DN in *.
    set (p0 := Bmult mode_NE (get a 0) (get b 0)) in *. set (p1 := Bmult mode_NE (get a 1) (get b 1)) in *. set (p2 := Bmult mode_NE (get a 2) (get b 2)) in *. set (p3 := Bmult mode_NE (get a 3) (get b 3)) in *.
    set (P0 := B2R (get a 0) * B2R (get b 0)) in *. set (P1 := B2R (get a 1) * B2R (get b 1)) in *. set (P2 := B2R (get a 2) * B2R (get b 2)) in *. set (P3 := B2R (get a 3) * B2R (get b 3)) in *.
    clearbody p0 p1 p2 p3 P0 P1 P2 P3. pose proof eta_uu as EU. pose proof eta_pos as EP.
    assert (NZ : near (@nZ dbl (DNum L) 0) 0 0). { destruct (z0_ok L) as [F V]. split; [exact F|]. rewrite V. rewrite Rminus_0_r, Rabs_R0. lra. }
    destruct (add_near _ _ _ _ _ _ 0 NZ N0) as [M0 C0]; [rewrite Rabs_R0; lra|exact B0|unfold uu; lra ..|]. apply near_weak with (e' := 2.2 * uu) in M0; [|unfold uu in *; lra].
    destruct (add_near _ _ _ _ _ _ (0 + 1.03) M0 N1) as [M1 C1]; [exact C0|exact B1|unfold uu; lra ..|]. apply near_weak with (e' := 5.5 * uu) in M1; [|unfold uu in *; lra].
    destruct (add_near _ _ _ _ _ _ (0 + 1.03 + 1.03) M1 N2) as [M2 C2]; [exact C1|exact B2|unfold uu; lra ..|]. apply near_weak with (e' := 9.9 * uu) in M2; [|unfold uu in *; lra].
    destruct (add_near _ _ _ _ _ _ (0 + 1.03 + 1.03 + 1.03) M2 N3) as [M3 C3]; [exact C2|exact B3|unfold uu; lra ..|]. apply near_weak with (e' := 17 * uu) in M3; [|unfold uu in *; lra].
    replace (P0 + P1 + P2 + P3) with (0 + P0 + P1 + P2 + P3) by ring. exact M3.
  Qed.

  Lemma inner4_list a b c d p q r s : inner4 [a; b; c; d] [p; q; r; s] = B2R a * B2R p + B2R b * B2R q + B2R c * B2R r + B2R d * B2R s.
  Proof. unfold inner4. cbn. ring. Qed.
  Lemma unit_small q : list4 q -> finite q -> Rabs (norm2 q - 1) <= / 10 ^ 13 -> forall k, (k < 4)%nat -> fin (get q k) /\ Rabs (B2R (get q k)) <= 1.01.
  Proof.
    intros (a & b & c & d & ->) HF HN k Hk. 
    inversion HF as [|? ? Fa HF1]; subst. inversion HF1 as [|? ? Fb HF2]; subst. inversion HF2 as [|? ? Fc HF3]; subst. inversion HF3 as [|? ? Fd _]; subst.
    cbn [norm2 fold_right] in HN. apply abs_le in HN. cbn [pow] in HN.
    assert (Q : forall x : dbl, B2R x * B2R x <= 1.01 -> Rabs (B2R x) <= 1.01) by (intros; apply abs_le; nra).
    pose proof (Rle_0_sqr (B2R a)) as Ra. pose proof (Rle_0_sqr (B2R b)) as Rb. pose proof (Rle_0_sqr (B2R c)) as Rc. pose proof (Rle_0_sqr (B2R d)) as Rd. unfold Rsqr in *.
    destruct k as [|[|[|[|k]]]]; [| | | |lia]; (split; [assumption|]); apply Q;
      [change (get [a; b; c; d] 0) with a|change (get [a; b; c; d] 1) with b|change (get [a; b; c; d] 2) with c|change (get [a; b; c; d] 3) with d]; lra.
  Qed.

  (** the stored orientation is, up to rounding, not on the far side of the previous one *)
  Lemma dcall_sign hs c b i : trig_ok L -> dgood L hs c b -> (i < d_n b)%nat ->
    let q := dquat (d_s b) (d_m b) i in let q' := dquat (d_s b) (d_m1 b) i in
    finite q -> bpow radix2 (-900) <= norm2 q <= bpow radix2 1000 ->
    all_nan q' \/ - (/ 10 ^ 14) * sqrt (norm2 q) <= inner4 q' q.
  Proof.
    intros TR G Hi. cbv zeta. destruct (dquat_new L hs c b i G Hi) as (xi & E & _). cbv zeta in E. rewrite E. clear E.
    set (q := dquat (d_s b) (d_m b) i). intros H1 H2. pose proof (dquat_list4 (d_s b) (d_m b) i) as L4. fold q in L4.
    destruct (normalize_near L q L4 H1 H2) as (Z0 & Z1 & Z2 & Z3 & UZ & N0 & N1 & N2 & N3 & S0 & S1 & S2 & S3).
    destruct (quat_update L TR q xi L4) as [_ Q2]. specialize (Q2 H1 H2). unfold DN in *.
    set (qn := @vecsVNormalize dbl (DNum L) 4 q) in *. set (u := get_c_quat (emap_to_quat xi) qn) in *.
    destruct Q2 as [[_ Q2]|[Q2 Q3]]. { left. apply (final_nan L). exact Q2. }
    right. assert (U4 : list4 u) by (do 4 eexists; reflexivity).
    pose proof (unit_small u U4 Q2 Q3) as US.
    destruct (unit4_le _ _ _ _ UZ) as (BZ0 & BZ1 & BZ2 & BZ3).
    assert (NS : forall x Z, near x Z (7.5 * uu) -> Rabs Z <= 1 -> fin x /\ Rabs (B2R x) <= 1.01).
    { intros x Z [F H] HZ. split; [exact F|]. apply abs_le in H, HZ. apply abs_le. unfold uu in *. lra. }
    assert (QS : forall k, (k < 4)%nat -> fin (@get dbl (DNum L) qn k) /\ Rabs (B2R (@get dbl (DNum L) qn k)) <= 1.01).
    { intros [|[|[|[|k]]]] Hk; [eapply NS; eassumption ..|lia]. }
    destruct (dot_near u qn US QS) as [FD ED]. unfold DN in *. set (D := vecsyadotb 4 u qn) in *.
    (* the exact product with the exact direction *)
    set (x := inner4 u q).
    assert (EX : exists y, x = sqrt (norm2 q) * y /\ Rabs (B2R D - y) <= 48 * uu).
    { destruct U4 as (a0 & a1 & a2 & a3 & EU). destruct L4 as (c0 & c1 & c2 & c3 & EQ).
      exists (B2R a0 * Z0 + B2R a1 * Z1 + B2R a2 * Z2 + B2R a3 * Z3). split.
      - unfold x. rewrite EU, EQ. rewrite inner4_list.
        rewrite EQ in S0, S1, S2, S3.
        change (get [c0; c1; c2; c3] 0) with c0 in S0. change (get [c0; c1; c2; c3] 1) with c1 in S1. change (get [c0; c1; c2; c3] 2) with c2 in S2. change (get [c0; c1; c2; c3] 3) with c3 in S3.
        rewrite <- S0, <- S1, <- S2, <- S3. rewrite <- EQ. ring.
      - pose proof (US 0%nat ltac:(lia)) as [_ U0]. pose proof (US 1%nat ltac:(lia)) as [_ U1]. pose proof (US 2%nat ltac:(lia)) as [_ U2]. pose proof (US 3%nat ltac:(lia)) as [_ U3].
        rewrite EU in ED, U0, U1, U2, U3.
        change (get [a0; a1; a2; a3] 0) with a0 in *. change (get [a0; a1; a2; a3] 1) with a1 in *. change (get [a0; a1; a2; a3] 2) with a2 in *. change (get [a0; a1; a2; a3] 3) with a3 in *.
        destruct N0 as [_ N0]. destruct N1 as [_ N1]. destruct N2 as [_ N2]. destruct N3 as [_ N3].
        assert (PE : forall a w z, Rabs a <= 1.01 -> Rabs (w - z) <= 7.5 * uu -> Rabs (a * w - a * z) <= 7.6 * uu).
        { intros a w z Ha Hw. replace (a * w - a * z) with (a * (w - z)) by ring. rewrite Rabs_mult.
          apply Rle_trans with (1.01 * (7.5 * uu)); [apply Rmult_le_compat; auto using Rabs_pos|unfold uu; lra]. }
        pose proof (PE _ _ _ U0 N0) as P0. pose proof (PE _ _ _ U1 N1) as P1. pose proof (PE _ _ _ U2 N2) as P2. pose proof (PE _ _ _ U3 N3) as P3.
        apply abs_le in P0, P1, P2, P3, ED. apply abs_le. clear - P0 P1 P2 P3 ED. unfold uu in *. lra. }
    destruct EX as (y & EX & EY). apply abs_le in EY.
    assert (PS : 0 <= sqrt (norm2 q)) by apply sqrt_pos.
    unfold gquat_final. fold D. change (@zero dbl (DNum L)) with dz. change (@nltb dbl (DNum L)) with (@Bltb 53 1024).
    destruct (Bltb D dz) eqn:EB.
    - pose proof (below D FD EB) as HD.
      assert (EI : inner4 (map (@nopp dbl (DNum L)) u) q = - x).
      { destruct U4 as (a0 & a1 & a2 & a3 & EU). destruct L4 as (c0 & c1 & c2 & c3 & EQ). unfold x. rewrite EU, EQ.
        change (map (@nopp dbl (DNum L)) [a0; a1; a2; a3]) with [Bopp a0; Bopp a1; Bopp a2; Bopp a3].
        rewrite !inner4_list, !B2R_Bopp. ring. }
      rewrite EI, EX. cbn [pow]. assert (y <= 48 * uu) by lra. unfold uu in *. clear - PS H. set (z := sqrt (norm2 q)) in *. clearbody z. nra.
    - pose proof (not_below D FD EB) as HD. fold x. rewrite EX. cbn [pow]. assert (- (48 * uu) <= y) by lra. unfold uu in *. clear - PS H. set (z := sqrt (norm2 q)) in *. clearbody z. nra.
  Qed.
End L.
