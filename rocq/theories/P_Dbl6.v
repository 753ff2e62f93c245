(** Doubles: order of doubles, accumulated shear, trace of the stress, floor of the bulk modulus, choice between q and -q. *)
From Coq Require Import List ZArith Bool Lia PeanoNat Reals Lra Psatz.
From Flocq Require Import Core IEEE754.BinarySingleNaN.
From Verif Require Import Num Arr NumR Util SlipGeom Eos Hard KinVoce KinKMBalD Elast Evptn MatModel Cases
  P_Sngl P_Batch P_Batch2 P_Batch3 P_Api P_Builtin P_Gen NumD P_Dbl P_Dbl2 P_Dbl3 P_Dbl4 P_Dbl5 SpecDbl.
Import ListNotations.
Local Open Scope R_scope.

Definition dz : dbl := B754_zero false.
Definition pinf : dbl := B754_infinity false.
Lemma Z2D_0 : Z2D 0 = dz.
Proof. reflexivity. Qed.

(** position of a double on the line, infinities beyond all numbers *)
Definition pos (x : dbl) : R := match x with B754_infinity s => if s then - bpow radix2 1024 else bpow radix2 1024 | _ => B2R x end.
Lemma pos_fin x : fin x -> pos x = B2R x.
Proof. destruct x; try discriminate; reflexivity. Qed.
Lemma fin_lt (x : dbl) : - bpow radix2 1024 < B2R x < bpow radix2 1024.
Proof. pose proof (abs_B2R_lt_emax 53 1024 x) as H. apply Rabs_lt_inv. exact H. Qed.
Lemma leb_pos (x y : dbl) : is_nan x = false -> is_nan y = false -> (Bleb x y = true <-> pos x <= pos y).
Proof.
  intros HX HY. pose proof (bpow_gt_0 radix2 1024) as P.
  assert (D : forall z : dbl, is_nan z = false -> fin z \/ exists s, z = B754_infinity s) by (intros [ | | | ]; try discriminate; eauto).
  destruct (D x HX) as [FX|[s ->]]; destruct (D y HY) as [FY|[t ->]].
  - rewrite (pos_fin x FX), (pos_fin y FY). rewrite Bleb_correct by assumption. case Rle_bool_spec; split; (lra || discriminate || reflexivity || auto).
  - rewrite (pos_fin x FX). pose proof (fin_lt x). destruct x; try discriminate; destruct t; cbn in *; (split; [intros; (discriminate || lra) | intros; (reflexivity || lra)]).
  - rewrite (pos_fin y FY). pose proof (fin_lt y). destruct y; try discriminate; destruct s; cbn in *; (split; [intros; (discriminate || lra) | intros; (reflexivity || lra)]).
  - destruct s, t; cbn; split; intros; (reflexivity || discriminate || lra).
Qed.

Definition nn (x : dbl) : Prop := is_nan x = true \/ Bleb dz x = true.
Lemma nn_cases x : nn x <-> is_nan x = true \/ x = pinf \/ fin x /\ 0 <= B2R x.
Proof.
  unfold nn. split; intros [H|H]; auto.
  - destruct (is_nan x) eqn:EN; [auto|]. apply leb_pos in H; [|reflexivity|exact EN]. right. change (pos dz) with 0 in H.
    destruct x as [s|s| |s m e B]; try discriminate EN; [right; split; [reflexivity|exact H]| |right; split; [reflexivity|exact H]].
    left. destruct s; [|reflexivity]. cbn [pos] in H. pose proof (bpow_gt_0 radix2 1024). lra.
  - right. destruct H as [->|[F H]]; [reflexivity|]. apply leb_pos; [reflexivity|destruct x; try discriminate; reflexivity|].
    rewrite (pos_fin x F). exact H.
Qed.
Lemma sign_false (x : dbl) : fin x -> 0 < B2R x -> Bsign x = false.
Proof.
  destruct x as [s|s| |s m e B]; try discriminate; cbn [B2R Bsign]; intros _ H; [lra|].
  destruct s; [|reflexivity]. exfalso. pose proof (F2R_lt_0 radix2 (Float radix2 (Z.neg m) e) ltac:(reflexivity)) as K. cbn [cond_Zopp] in H. unfold Z.opp in H. lra.
Qed.
Lemma sf_inf (x : dbl) s : B2SF x = SpecFloat.S754_infinity s -> x = B754_infinity s.
Proof. destruct x; cbn; intros H; try discriminate. congruence. Qed.

(** adding a non-negative number never goes down *)
Lemma add_mono (x y : dbl) : nn y -> is_nan (Bplus mode_NE x y) = true \/ Bleb x (Bplus mode_NE x y) = true.
Proof.
  intros H0. apply nn_cases in H0. destruct H0 as [H0|[->|[FY HY]]]; [left; apply add_nan; auto| |].
  - destruct x as [s|[|]| |s m e B]; cbn; auto.
  - destruct (is_finite x) eqn:FX.
    2:{ destruct x as [s|[|]| |s m e B]; try discriminate FX; destruct y as [t|t| |t m' e' B']; try discriminate FY; cbn; auto. }
    right. pose proof (Bplus_correct 53 1024 dprec demax mode_NE x y FX FY) as C. revert C. case Rlt_bool_spec; intros H C.
    + destruct C as (C1 & C2 & _). rewrite Bleb_correct by assumption. apply Rle_bool_true. rewrite C1.
      rewrite <- (rnd_B2R x) at 1. apply rnd_le. lra.
    + destruct C as [C1 C2]. rewrite overflow_inf in C1. apply sf_inf in C1. rewrite C1.
      assert (S : Bsign x = false).
      { destruct (Bsign x) eqn:SX; [|reflexivity]. exfalso.
        assert (HX : B2R x <= 0). { destruct (Rle_or_lt (B2R x) 0) as [|K]; [assumption|]. rewrite (sign_false x FX K) in SX. discriminate. }
        assert (HY0 : B2R y = 0). { destruct (Rle_or_lt (B2R y) 0) as [|K]; [lra|]. rewrite (sign_false y FY K) in C2. discriminate. }
        rewrite HY0, Rplus_0_r in H. change (round radix2 _ _ (B2R x)) with (rnd (B2R x)) in H. rewrite rnd_B2R in H.
        pose proof (abs_B2R_lt_emax 53 1024 x). lra. }
      rewrite S. apply leb_pos; [destruct x; try discriminate; reflexivity|reflexivity|].
      rewrite (pos_fin x FX). cbn [pos]. pose proof (fin_lt x). lra.
Qed.
Lemma add_nn (x y : dbl) : nn x -> nn y -> nn (Bplus mode_NE x y).
Proof.
  intros HX HY. destruct (add_mono x y HY) as [H|H]; [left; exact H|].
  destruct HX as [HX|HX]; [left; apply add_nan; auto|].
  destruct (is_nan (Bplus mode_NE x y)) eqn:E; [left; exact E|]. right. unfold nn.
  destruct (is_nan x) eqn:EX. { destruct x; try discriminate EX. discriminate HX. }
  apply leb_pos in H; [|assumption ..]. apply leb_pos in HX; [|reflexivity|assumption]. apply leb_pos; [reflexivity|assumption|lra].
Qed.
Lemma mul_nn (x y : dbl) : nn x -> nn y -> nn (Bmult mode_NE x y).
Proof.
  intros HX HY. apply nn_cases in HX, HY. apply nn_cases.
  destruct HX as [HX|HX]; [left; apply mul_nan; auto|]. destruct HY as [HY|HY]; [left; apply mul_nan; auto|].
  assert (SG : forall z : dbl, fin z -> 0 <= B2R z -> B2R z = 0 \/ Bsign z = false).
  { intros z FZ PZ. destruct (Rle_or_lt (B2R z) 0) as [K|K]; [left; lra|right; apply sign_false; assumption]. }
  destruct HX as [->|[FX PX]]; destruct HY as [->|[FY PY]].
  - right. left. reflexivity.
  - destruct y as [t|t| |t m e B]; try discriminate FY; cbn; [left; reflexivity|].
    right. left. destruct (SG _ FY PY) as [K|K]; cbn in K; [|rewrite K; reflexivity].
    exfalso. apply eq_0_F2R in K. destruct t; discriminate K.
  - destruct x as [t|t| |t m e B]; try discriminate FX; cbn; [left; reflexivity|].
    right. left. destruct (SG _ FX PX) as [K|K]; cbn in K; [|rewrite K; reflexivity].
    exfalso. apply eq_0_F2R in K. destruct t; discriminate K.
  - right. pose proof (Bmult_correct 53 1024 dprec demax mode_NE x y) as C. revert C. case Rlt_bool_spec; intros H C.
    + destruct C as (C1 & C2 & _). right. rewrite C2, FX, FY. split; [reflexivity|]. rewrite C1. apply rnd_nonneg. now apply Rmult_le_pos.
    + left. rewrite overflow_inf in C. apply sf_inf in C. rewrite C.
      assert (R0 : forall z, z = 0 -> Rabs (rnd z) >= bpow radix2 1024 -> False).
      { intros z -> K. rewrite rnd_0, Rabs_R0 in K. pose proof (bpow_gt_0 radix2 1024). lra. }
      destruct (SG _ FX PX) as [K|K]; [exfalso; apply (R0 (B2R x * B2R y)); [rewrite K; ring|apply Rle_ge; exact H]|].
      destruct (SG _ FY PY) as [K2|K2]; [exfalso; apply (R0 (B2R x * B2R y)); [rewrite K2; ring|apply Rle_ge; exact H]|].
      rewrite K, K2. reflexivity.
Qed.
Lemma abs_nn (x : dbl) : nn (Babs x).
Proof.
  apply nn_cases. destruct x as [s|s| |s m e B]; cbn; auto. right. right. split; [reflexivity|lra].
  right. right. split; [reflexivity|]. apply F2R_ge_0. cbn. lia.
Qed.

Section L.
  Variable L : Libm.
  Let DN : Num dbl := DNum L.
  #[local] Existing Instance DN.

  Lemma sumabs_nn n (a : list dbl) : nn (vecsssumabs n a).
  Proof.
    unfold vecsssumabs. induction n as [|n IH]; [rewrite sum_0; right; reflexivity|]. rewrite sum_S. apply add_nn; [exact IH|apply abs_nn].
  Qed.

  (** accumulated shear *)
  Lemma dcall_shear hs c b i : dgood L hs c b -> (i < d_n b)%nat ->
    let s := d_s b in
    nn (dval s (d_m1 b) AH i 0) /\
    dval s (d_m1 b) AH i 1 = Bplus mode_NE (dval s (d_m b) AH i 1) (Bmult mode_NE (dval s (d_m1 b) AH i 0) (d_dt b)) /\
    (nn (d_dt b) -> is_nan (dval s (d_m1 b) AH i 1) = true \/ Bleb (dval s (d_m b) AH i 1) (dval s (d_m1 b) AH i 1) = true).
  Proof.
    intros G Hi. cbv zeta. destruct (dres L hs c b i G Hi) as (mat & tol & h_u & p & r & v & nf & gm & _ & _ & HP & HR & Rs).
    pose proof (g_shrateEff _ _ _ _ _ _ _ _ _ _ _ _ _ _ Rs) as E0. pose proof (g_shrEff _ _ _ _ _ _ _ _ _ _ _ _ _ _ Rs) as E1.
    unfold iHistA_shrateEff, iHistA_shrEff in E0, E1. pose proof (dhist_out L hs c b i G Hi) as HO. pose proof (dhist_in L hs c b i G Hi) as HI.
    unfold DN in *. rewrite HO in E0, E1 by lia. rewrite HI in E1 by lia. rewrite E1, E0.
    assert (NV : nn (ev_shrateEff v)).
    { rewrite (g_v _ _ _ _ _ _ _ _ _ _ _ _ _ _ Rs). exact (sumabs_nn _ _). }
    split; [exact NV|]. split; [reflexivity|]. intros HD. apply add_mono. now apply mul_nn.
  Qed.
End L.
