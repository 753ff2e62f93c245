(** Doubles: the slip-system tables of the cubic crystals and the Schmid data made from them. *)
From Coq Require Import List ZArith Bool Lia Reals Lra.
From Flocq Require Import Core IEEE754.BinarySingleNaN.
From Verif Require Import Num Arr NumR Util Const SpecConst P_Const Prop_Const SlipGeom SpecSlip P_Slip NumD P_Dbl P_Dbl2 SpecDbl P_Dbl3 P_Dbl4 SpecTensor SpecDblGeom.
Import ListNotations.
Local Open Scope R_scope.

(** a double within [e] of a real of size at most [M] *)
Definition nb (x : dbl) (X e M : R) : Prop := fin x /\ Rabs (B2R x - X) <= e /\ Rabs X <= M.
Lemma nb_weak x X e M e' M' : nb x X e M -> e <= e' -> M <= M' -> nb x X e' M'.
Proof. intros (F & H & K) He HM. split; [exact F|]. split; lra. Qed.
Lemma nb_pos x X e M : nb x X e M -> 0 <= e /\ 0 <= M.
Proof. intros (_ & H & K). pose proof (Rabs_pos (B2R x - X)). pose proof (Rabs_pos X). lra. Qed.
Lemma nb_eta : eta <= uu / 1000.
Proof. exact eta_uu. Qed.
Lemma nb_opp x X e M : nb x X e M -> nb (Bopp x) (- X) e M.
Proof.
  intros (F & H & K). split; [now rewrite is_finite_Bopp|]. rewrite B2R_Bopp, Rabs_Ropp. split; [|exact K].
  replace (- B2R x - - X) with (- (B2R x - X)) by ring. now rewrite Rabs_Ropp.
Qed.
Lemma nb_mul a b A B e f M P : nb a A e M -> nb b B f P -> M <= 10 -> P <= 10 -> e <= 1 -> f <= 1 ->
  nb (Bmult mode_NE a b) (A * B) (M * f + P * e + e * f + uu * (M * P + M * f + P * e + e * f + 0.001)) (M * P).
Proof.
  intros HA HB HM HP He Hf. pose proof (nb_pos _ _ _ _ HA) as [e0 M0]. pose proof (nb_pos _ _ _ _ HB) as [f0 P0].
  destruct HA as (FA & EA & BA), HB as (FB & EB & BB).
  set (da := B2R a - A) in *. set (db := B2R b - B) in *.
  assert (E : B2R a * B2R b - A * B = A * db + B * da + da * db) by (unfold da, db; ring).
  assert (X1 : Rabs (A * db) <= M * f) by (rewrite Rabs_mult; apply Rmult_le_compat; auto using Rabs_pos).
  assert (X2 : Rabs (B * da) <= P * e) by (rewrite Rabs_mult; apply Rmult_le_compat; auto using Rabs_pos).
  assert (X3 : Rabs (da * db) <= e * f) by (rewrite Rabs_mult; apply Rmult_le_compat; auto using Rabs_pos).
  assert (X4 : Rabs (A * B) <= M * P) by (rewrite Rabs_mult; apply Rmult_le_compat; auto using Rabs_pos).
  clearbody da db.
  assert (C1 : M * f <= 10 * 1) by (apply Rmult_le_compat; lra). assert (C2 : P * e <= 10 * 1) by (apply Rmult_le_compat; lra).
  assert (C3 : e * f <= 1 * 1) by (apply Rmult_le_compat; lra). assert (C4 : M * P <= 10 * 10) by (apply Rmult_le_compat; lra).
  set (Mf := M * f) in *. set (Pe := P * e) in *. set (ef := e * f) in *. set (MP := M * P) in *. clearbody Mf Pe ef MP.
  set (ab := A * B) in *. clearbody ab. set (p := B2R a * B2R b) in *.
  assert (D : Rabs (p - ab) <= Mf + Pe + ef). { rewrite E. apply abs_le in X1, X2, X3. apply abs_le. lra. }
  assert (D2 : Rabs p <= MP + Mf + Pe + ef). { apply abs_le in D, X4. apply abs_le. lra. }
  destruct (mul_ok a b FA FB) as [F R]. { fold p. pose proof big_10. lra. }
  split; [exact F|]. split; [|exact X4]. rewrite R. fold p. clearbody p.
  pose proof (rnd_err p) as H. pose proof nb_eta.
  assert (uu * Rabs p <= uu * (MP + Mf + Pe + ef)) by (apply Rmult_le_compat_l; [unfold uu; lra|exact D2]).
  apply abs_le in H, D. apply abs_le. lra.
Qed.
Lemma nb_sum x y X Y e f M P (s : bool) : nb x X e M -> nb y Y f P -> M <= 100 -> P <= 100 -> e <= 1 -> f <= 1 ->
  nb (if s then Bplus mode_NE x y else Bminus mode_NE x y) (if s then X + Y else X - Y)
     (e + f + uu * (M + P + e + f + 0.001)) (M + P).
Proof.
  intros HX HY HM HP He Hf. destruct HX as (FX & EX & BX), HY as (FY & EY & BY). apply abs_le in EX, EY, BX, BY.
  set (p := if s then B2R x + B2R y else B2R x - B2R y).
  assert (B : Rabs p <= M + P + e + f) by (unfold p; destruct s; apply abs_le; lra).
  assert (O : fin (if s then Bplus mode_NE x y else Bminus mode_NE x y) /\ B2R (if s then Bplus mode_NE x y else Bminus mode_NE x y) = rnd p).
  { destruct s; [apply add_ok|apply sub_ok]; try assumption; fold p; pose proof big_10; lra. }
  destruct O as [F R]. split; [exact F|]. rewrite R. pose proof (rnd_err p) as H. pose proof nb_eta.
  assert (uu * Rabs p <= uu * (M + P + e + f)) by (apply Rmult_le_compat_l; [unfold uu; lra|exact B]).
  apply abs_le in H. split; [|destruct s; apply abs_le; lra].
  apply abs_le. assert (- (e + f) <= p - (if s then X + Y else X - Y) <= e + f) by (unfold p; destruct s; lra). lra.
Qed.
Lemma nb_add x y X Y e f M P : nb x X e M -> nb y Y f P -> M <= 100 -> P <= 100 -> e <= 1 -> f <= 1 ->
  nb (Bplus mode_NE x y) (X + Y) (e + f + uu * (M + P + e + f + 0.001)) (M + P).
Proof. exact (nb_sum x y X Y e f M P true). Qed.
Lemma nb_sub x y X Y e f M P : nb x X e M -> nb y Y f P -> M <= 100 -> P <= 100 -> e <= 1 -> f <= 1 ->
  nb (Bminus mode_NE x y) (X - Y) (e + f + uu * (M + P + e + f + 0.001)) (M + P).
Proof. exact (nb_sum x y X Y e f M P false). Qed.
Lemma nb_Z z : (Z.abs z <= 2 ^ 53)%Z -> nb (Z2D z) (IZR z) 0 (Rabs (IZR z)).
Proof. intros H. destruct (Z2D_ok z H) as [F E]. split; [exact F|]. rewrite E, Rminus_diag_eq, Rabs_R0 by reflexivity. lra. Qed.

(** the literals of the constants header *)
Lemma value_Rlit l : value l = Rlit (fst l) (snd l).
Proof.
  destruct l as [m [|q|q]]; cbn [fst snd].
  - unfold value. cbn [fst snd powerRZ]. unfold Rlit. rewrite Rmult_1_r. f_equal. cbn. lia.
  - exact (dec_pos m q).
  - exact (dec_neg m q).
Qed.
Lemma nb_const l x : close l x -> 0.1 <= x <= 4 -> nb (dconst l) x (2 * uu * x) x.
Proof.
  intros C Hx. unfold close in C. rewrite value_Rlit in C. set (v := Rlit (fst l) (snd l)) in *.
  rewrite (Rabs_pos_eq x) in C by lra.
  assert (C' : Rabs (v - x) <= 0.91 * uu * x).
  { eapply Rle_trans; [exact C|]. apply Rmult_le_compat_r; [lra|]. cbn [pow]. unfold uu. lra. }
  assert (V : Rabs v <= 1.01 * x). { apply abs_le in C'. apply abs_le. unfold uu in *. lra. }
  unfold dconst. fold v. destruct (R2D_ok v) as [F E]. { pose proof big_10. lra. }
  split; [exact F|]. rewrite E, (Rabs_pos_eq x) by lra. split; [|lra]. pose proof (rnd_err v) as H.
  assert (uu * Rabs v <= uu * (1.01 * x)) by (apply Rmult_le_compat_l; [unfold uu; lra|exact V]).
  pose proof nb_eta. assert (uu * 0.1 <= uu * x) by (apply Rmult_le_compat_l; [unfold uu; lra|lra]).
  apply abs_le in H, C'. apply abs_le. lra.
Qed.

Lemma Rle_div_l a b c : 0 < c -> a <= b * c -> a / c <= b.
Proof. intros Hc H. apply (Rmult_le_reg_r c); [exact Hc|]. unfold Rdiv. rewrite Rmult_assoc, Rinv_l by lra. lra. Qed.
Definition tabnear (e : R) : list dbl -> list R -> Prop := Forall2 (fun x X => nb x X e 1).
Lemma tabnear_get e a b : tabnear e a b -> forall k, (k < length a)%nat -> nb (nth k a B754_nan) (nth k b 0) e 1.
Proof. induction 1; cbn [length]; intros k Hk; [lia|]. destruct k; [assumption|]. cbn [nth]. apply IHForall2. lia. Qed.

Section L.
  Variable L : Libm.
  Let DN := DNum L.
  #[local] Existing Instance DN.

  Lemma nb_half : nb (nlit 5 (-1) : dbl) (/ 2) 0 (/ 2).
  Proof. destruct (half_ok L) as [F E]. unfold DN in *. split; [exact F|]. rewrite E, Rminus_diag_eq, Rabs_R0, Rabs_pos_eq by lra. lra. Qed.

  Lemma roots_vals : 1.4142 <= sqrt 2 <= 1.4143 /\ 1.7320 <= sqrt 3 <= 1.7321 /\ 2.4494 <= sqrt 6 <= 2.4495.
  Proof.
    assert (S : forall a x y, 0 <= x -> 0 <= y -> x * x <= a <= y * y -> x <= sqrt a <= y).
    { intros a x y Hx Hy H. split; [rewrite <- (sqrt_square x Hx)|rewrite <- (sqrt_square y Hy)]; apply sqrt_le_1_alt; lra. }
    repeat split; (apply (S _ _ 10) || apply (S _ 0) || idtac); try lra.
  Qed.
  Lemma inv_val a x y : 0 < x -> x <= sqrt a <= y -> / y <= 1 / sqrt a <= / x.
  Proof. intros H0 H. unfold Rdiv. rewrite Rmult_1_l. split; apply Rinv_le_contravar; lra. Qed.
  Lemma nb_sqr2 : nb (sqr2 : dbl) sqr2 (2.9 * uu) 1.4143.
  Proof.
    destruct model_roots as (E & _). rewrite E. destruct C37_roots as (C & _). destruct roots_vals as (V & _).
    eapply nb_weak; [apply (nb_const _ _ C); lra| |]; unfold uu in *; lra.
  Qed.
  Lemma nb_sqr2i : nb (sqr2i : dbl) sqr2i (1.5 * uu) 0.7072.
  Proof.
    destruct model_roots as (_ & _ & _ & _ & _ & E & _). rewrite E. destruct C37_roots as (_ & _ & _ & _ & _ & C & _).
    destruct roots_vals as (V & _). apply inv_val in V; [|lra].
    eapply nb_weak; [apply (nb_const _ _ C); lra| |]; unfold uu in *; lra.
  Qed.
  Lemma nb_sqr3i : nb (sqr3i : dbl) sqr3i (1.2 * uu) 0.5774.
  Proof.
    destruct model_roots as (_ & _ & _ & _ & _ & _ & E & _). rewrite E. destruct C37_roots as (_ & _ & _ & _ & _ & _ & C & _).
    destruct roots_vals as (_ & V & _). apply inv_val in V; [|lra].
    eapply nb_weak; [apply (nb_const _ _ C); lra| |]; unfold uu in *; lra.
  Qed.
  Lemma nb_sqr6i : nb (sqr6i : dbl) sqr6i (0.9 * uu) 0.4083.
  Proof.
    destruct model_roots as (_ & _ & _ & _ & _ & _ & _ & E & _). rewrite E. destruct C37_roots as (_ & _ & _ & _ & _ & _ & _ & C & _).
    destruct roots_vals as (_ & _ & V). apply inv_val in V; [|lra].
    eapply nb_weak; [apply (nb_const _ _ C); lra| |]; unfold uu in *; lra.
  Qed.
  Lemma eps_ok : fin (idp_eps_sqrt : dbl) /\ / 1000000000 <= B2R (idp_eps_sqrt : dbl).
  Proof.
    assert (E : (idp_eps_sqrt : dbl) = R2D (/ 100000000)).
    { unfold idp_eps_sqrt. cbn [nlit DN DNum]. f_equal. unfold Rlit. change (10 ^ 8)%Z with 100000000%Z. lra. }
    rewrite E. destruct (R2D_ok (/ 100000000)) as [F V]. { rewrite Rabs_pos_eq by lra. pose proof big_10. lra. }
    split; [exact F|]. rewrite V. pose proof (rnd_err (/ 100000000)) as H. rewrite (Rabs_pos_eq (/ 100000000)) in H by lra.
    apply abs_le in H. pose proof nb_eta. unfold uu in *. lra.
  Qed.
  Section Fill.
    Variables (mD sD : list dbl) (mR sR : list R) (n : nat).
    Variable E : R.
    Hypothesis E1 : 5 * uu <= E.
    Hypothesis E2 : E <= 6000 * uu.
    Hypothesis EE : E * E <= / 1000 * E.
    Hypothesis LM : length mD = (n * 3)%nat.
    Hypothesis LS : length sD = (n * 3)%nat.
    Hypothesis HM : tabnear E mD mR.
    Hypothesis HS : tabnear E sD sR.
    Ltac eu := unfold uu in *; lra.

    Lemma row_near (aD : list dbl) aR i k : length aD = (n * 3)%nat -> tabnear E aD aR -> (i < n)%nat -> (k < 3)%nat ->
      nb (get (row3 aD i) k) (get (row3 aR i) k) E 1.
    Proof.
      intros HL H Hi Hk. unfold row3. rewrite !get_sub by assumption. apply (tabnear_get _ _ _ H). lia.
    Qed.
    Lemma prod_nb a b A B : nb a A E 1 -> nb b B E 1 -> nb (Bmult mode_NE a b) (A * B) (2.22 * E) 1.
    Proof.
      intros HA HB. eapply nb_weak; [apply (nb_mul a b A B _ _ 1 1 HA HB); eu| |]; eu.
    Qed.
    Lemma dot3_near i : (i < n)%nat -> nb (vecsyadotb 3 (row3 mD i) (row3 sD i)) (vecsyadotb 3 (row3 mR i) (row3 sR i)) (10 * E) 3.
    Proof.
      intros Hi. unfold vecsyadotb. rewrite !sum_S, !sum_0. cbn [nadd nmul nZ DN DNum RNum].
      pose proof (fun k Hk => row_near mD mR i k LM HM Hi Hk) as A. pose proof (fun k Hk => row_near sD sR i k LS HS Hi Hk) as B.
      pose proof (fun k Hk => prod_nb _ _ _ _ (A k Hk) (B k Hk)) as P.
      pose proof (P 0%nat ltac:(lia)) as P0. pose proof (P 1%nat ltac:(lia)) as P1. pose proof (P 2%nat ltac:(lia)) as P2. clear P A B.
      pose proof (nb_Z 0 ltac:(cbn; lia)) as Z0. rewrite Rabs_R0 in Z0.
      pose proof (nb_add _ _ _ _ _ _ _ _ Z0 P0 ltac:(lra) ltac:(lra) ltac:(lra) ltac:(eu)) as S0.
      apply nb_weak with (e' := 2.44 * E) (M' := 1) in S0; [|eu|lra].
      pose proof (nb_add _ _ _ _ _ _ _ _ S0 P1 ltac:(lra) ltac:(lra) ltac:(eu) ltac:(eu)) as S1.
      apply nb_weak with (e' := 5.1 * E) (M' := 2) in S1; [|eu|lra].
      pose proof (nb_add _ _ _ _ _ _ _ _ S1 P2 ltac:(lra) ltac:(lra) ltac:(eu) ltac:(eu)) as S2.
      eapply nb_weak; [exact S2| |]; eu.
    Qed.

    Let TD i := vecsMaTb 3 (row3 sD i) (row3 mD i).
    Let TR i := vecsMaTb 3 (row3 sR i) (row3 mR i).
    Lemma T_near i a b : (i < n)%nat -> (a < 3)%nat -> (b < 3)%nat -> nb (get2 3 (TD i) a b) (get2 3 (TR i) a b) (2.22 * E) 1.
    Proof.
      intros Hi Ha Hb. unfold TD, TR, vecsMaTb. rewrite !get2_tab2 by assumption.
      apply prod_nb; apply row_near; assumption.
    Qed.
    Lemma rhalf : (nlit 5 (-1) : R) = / 2.
    Proof. cbn [nlit RNum]. unfold Rlit. change (10 ^ 1)%Z with 10%Z. lra. Qed.
    Lemma sym_near i a b : (i < n)%nat -> (a < 3)%nat -> (b < 3)%nat ->
      nb (get2 3 (vecsMsymm 3 (TD i)) a b) (get2 3 (vecsMsymm 3 (TR i)) a b) (2.7 * E) 1.
    Proof.
      intros Hi Ha Hb. unfold vecsMsymm. rewrite !get2_tab2 by assumption.
      pose proof (T_near i a b Hi Ha Hb) as P0. pose proof (T_near i b a Hi Hb Ha) as P1.
      pose proof (nb_add _ _ _ _ _ _ _ _ P0 P1 ltac:(lra) ltac:(lra) ltac:(eu) ltac:(eu)) as S0.
      pose proof (nb_mul _ _ _ _ _ _ _ _ nb_half S0 ltac:(lra) ltac:(lra) ltac:(lra) ltac:(eu)) as S1.
      rewrite rhalf. eapply nb_weak; [exact S1| |]; eu.
    Qed.
    Lemma skw_near i a b : (i < n)%nat -> (a < 3)%nat -> (b < 3)%nat ->
      nb (get2 3 (vecsMskew 3 (TD i)) a b) (get2 3 (vecsMskew 3 (TR i)) a b) (2.7 * E) 1.
    Proof.
      intros Hi Ha Hb. unfold vecsMskew. rewrite !get2_tab2 by assumption.
      pose proof (T_near i a b Hi Ha Hb) as P0. pose proof (T_near i b a Hi Hb Ha) as P1.
      pose proof (nb_sub _ _ _ _ _ _ _ _ P0 P1 ltac:(lra) ltac:(lra) ltac:(eu) ltac:(eu)) as S0.
      pose proof (nb_mul _ _ _ _ _ _ _ _ nb_half S0 ltac:(lra) ltac:(lra) ltac:(lra) ltac:(eu)) as S1.
      rewrite rhalf. eapply nb_weak; [exact S1| |]; eu.
    Qed.
    Lemma Q_near i k : (i < n)%nat -> (k < 3)%nat ->
      nb (get (snd (schmidPQ (row3 mD i) (row3 sD i))) k) (get (snd (schmidPQ (row3 mR i) (row3 sR i))) k) (8 * E) 4.
    Proof.
      intros Hi Hk. unfold schmidPQ, matToPQ. cbn [snd]. fold (TD i) (TR i). unfold skewToVeccp.
      pose proof (fun a b => skw_near i a b Hi) as S.
      destruct k as [|[|[|k]]]; try lia; (eapply nb_weak; [apply S; lia| |]; eu).
    Qed.
    Lemma P_near i k : (i < n)%nat -> (k < 5)%nat ->
      nb (get (fst (schmidPQ (row3 mD i) (row3 sD i))) k) (get (fst (schmidPQ (row3 mR i) (row3 sR i))) k) (8 * E) 4.
    Proof.
      intros Hi Hk. unfold schmidPQ, matToPQ. cbn [fst]. fold (TD i) (TR i). unfold symmToVecd.
      pose proof (fun a b => sym_near i a b Hi) as S.
      pose proof (nb_Z 2 ltac:(cbn; lia)) as Z2. rewrite (Rabs_pos_eq 2) in Z2 by lra.
      pose proof (S 0 0 ltac:(lia) ltac:(lia))%nat as A00. pose proof (S 1 1 ltac:(lia) ltac:(lia))%nat as A11.
      pose proof (S 2 2 ltac:(lia) ltac:(lia))%nat as A22.
      destruct k as [|[|k]].
      - pose proof (nb_sub _ _ _ _ _ _ _ _ A00 A11 ltac:(lra) ltac:(lra) ltac:(eu) ltac:(eu)) as S0.
        pose proof (nb_mul _ _ _ _ _ _ _ _ nb_sqr2i S0 ltac:(lra) ltac:(lra) ltac:(eu) ltac:(eu)) as S1.
        eapply nb_weak; [exact S1| |]; eu.
      - pose proof (nb_mul _ _ _ _ _ _ _ _ Z2 A22 ltac:(lra) ltac:(lra) ltac:(eu) ltac:(eu)) as S0.
        pose proof (nb_sub _ _ _ _ _ _ _ _ S0 A00 ltac:(lra) ltac:(lra) ltac:(eu) ltac:(eu)) as S1.
        pose proof (nb_sub _ _ _ _ _ _ _ _ S1 A11 ltac:(lra) ltac:(lra) ltac:(eu) ltac:(eu)) as S2.
        pose proof (nb_mul _ _ _ _ _ _ _ _ nb_sqr6i S2 ltac:(lra) ltac:(lra) ltac:(eu) ltac:(eu)) as S3.
        eapply nb_weak; [exact S3| |]; eu.
      - assert (G : forall a b, (a < 3)%nat -> (b < 3)%nat ->
          nb (Bmult mode_NE (sqr2 : dbl) (get2 3 (vecsMsymm 3 (TD i)) a b)) ((sqr2 : R) * get2 3 (vecsMsymm 3 (TR i)) a b) (8 * E) 4).
        { intros a b Ha Hb. pose proof (S a b Ha Hb) as A.
          pose proof (nb_mul _ _ _ _ _ _ _ _ nb_sqr2 A ltac:(lra) ltac:(lra) ltac:(eu) ltac:(eu)) as S1.
          eapply nb_weak; [exact S1| |]; eu. }
        destruct k as [|[|[|k]]]; try lia; apply G; lia.
    Qed.

    Lemma fill_near gR : (forall i, (i < n)%nat -> vecsyadotb 3 (row3 mR i) (row3 sR i) = 0) -> fillFromMS mR sR n = Some gR ->
      exists g : SlipGeom dbl, fillFromMS mD sD n = Some g /\ sg_nslip g = n /\ length (sg_P g) = (5 * n)%nat /\ length (sg_Q g) = (3 * n)%nat /\
        (forall i k, (i < n)%nat -> (k < 5)%nat -> nb (nth (k * n + i) (sg_P g) B754_nan) (nth (k * n + i) (sg_P gR) 0) (8 * E) 4) /\
        (forall i k, (i < n)%nat -> (k < 3)%nat -> nb (nth (k * n + i) (sg_Q g) B754_nan) (nth (k * n + i) (sg_Q gR) 0) (8 * E) 4).
    Proof.
      intros H0 HG. unfold fillFromMS in HG. destruct existsb; [discriminate|]. injection HG as <-.
      unfold fillFromMS.
      assert (EX : existsb (fun iS => (idp_eps_sqrt <? nabs (vecsyadotb 3 (row3 mD iS) (row3 sD iS)))%num) (seq 0 n) = false).
      { apply not_true_iff_false. intros Ex. apply existsb_exists in Ex. destruct Ex as (i & Hi & Hx).
        apply in_seq in Hi. destruct (dot3_near i) as (F & N & _); [lia|]. rewrite H0 in N by lia.
        set (d := vecsyadotb 3 (row3 mD i) (row3 sD i)) in *. clearbody d. cbn [nltb nabs DN DNum] in Hx.
        destruct eps_ok as [FE VE].
        rewrite Bltb_correct in Hx; [|exact FE|now rewrite is_finite_Babs].
        rewrite B2R_Babs in Hx. revert Hx. case Rlt_bool_spec; [|discriminate]. intros Hx _.
        rewrite Rminus_0_r in N. eu. }
      rewrite EX. eexists. split; [reflexivity|]. split; [reflexivity|]. cbn [sg_P sg_Q sg_nslip].
      split; [apply tab2_length|]. split; [apply tab2_length|]. split; intros i k Hi Hk.
      - pose proof (P_near i k Hi Hk) as H.
        change (nth (k * n + i) ?l B754_nan) with (get2 n l k i). change (nth (k * n + i) ?l 0) with (get2 n l k i).
        rewrite !get2_tab2 by assumption. exact H.
      - pose proof (Q_near i k Hi Hk) as H.
        change (nth (k * n + i) ?l B754_nan) with (get2 n l k i). change (nth (k * n + i) ?l 0) with (get2 n l k i).
        rewrite !get2_tab2 by assumption. exact H.
    Qed.
  End Fill.

  (** ** The tables *)
  Lemma e3 : nb (sqr3i : dbl) sqr3i (5 * uu) 1.  Proof. eapply nb_weak; [exact nb_sqr3i| |]; unfold uu; lra. Qed.
  Lemma e2 : nb (sqr2i : dbl) sqr2i (5 * uu) 1.  Proof. eapply nb_weak; [exact nb_sqr2i| |]; unfold uu; lra. Qed.
  Lemma e6 : nb (sqr6i : dbl) sqr6i (5 * uu) 1.  Proof. eapply nb_weak; [exact nb_sqr6i| |]; unfold uu; lra. Qed.
  Lemma e0 : nb (zero : dbl) zero (5 * uu) 1.
  Proof. pose proof (nb_Z 0 ltac:(cbn; lia)) as H. rewrite Rabs_R0 in H. eapply nb_weak; [exact H| |]; unfold uu; lra. Qed.
  Lemma e26 : nb (nZ 2 * sqr6i : dbl)%num (nZ 2 * sqr6i : R)%num (5 * uu) 1.
  Proof.
    pose proof (nb_Z 2 ltac:(cbn; lia)) as Z2. rewrite (Rabs_pos_eq 2) in Z2 by lra.
    pose proof (nb_mul _ _ _ _ _ _ _ _ Z2 nb_sqr6i ltac:(lra) ltac:(lra) ltac:(unfold uu; lra) ltac:(unfold uu; lra)) as S0.
    eapply nb_weak; [exact S0| |]; unfold uu; lra.
  Qed.
  Lemma r14 : 3.7416 <= sqrt 14 <= 3.7417.
  Proof.
    split; [rewrite <- (sqrt_square 3.7416) by lra|rewrite <- (sqrt_square 3.7417) by lra]; apply sqrt_le_1_alt; lra.
  Qed.
  Lemma e14 z : (0 <= z <= 3)%Z -> nb (nZ z / nsqrt (nZ 14) : dbl)%num (nZ z / nsqrt (nZ 14) : R)%num (5 * uu) 1.
  Proof.
    intros Hz. cbn [nZ ndiv nsqrt DN DNum RNum]. destruct (Z2D_ok 14 ltac:(cbn; lia)) as [F14 V14]. destruct (Z2D_ok z ltac:(cbn; lia)) as [FZ VZ].
    destruct (sqrt_ok _ F14) as [FS VS]; [rewrite V14; lra|]. rewrite V14 in VS. pose proof r14 as R. pose proof (rnd_err (sqrt 14)) as HS.
    rewrite <- VS, (Rabs_pos_eq (sqrt 14)) in HS by lra. set (x := Bsqrt mode_NE (Z2D 14)) in *. clearbody x. set (r := sqrt 14) in *. clearbody r.
    pose proof nb_eta. assert (HX : Rabs (B2R x - r) <= 3.75 * uu) by (unfold uu in *; lra).
    assert (Z3 : 0 <= IZR z <= 3) by (split; apply IZR_le; lia). set (t := IZR z) in *. clearbody t.
    assert (XB : 3.74 <= B2R x <= 3.742). { apply abs_le in HX. unfold uu in *. lra. }
    assert (Q : 0 <= t / B2R x <= 0.81).
    { split; [apply Rmult_le_pos; [lra|left; apply Rinv_0_lt_compat; lra]|]. apply Rle_div_l; lra. }
    assert (Q2 : 0 <= t / r <= 0.81).
    { split; [apply Rmult_le_pos; [lra|left; apply Rinv_0_lt_compat; lra]|]. apply Rle_div_l; lra. }
    destruct (div_ok (Z2D z) x FZ) as [F V]; [lra|rewrite VZ, Rabs_pos_eq by lra; pose proof big_10; lra|]. rewrite VZ in V.
    split; [exact F|]. split; [|rewrite Rabs_pos_eq by lra; lra]. rewrite V. pose proof (rnd_err (t / B2R x)) as HR.
    rewrite (Rabs_pos_eq (t / B2R x)) in HR by lra.
    assert (D : Rabs (t / B2R x - t / r) <= 0.9 * uu).
    { replace (t / B2R x - t / r) with (t / B2R x * ((r - B2R x) / r)) by (field; lra).
      rewrite Rabs_mult, (Rabs_pos_eq (t / B2R x)) by lra.
      assert (Rabs ((r - B2R x) / r) <= 1.01 * uu).
      { unfold Rdiv. rewrite Rabs_mult, (Rabs_pos_eq (/ r)) by (left; apply Rinv_0_lt_compat; lra).
        rewrite (Rabs_minus_sym r). apply Rle_div_l; [lra|]. eapply Rle_trans; [exact HX|]. unfold uu. lra. }
      apply Rle_trans with (0.81 * (1.01 * uu)); [apply Rmult_le_compat; try lra; apply Rabs_pos|unfold uu; lra]. }
    assert (uu * (t / B2R x) <= uu * 0.81) by (apply Rmult_le_compat_l; [unfold uu|]; lra).
    apply abs_le in HR, D. apply abs_le. unfold uu in *. lra.
  Qed.

  Ltac tabn := unfold tabnear;
    repeat (apply Forall2_cons; [first [exact e3|exact e2|exact e6|exact e0|exact e26|exact (nb_opp _ _ _ _ e3)|exact (nb_opp _ _ _ _ e2)|exact (nb_opp _ _ _ _ e6)|exact (nb_opp _ _ _ _ e26)]|]); try apply Forall2_nil.
  Lemma fcc_m_near : tabnear (5 * uu) fcc_m fcc_m.  Proof. unfold fcc_m. tabn. Qed.
  Lemma fcc_s_near : tabnear (5 * uu) fcc_s fcc_s.  Proof. unfold fcc_s. tabn. Qed.
  Lemma bcc_m0_near : tabnear (5 * uu) bcc_m0 bcc_m0.  Proof. exact fcc_s_near. Qed.
  Lemma bcc_s0_near : tabnear (5 * uu) bcc_s0 bcc_s0.  Proof. exact fcc_m_near. Qed.
  Lemma bcc_sB_near : tabnear (5 * uu) bcc_sB bcc_sB.  Proof. unfold bcc_sB. tabn. Qed.
  Lemma bcc_mA_near : tabnear (5 * uu) bcc_mA bcc_mA.  Proof. unfold bcc_mA. cbv zeta. tabn. Qed.
  Lemma bcc_mB_near : tabnear (5 * uu) bcc_mB bcc_mB.
  Proof.
    pose proof (e14 1 ltac:(lia)) as A. pose proof (e14 2 ltac:(lia)) as B. pose proof (e14 3 ltac:(lia)) as C.
    pose proof (nb_opp _ _ _ _ A) as A'. pose proof (nb_opp _ _ _ _ B) as B'. pose proof (nb_opp _ _ _ _ C) as C'.
    unfold bcc_mB, tabnear. cbv zeta. repeat (apply Forall2_cons; [first [exact A|exact A'|exact B|exact B'|exact C|exact C']|]). apply Forall2_nil.
  Qed.
  Lemma bcc_m_near n : tabnear (5 * uu) (bcc_m n) (bcc_m n).
  Proof.
    unfold bcc_m. apply Forall2_app; [exact bcc_m0_near|]. apply Forall2_app; destruct Nat.leb; try apply Forall2_nil; [exact bcc_mA_near|exact bcc_mB_near].
  Qed.
  Lemma bcc_s_near n : tabnear (5 * uu) (bcc_s n) (bcc_s n).
  Proof.
    unfold bcc_s. apply Forall2_app; [exact bcc_s0_near|]. apply Forall2_app; destruct Nat.leb; try apply Forall2_nil; [exact bcc_s0_near|exact bcc_sB_near].
  Qed.

  Lemma near_of (mD sD : list dbl) (mR sR : list R) n E tol (m s : nat -> V3) gR : 5 * uu <= E -> E <= 6000 * uu -> 8 * E <= tol ->
    length mD = (n * 3)%nat -> length sD = (n * 3)%nat -> tabnear E mD mR -> tabnear E sD sR ->
    (forall i, (i < n)%nat -> vecsyadotb 3 (row3 mR i) (row3 sR i) = 0) -> fillFromMS mR sR n = Some gR ->
    schmid_data (sg_P gR) (sg_Q gR) n m s ->
    exists g : SlipGeom dbl, fillFromMS mD sD n = Some g /\ sg_nslip g = n /\ schmid_near tol (sg_P g) (sg_Q g) n m s.
  Proof.
    intros E1 E2 ET H1 H2 H3 H4 H5 H6 (_ & _ & H7). assert (EE : E * E <= / 1000 * E) by (apply Rmult_le_compat_r; unfold uu in *; lra).
    destruct (fill_near mD sD mR sR n E E1 E2 EE H1 H2 H3 H4 gR H5 H6) as (g & G1 & G2 & G3 & G4 & GP & GQ).
    exists g. split; [exact G1|]. split; [exact G2|]. split; [exact G3|]. split; [exact G4|]. intros i Hi. destruct (H7 i Hi) as [HP HQ].
    assert (W : forall x X, nb x X (8 * E) 4 -> within x X tol).
    { intros x X (F & N & _). split; [exact F|]. lra. }
    split.
    - intros k Hk. rewrite <- (HP k Hk). apply W, GP; assumption.
    - eexists. split; [exact HQ|]. cbn [v0 v1 v2].
      pose proof (GQ i 0%nat Hi ltac:(lia)) as Q0. pose proof (GQ i 1%nat Hi ltac:(lia)) as Q1. pose proof (GQ i 2%nat Hi ltac:(lia)) as Q2.
      rewrite Nat.mul_1_l in Q1. split; [|split]; apply W; assumption.
  Qed.

  Lemma dgeom_fcc : exists g : SlipGeom dbl, slipGeomFCC = Some g /\ sg_nslip g = 12%nat /\
    schmid_near (/ 10 ^ 14) (sg_P g) (sg_Q g) 12 (fun i => unitv (cub (fst (nth i sys_fcc d3)))) (fun i => unitv (cub (snd (nth i sys_fcc d3)))).
  Proof.
    destruct geom_fcc as (gR & E & N & S & (U & _)).
    refine (near_of fcc_m fcc_s fcc_m fcc_s 12 (5 * uu) (/ 10 ^ 14) _ _ gR _ _ _ eq_refl eq_refl fcc_m_near fcc_s_near _ E S); [unfold uu; lra|unfold uu; lra|unfold uu; cbn [pow]; lra|].
    intros i Hi. rewrite (fcc_m_rows i Hi), (fcc_s_rows i Hi), dot_model. exact (proj2 (proj2 (U i Hi))).
  Qed.
  Lemma dgeom_bcc n : n = 12%nat \/ n = 24%nat \/ n = 48%nat -> exists g : SlipGeom dbl, slipGeomBCC n = Some g /\ sg_nslip g = n /\
    schmid_near (/ 10 ^ 14) (sg_P g) (sg_Q g) n (fun i => unitv (cub (fst (nth i (sys_bcc n) d3)))) (fun i => unitv (cub (snd (nth i (sys_bcc n) d3)))).
  Proof.
    intros Hn. destruct (geom_bcc n Hn) as (gR & E & N & S & (U & _)).
    assert (OK : bcc_nslip_ok n = true) by (destruct Hn as [-> | [-> | ->]]; reflexivity). unfold slipGeomBCC in E |- *. rewrite OK in E |- *.
    refine (near_of (bcc_m n) (bcc_s n) (bcc_m n) (bcc_s n) n (5 * uu) (/ 10 ^ 14) _ _ gR _ _ _ _ _ (bcc_m_near n) (bcc_s_near n) _ E S); [unfold uu; lra|unfold uu; lra|unfold uu; cbn [pow]; lra| | |].
    1,2: destruct Hn as [ -> | [ -> | -> ] ]; reflexivity.
    intros i Hi. transitivity (dotv (unitv (cub (fst (nth i (sys_bcc n) d3)))) (unitv (cub (snd (nth i (sys_bcc n) d3))))); [|exact (proj2 (proj2 (U i Hi)))].
    rewrite <- dot_model. f_equal.
    - destruct Hn as [ -> | [ -> | -> ] ]; [now apply bcc_m_rows12|now apply bcc_m_rows24|now apply bcc_m_rows].
    - destruct Hn as [ -> | [ -> | -> ] ]; [now apply bcc_s_rows12|now apply bcc_s_rows24|now apply bcc_s_rows].
  Qed.
End L.
