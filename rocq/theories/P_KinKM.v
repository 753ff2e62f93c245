(** Proofs about the balanced MTS kinetics with drag (KMBalD). *)
From Coq Require Import List ZArith Bool Lia Reals Lra.
From Coquelicot Require Import Coquelicot.
From Verif Require Import Num Arr NumR Util Hard KinKMBalD SpecKin P_KinV P_Hard.
Import ListNotations.
Local Open Scope R_scope.

Ltac req := match goal with |- @eq _ ?a ?b => change (@eq R a b) end.
Lemma lit_lncut : (ln_gam_ratio_min : R) = ln_cut.
Proof. unfold ln_gam_ratio_min, ln_cut. cbn. lra. Qed.

(** ** the law of one slip system of a parameter set *)
Section Law.
  Variables (k : KM R) (vals : list R) (iv : nat).
  Definition law_of : KMLaw := {|
    l_w := get vals 0; l_r := get vals 1; l_c := get vals (2 + km_nVPer k + iv) * km_mu_ref k;
    l_p := km_p k; l_q := km_q k; l_lin := km_pOne k;
    l_ath := if km_withGAthermal k then get vals (2 + iv) else km_tau_a k;
    l_g := if km_withGAthermal k then km_tau_a k else get vals (2 + iv);
    l_D := km_wrD k; l_n := get (km_xnn k) iv; l_tmin := get (km_t_min k) iv; l_tmax := get (km_t_max k) iv |}.
  Let L := law_of.
  Hypothesis OK : km_paramsOk k = true.
  Hypothesis RG : km_range L.

  Lemma pOne_p : km_pOne k = true -> km_p k = 1.
  Proof.
    intros H. pose proof OK as O. unfold km_paramsOk in O. rewrite H in O. apply andb_prop in O. destruct O as [O _].
    cbn [neqb RNum] in O. unfold Reqb in O. destruct Req_EM_T as [E|]; [exact E|discriminate].
  Qed.
  Lemma qOne_q : km_qOne k = true -> km_q k = 1.
  Proof.
    intros H. pose proof OK as O. unfold km_paramsOk in O. rewrite H in O. apply andb_prop in O. destruct O as [_ O].
    cbn [neqb RNum] in O. unfold Reqb in O. destruct Req_EM_T as [E|]; [exact E|discriminate].
  Qed.

  (** the derivative of the activation, as the code builds it *)
  Definition dact (t : R) : R :=
    if Rlt_dec (1 - spow L t) (/ 10 ^ 90) then 0
    else l_c L * (l_p L * spow L t / t) * l_q L * Rpower (1 - spow L t) (l_q L) / (1 - spow L t).

  Lemma mts_form d t : (km_pOne k = false -> / 10 ^ 90 <= Rabs t) -> t <> 0 -> get_mts_dG k (l_c L) d t = (activation L t, d * dact t).
  Proof.
    intros Ht T0. pose proof (pow10i_pos 90) as P90.
    assert (TA : 0 < Rabs t) by now apply Rabs_pos_lt.
    assert (PF : (if km_pOne k then (t, l_c L * d)
       else if Rltb (Rabs t) (/ 10 ^ 90) then (0, l_c L * d * nlit 1 10)
       else (Rcopysign (Rpow (Rabs t) (km_p k)) t, l_c L * d * km_p k * Rcopysign (Rpow (Rabs t) (km_p k)) t / t)) =
       (spow L t, l_c L * d * (l_p L * spow L t / t))).
    { unfold spow. change (l_lin L) with (km_pOne k). destruct (km_pOne k) eqn:E1.
      - f_equal. change (l_p L) with (km_p k). rewrite (pOne_p E1). field. assumption.
      - specialize (Ht eq_refl). assert (E2 : Rltb (Rabs t) (/ 10 ^ 90) = false) by now apply Rltb_false. rewrite E2.
        destruct (Rlt_dec (Rabs t) (/ 10 ^ 90)); [lra|].
        rewrite Rpow_pos by assumption. rewrite copysign_sgn; [|left; apply Rpower_pos|assumption].
        change (l_p L) with (km_p k). f_equal. field. assumption. }
    unfold get_mts_dG. rops. rewrite lit_tiny, PF. unfold activation, dact.
    set (y := spow L t). unfold Rltb. destruct (Rlt_dec (1 - y) (/ 10 ^ 90)) as [HY|HY].
    - f_equal; ring.
    - apply Rnot_lt_le in HY. assert (Y0 : 0 < 1 - y) by lra.
      destruct (km_qOne k) eqn:E3.
      + change (l_q L) with (km_q k). rewrite (qOne_q E3), Rpower_1 by assumption. f_equal. field. split; lra.
      + rewrite (Rabs_right (1 - y)) by lra. rewrite Rpow_pos by assumption.
        rewrite copysign_sgn; [|left; apply Rpower_pos|lra]. rewrite sgn_pos by assumption.
        change (l_q L) with (km_q k). f_equal; [ring|field; split; lra].
  Qed.
  Lemma mts_value d t : fst (get_mts_dG k (l_c L) d t) = activation L t.
  Proof.
    unfold get_mts_dG, activation, spow. change (l_lin L) with (km_pOne k). rops. rewrite lit_tiny. unfold Rltb.
    set (P := if km_pOne k then (t, l_c L * d) else _).
    assert (EP : fst P = if km_pOne k then t else if Rlt_dec (Rabs t) (/ 10 ^ 90) then 0 else sgn t * Rpower (Rabs t) (l_p L)).
    { unfold P. pose proof (pow10i_pos 90) as P90. destruct (km_pOne k); [reflexivity|]. destruct (Rlt_dec (Rabs t) (/ 10 ^ 90)) as [H|H]; [reflexivity|].
      cbn [fst]. assert (T0 : t <> 0) by (intros ->; rewrite Rabs_R0 in H; lra).
      rewrite Rpow_pos by now apply Rabs_pos_lt. rewrite copysign_sgn; [reflexivity|left; apply Rpower_pos|assumption]. }
    rewrite <- EP. destruct P as [y m]. cbn [fst]. pose proof (pow10i_pos 90) as P90.
    destruct (Rlt_dec (1 - y) (/ 10 ^ 90)) as [HY|HY]; [cbn [fst]; ring|]. apply Rnot_lt_le in HY.
    destruct (km_qOne k) eqn:E3; cbn [fst].
    - change (l_q L) with (km_q k). rewrite (qOne_q E3), Rpower_1 by lra. reflexivity.
    - rewrite (Rabs_right (1 - y)) by lra. rewrite Rpow_pos by lra. rewrite copysign_sgn; [|left; apply Rpower_pos|lra].
      rewrite sgn_pos by lra. change (l_q L) with (km_q k). ring.
  Qed.
End Law.

(** ** monotonicity *)
Section Mono.
  Variable L : KMLaw.
  Hypothesis RG : km_range L.
  Lemma spow_mono a b : a <= b -> spow L a <= spow L b.
  Proof.
    destruct RG as (_ & _ & _ & Hp & _). intros H. unfold spow. destruct (l_lin L); [assumption|]. pose proof (pow10i_pos 90) as P.
    assert (Q : forall x, 0 < Rpower x (l_p L)) by (intros; apply Rpower_pos).
    destruct (Rlt_dec (Rabs a) (/ 10 ^ 90)) as [A|A], (Rlt_dec (Rabs b) (/ 10 ^ 90)) as [B|B].
    - lra.
    - assert (0 < b). { apply Rnot_lt_le in B. destruct (Rlt_dec 0 b); [assumption|]. rewrite Rabs_left1 in B by lra. apply Rabs_def2 in A. lra. }
      rewrite sgn_pos by assumption. specialize (Q (Rabs b)). lra.
    - assert (a < 0). { apply Rnot_lt_le in A. destruct (Rlt_dec a 0); [assumption|]. rewrite Rabs_right in A by lra. apply Rabs_def2 in B. lra. }
      rewrite sgn_neg by assumption. specialize (Q (Rabs a)). lra.
    - apply Rnot_lt_le in A, B. destruct (Rlt_dec a 0) as [Na|Pa].
      + rewrite (sgn_neg a) by assumption. destruct (Rlt_dec b 0) as [Nb|Pb].
        * rewrite (sgn_neg b) by assumption. assert (Rpower (Rabs b) (l_p L) <= Rpower (Rabs a) (l_p L)); [|lra].
          apply Rle_Rpower_l; [lra|]. split; [lra|]. rewrite !Rabs_left by assumption. lra.
        * assert (0 < b). { destruct (Req_dec b 0) as [->|]; [rewrite Rabs_R0 in B; lra|lra]. }
          rewrite sgn_pos by assumption. pose proof (Q (Rabs a)). pose proof (Q (Rabs b)). lra.
      + assert (0 < a). { destruct (Req_dec a 0) as [->|]; [rewrite Rabs_R0 in A; lra|lra]. }
        rewrite !sgn_pos by lra. rewrite !Rmult_1_l. apply Rle_Rpower_l; [lra|]. split; [lra|]. rewrite !Rabs_right by lra. lra.
  Qed.
  Lemma act_neg t : activation L t <= 0.
  Proof.
    destruct RG as (_ & _ & Hc & _). unfold activation. destruct Rlt_dec; [lra|].
    pose proof (Rpower_pos (1 - spow L t) (l_q L)). assert (0 <= l_c L * Rpower (1 - spow L t) (l_q L)) by (apply Rmult_le_pos; lra). lra.
  Qed.
  Lemma act_mono a b : a <= b -> activation L a <= activation L b.
  Proof.
    intros H. pose proof (spow_mono a b H) as S. pose proof (act_neg a) as NA. destruct RG as (_ & _ & Hc & _ & Hq & _).
    unfold activation in *. pose proof (pow10i_pos 90).
    destruct (Rlt_dec (1 - spow L b) (/ 10 ^ 90)); [assumption|]. destruct (Rlt_dec (1 - spow L a) (/ 10 ^ 90)); [lra|].
    assert (Rpower (1 - spow L b) (l_q L) <= Rpower (1 - spow L a) (l_q L)) by (apply Rle_Rpower_l; lra).
    generalize (Rmult_le_compat_l (l_c L) _ _ (Rlt_le _ _ Hc) H1). lra.
  Qed.
  Lemma frac_mono a b d : 0 < d -> a <= b -> a / d <= b / d.
  Proof. intros Hd H. apply Rmult_le_compat_r; [left; now apply Rinv_0_lt_compat|assumption]. Qed.
  Lemma fwd_mono a b : a <= b -> forward L a <= forward L b.
  Proof. destruct RG as (_ & _ & _ & _ & _ & _ & Hg & _). intros H. apply act_mono, frac_mono; lra. Qed.
  Lemma bwd_mono a b : a <= b -> backward L b <= backward L a.
  Proof. destruct RG as (_ & _ & _ & _ & _ & _ & Hg & _). intros H. apply act_mono, frac_mono; lra. Qed.
  Lemma bwd_fwd s : 0 <= s -> backward L s <= forward L s.
  Proof. destruct RG as (_ & _ & _ & _ & _ & _ & Hg & _). intros H. apply act_mono, frac_mono; lra. Qed.
  Lemma exp_mono a b : a <= b -> exp a <= exp b.
  Proof. intros H. destruct (Req_dec a b) as [->|]; [lra|]. left. apply exp_increasing. lra. Qed.

  Lemma drag_pos s : / 10 ^ 60 <= (s - l_ath L) / l_D L -> 0 < drag L s.
  Proof.
    intros H. destruct RG as (_ & Hr & _). pose proof (pow10i_pos 60). unfold drag. destruct Rlt_dec.
    - apply Rmult_lt_0_compat; lra.
    - apply Rmult_lt_0_compat; [assumption|]. assert (exp (- ((s - l_ath L) / l_D L)) < exp 0) by (apply exp_increasing; lra). rewrite exp_0 in H1. lra.
  Qed.
  Lemma exp_quad x : 0 <= x -> exp (- x) <= 1 - x + x * x / 2.
  Proof.
    intros Hx. set (f := fun x => 1 - x + x * x / 2 - exp (- x)).
    assert (D : forall t, is_derive f t (-1 + t + exp (- t))) by (intros t; unfold f; auto_derive; [exact I|field]).
    assert (H : f 0 <= f x).
    { destruct (Req_dec x 0) as [->|]; [lra|].
      destruct (MVT_gen f 0 x (fun t => -1 + t + exp (- t))) as (c & Hc & E).
      - intros t _. apply D.
      - intros t _. apply continuity_pt_filterlim. apply (ex_derive_continuous f). eexists. apply D.
      - rewrite Rmin_left, Rmax_right in Hc by lra. pose proof (exp_ineq1_le (- c)). 
        assert (0 <= (-1 + c + exp (- c)) * (x - 0)) by (apply Rmult_le_pos; lra). lra. }
    unfold f in H. rewrite Ropp_0, exp_0 in H. lra.
  Qed.
  Lemma drag_near a b : a <= b -> / 10 ^ 60 <= (a - l_ath L) / l_D L -> drag L a <= (1 + / 10 ^ 8) * drag L b.
  Proof.
    intros H HA. pose proof (drag_pos a HA) as PA. destruct RG as (_ & Hr & _ & _ & _ & _ & _ & HD & _).
    assert (X : (a - l_ath L) / l_D L <= (b - l_ath L) / l_D L) by (apply frac_mono; lra).
    assert (PB : 0 < drag L b) by (apply drag_pos; lra).
    pose proof (pow10i_pos 60). pose proof (pow10i_pos 8) as P8.
    assert (E8 : / 10 ^ 8 <= / 10) by (apply Rinv_le_contravar; [lra|]; simpl; lra).
    revert PA PB. unfold drag. set (x := (a - l_ath L) / l_D L) in *. set (y := (b - l_ath L) / l_D L) in *. intros PA PB.
    destruct (Rlt_dec x (/ 10 ^ 8)) as [LX|LX], (Rlt_dec y (/ 10 ^ 8)) as [LY|LY].
    - apply Rle_trans with (l_r L * y); [apply Rmult_le_compat_l; lra|]. assert (0 <= / 10 ^ 8 * (l_r L * y)) by (apply Rmult_le_pos; lra). lra.
    - rewrite (Rmult_comm (1 + _)), Rmult_assoc. apply Rmult_le_compat_l; [lra|].
      pose proof (exp_quad x ltac:(lra)) as Q. assert (exp (- y) <= exp (- x)) by (apply exp_mono; lra).
      set (e := / 10 ^ 8) in *. assert (x - x * x / 2 <= 1 - exp (- y)) by lra.
      apply Rle_trans with ((x - x * x / 2) * (1 + e)); [|apply Rmult_le_compat_r; lra].
      replace ((x - x * x / 2) * (1 + e)) with (x * (1 + (e - x / 2 - x * e / 2))) by field.
      rewrite <- (Rmult_1_r x) at 1. apply Rmult_le_compat_l; [lra|].
      assert (x * e <= e * (/ 10)) by (rewrite Rmult_comm; apply Rmult_le_compat_l; lra). lra.
    - lra.
    - assert (l_r L * (1 - exp (- x)) <= l_r L * (1 - exp (- y))).
      { apply Rmult_le_compat_l; [lra|]. assert (exp (- y) <= exp (- x)) by (apply exp_mono; lra). lra. }
      assert (0 <= / 10 ^ 8 * (l_r L * (1 - exp (- y)))) by (apply Rmult_le_pos; lra). lra.
  Qed.
  Lemma drag_mono a b : a <= b -> / 10 ^ 60 <= (a - l_ath L) / l_D L ->
    ((a - l_ath L) / l_D L < / 10 ^ 8 <-> (b - l_ath L) / l_D L < / 10 ^ 8) -> drag L a <= drag L b.
  Proof.
    intros H HA HS. destruct RG as (_ & Hr & _ & _ & _ & _ & _ & HD & _).
    assert (X : (a - l_ath L) / l_D L <= (b - l_ath L) / l_D L) by (apply frac_mono; lra).
    unfold drag. set (x := (a - l_ath L) / l_D L) in *. set (y := (b - l_ath L) / l_D L) in *.
    destruct (Rlt_dec x (/ 10 ^ 8)) as [LX|LX], (Rlt_dec y (/ 10 ^ 8)) as [LY|LY]; try tauto; apply Rmult_le_compat_l; try lra.
    assert (exp (- y) <= exp (- x)) by (apply exp_mono; lra). lra.
  Qed.
  Lemma pl_nonneg s : 0 <= powerlaw L s.
  Proof. destruct RG as (Hw & _). unfold powerlaw. destruct Rlt_dec; [|lra]. pose proof (Rpower_pos ((s - l_ath L) / l_g L) (l_n L)). apply Rmult_le_pos; lra. Qed.
  Lemma pl_mono a b : a <= b -> powerlaw L a <= powerlaw L b.
  Proof.
    intros H. pose proof (pl_nonneg b) as PB. destruct RG as (Hw & _ & _ & _ & _ & _ & Hg & _ & Hn & Ht & _). unfold powerlaw in *.
    assert (X : (a - l_ath L) / l_g L <= (b - l_ath L) / l_g L) by (apply frac_mono; lra).
    destruct (Rlt_dec (l_tmin L) ((a - l_ath L) / l_g L)) as [A|A]; [|exact PB].
    destruct (Rlt_dec (l_tmin L) ((b - l_ath L) / l_g L)) as [B|B]; [|lra].
    apply Rmult_le_compat_l; [lra|]. apply Rle_Rpower_l; lra.
  Qed.
  Lemma bal_mono a b : a <= b -> balanced L b <= balanced L a.
  Proof.
    intros H. pose proof (bwd_mono a b H) as M. destruct RG as (Hw & _). unfold balanced.
    destruct (Rlt_dec ln_cut (backward L b)), (Rlt_dec ln_cut (backward L a)); try lra.
    - apply Rmult_le_compat_l; [lra|]. now apply exp_mono.
    - pose proof (exp_pos (backward L a)). apply Rmult_le_pos; lra.
  Qed.
  Lemma th_mono a b : a <= b -> thermal L a <= thermal L b.
  Proof.
    intros H. unfold thermal. pose proof (bal_mono a b H). pose proof (pl_mono a b H).
    assert (l_w L * exp (forward L a) <= l_w L * exp (forward L b)).
    { destruct RG as (Hw & _). apply Rmult_le_compat_l; [lra|]. apply exp_mono. now apply fwd_mono. }
    lra.
  Qed.
  (** active thermally: the third to fifth tests of [km_mag] passed *)
  Definition act_ok (s : R) : Prop := ln_cut <= forward L s /\
    (ln_cut < backward L s -> / 10 ^ 60 <= exp (forward L s) - exp (backward L s)).
  Lemma th_pos s : act_ok s -> 0 < thermal L s.
  Proof.
    intros [_ A]. destruct RG as (Hw & _). unfold thermal. pose proof (pl_nonneg s) as P. unfold balanced. pose proof (pow10i_pos 60).
    destruct Rlt_dec as [B|B].
    - specialize (A B). assert (0 < l_w L * (exp (forward L s) - exp (backward L s))) by (apply Rmult_lt_0_compat; lra). lra.
    - pose proof (exp_pos (forward L s)). assert (0 < l_w L * exp (forward L s)) by (apply Rmult_lt_0_compat; lra). lra.
  Qed.
  Lemma act_ok_mono a b : a <= b -> act_ok a -> act_ok b.
  Proof.
    intros H [A B]. pose proof (fwd_mono a b H) as F. pose proof (bwd_mono a b H) as G. split; [lra|]. intros C.
    assert (D := B ltac:(lra)). pose proof (exp_mono _ _ F). pose proof (exp_mono _ _ G). lra.
  Qed.
  Lemma mag_cases s : 
    km_mag L s = 0 /\ ((s - l_ath L) / l_D L < / 10 ^ 60 \/ ((s - l_ath L) / l_g L <= l_tmax L /\ ~ act_ok s)) \/
    (/ 10 ^ 60 <= (s - l_ath L) / l_D L /\ l_tmax L < (s - l_ath L) / l_g L /\ km_mag L s = drag L s) \/
    (/ 10 ^ 60 <= (s - l_ath L) / l_D L /\ (s - l_ath L) / l_g L <= l_tmax L /\ act_ok s /\ km_mag L s = / (/ thermal L s + / drag L s)).
  Proof.
    unfold km_mag, act_ok. destruct (Rlt_dec ((s - l_ath L) / l_D L) (/ 10 ^ 60)) as [A|A]; [left; split; [reflexivity|now left]|]. apply Rnot_lt_le in A.
    destruct (Rlt_dec (l_tmax L) ((s - l_ath L) / l_g L)) as [B|B]; [right; left; tauto|]. apply Rnot_lt_le in B.
    destruct (Rlt_dec (forward L s) ln_cut) as [C|C]; [left; split; [reflexivity|right; split; [assumption|lra]]|]. apply Rnot_lt_le in C.
    destruct (Rlt_dec ln_cut (backward L s)) as [D|D].
    - destruct (Rlt_dec (exp (forward L s) - exp (backward L s)) (/ 10 ^ 60)) as [E|E].
      + left. split; [reflexivity|]. right. split; [assumption|]. intros [_ Q]. specialize (Q D). lra.
      + right. right. repeat split; try assumption; lra.
    - right. right. repeat split; try assumption; lra.
  Qed.
  Lemma harm_pos x y : 0 < x -> 0 < y -> 0 < / (/ x + / y) /\ / (/ x + / y) <= y /\ / (/ x + / y) <= x.
  Proof.
    intros Hx Hy. pose proof (Rinv_0_lt_compat x Hx). pose proof (Rinv_0_lt_compat y Hy). split; [apply Rinv_0_lt_compat; lra|].
    split; [rewrite <- (Rinv_inv y) at 2|rewrite <- (Rinv_inv x) at 2]; apply Rinv_le_contravar; lra.
  Qed.
  Lemma harm_mono x y x' y' e : 0 < x -> 0 < y -> x <= x' -> y <= (1 + e) * y' -> 0 < y' -> 0 <= e ->
    / (/ x + / y) <= (1 + e) * / (/ x' + / y').
  Proof.
    intros Hx Hy HX HY Hy' He.
    replace ((1 + e) * / (/ x' + / y')) with (/ (/ ((1 + e) * x') + / ((1 + e) * y'))).
    2:{ field. repeat split; lra. }
    apply Rinv_le_contravar.
    - apply Rplus_lt_0_compat; apply Rinv_0_lt_compat; nra.
    - apply Rplus_le_compat; apply Rinv_le_contravar; nra.
  Qed.
  Lemma mag_nonneg s : 0 <= km_mag L s.
  Proof.
    destruct (mag_cases s) as [[-> _]|[(A & _ & ->)|(A & _ & C & ->)]]; [lra|left; now apply drag_pos|].
    left. apply harm_pos; [now apply th_pos|now apply drag_pos].
  Qed.
  Lemma mag_near a b e : a <= b -> 0 <= e -> 
    (/ 10 ^ 60 <= (a - l_ath L) / l_D L -> drag L a <= (1 + e) * drag L b) -> km_mag L a <= (1 + e) * km_mag L b.
  Proof.
    intros H He HD. pose proof (mag_nonneg b) as NB. assert (NB' : 0 <= (1 + e) * km_mag L b) by nra.
    assert (X : (a - l_ath L) / l_D L <= (b - l_ath L) / l_D L) by (apply frac_mono; [apply RG|lra]).
    assert (Y : (a - l_ath L) / l_g L <= (b - l_ath L) / l_g L) by (apply frac_mono; [apply RG|lra]).
    pose proof (act_ok_mono a b H) as AM.
    destruct (mag_cases a) as [[-> _]|[(A1 & A2 & ->)|(A1 & A2 & A3 & ->)]]; [exact NB'|specialize (HD A1)..].
    - destruct (mag_cases b) as [[_ [B|[B _]]]|[(B1 & B2 & ->)|(B1 & B2 & B3 & _)]]; lra.
    - destruct (mag_cases b) as [[_ [B|[_ B]]]|[(B1 & B2 & ->)|(B1 & B2 & B3 & ->)]]; [lra|now elim B; apply AM| |].
      + apply Rle_trans with (drag L a); [|assumption]. apply harm_pos; [now apply th_pos|now apply drag_pos].
      + apply harm_mono; try assumption; [now apply th_pos|now apply drag_pos|now apply th_mono|now apply drag_pos].
  Qed.
End Mono.

(** ** the slip rate is the law *)
Lemma quad_eq (a a' : R) (b : bool) (c c' d d' : R) : a = a' -> c = c' -> d = d' -> (a, b, c, d) = (a', b, c', d').
Proof. intros -> -> ->. reflexivity. Qed.
Section Rate.
  Variables (k : KM R) (vals : list R) (iv : nat).
  Let L := law_of k vals iv.
  Hypothesis OK : km_paramsOk k = true.
  Hypothesis RG : km_range L.
  Hypothesis XN : get (km_xn k) iv = get (km_xnn k) iv - 1.

  (** the branches of the code in terms of the law; [w] and [dw], [dwg] are the thermal rate and its
      derivatives as accumulated by the code *)
  Definition r_temp (s : R) : R := let x := (s - l_ath L) / l_D L in if Rlt_dec x (/ 10 ^ 8) then 1 - x else exp (- x).
  Definition r_d (s : R) : R := l_r L * r_temp s / l_D L.
  Definition tf (s : R) : R := (s - l_ath L) * (1 / l_g L).
  Definition mt (t : R) : R := snd (get_mts_dG k (l_c L) (1 / l_g L) t).
  Definition b_d (s : R) : R := if Rlt_dec ln_cut (backward L s) then mt (tf (- s)) * (l_w L * exp (backward L s)) else 0.
  Definition p_d (s : R) : R := if Rlt_dec (l_tmin L) (tf s) then l_w L * 10 * exp ((l_n L - 1) * ln (tf s)) * l_n L * (1 / l_g L) else 0.
  Definition w_d (s : R) : R := mt (tf s) * (l_w L * exp (forward L s)) - b_d s + p_d s.
  Definition w_g (s : R) : R := mt (tf s) * (l_w L * exp (forward L s)) * tf s - b_d s * tf (- s) + p_d s * tf s.

  Lemma tf_div s : tf s = (s - l_ath L) / l_g L.
  Proof. unfold tf, Rdiv. ring. Qed.
  Lemma eval_form tau : (km_withGAthermal k = false -> tau <> 0) ->
    let s := Rabs tau in
    km_evalGdot k vals iv tau =
      if Rlt_dec ((s - l_ath L) / l_D L) (/ 10 ^ 60) then km_inactive
      else if Rlt_dec (l_tmax L) ((s - l_ath L) / l_g L) then
        (Rcopysign (drag L s) tau, true, r_d s, if km_withGAthermal k then - Rcopysign (r_d s) tau else 0)
      else if Rlt_dec (forward L s) ln_cut then km_inactive
      else if (if Rlt_dec ln_cut (backward L s) then if Rlt_dec (exp (forward L s) - exp (backward L s)) (/ 10 ^ 60) then true else false else false) then km_inactive
      else
        let g := / (/ thermal L s + / drag L s) in
        (Rcopysign g tau, true, g * g * (w_d s * / (thermal L s * thermal L s) + r_d s * / (drag L s * drag L s)),
         if km_withGAthermal k then - (g * Rcopysign g tau * / (drag L s * drag L s)) * r_d s - g * Rcopysign g tau * / (thermal L s * thermal L s) * w_d s
         else - (g * Rcopysign g tau * / (thermal L s * thermal L s)) * w_g s).
  Proof.
    intros HZ s. pose proof RG as (Hw & Hr & Hc & Hp & Hq & Ha & Hg & HD & Hn & Ht & _).
    unfold km_evalGdot.
    assert (EZ : (negb (km_withGAthermal k) && (tau =? zero)%num)%bool = false).
    { destruct (km_withGAthermal k) eqn:EW; [reflexivity|]. cbn [negb andb neqb RNum zero]. unfold Reqb. destruct Req_EM_T as [E|]; [now elim HZ|reflexivity]. }
    rewrite EZ.
    change (if km_withGAthermal k then get vals (2 + iv) else km_tau_a k) with (l_ath L).
    replace (if km_withGAthermal k then one / km_tau_a k else one / get vals (2 + iv))%num with (1 / l_g L) by (unfold L, law_of; cbn [l_g]; destruct (km_withGAthermal k); reflexivity).
    change (get vals 0) with (l_w L). change (get vals 1) with (l_r L). change (km_wrD k) with (l_D L).
    change (get (km_xnn k) iv) with (l_n L). change (get (km_t_max k) iv) with (l_tmax L). change (get (km_t_min k) iv) with (l_tmin L).
    change (get (km_xn k) iv) with (get (km_xn k) iv). rewrite XN. change (get (km_xnn k) iv) with (l_n L).
    cbv zeta. change (get vals (2 + km_nVPer k + iv) * km_mu_ref k)%num with (l_c L).
    cbn [nmax nabs nsub nmul ndiv nltb nexp nopp nZ zero one RNum]. rewrite lit_gmin, lit_eps.
    fold s. unfold Rltb at 1. destruct (Rlt_dec ((s - l_ath L) / l_D L) (/ 10 ^ 60)) as [A|A]; [reflexivity|]. apply Rnot_lt_le in A.
    assert (PS : 0 < s - l_ath L).
    { pose proof (pow10i_pos 60). apply (Rmult_lt_reg_r (/ l_D L)); [now apply Rinv_0_lt_compat|]. unfold Rdiv in A. lra. }
    rewrite (Rmax_right 0 (s - l_ath L)) by lra.
    replace ((- s - l_ath L) * (1 / l_g L)) with (tf (- s)) by reflexivity. fold (tf s).
    assert (ED : (if Rltb ((s - l_ath L) / l_D L) (/ 10 ^ 8) then (l_r L * ((s - l_ath L) / l_D L), 1 - (s - l_ath L) / l_D L)
      else (l_r L * (1 - exp (- ((s - l_ath L) / l_D L))), exp (- ((s - l_ath L) / l_D L)))) = (drag L s, r_temp s)).
    { unfold Rltb, drag, r_temp. destruct Rlt_dec; reflexivity. }
    rewrite ED. cbv beta iota zeta. fold (r_d s). rewrite <- tf_div. unfold Rltb at 1. destruct (Rlt_dec (l_tmax L) (tf s)) as [B|B]; [reflexivity|].
    pose proof (mts_value k vals iv OK (1 / l_g L) (tf s)) as M1. pose proof (mts_value k vals iv OK (1 / l_g L) (tf (- s))) as M2.
    fold L in M1, M2. rewrite tf_div in M1, M2. fold (forward L s) in M1. fold (backward L s) in M2. rewrite <- tf_div in M1, M2.
    unfold w_d, w_g, b_d, p_d, mt.
    destruct (get_mts_dG k (l_c L) (1 / l_g L) (tf s)) as [fv fd]. destruct (get_mts_dG k (l_c L) (1 / l_g L) (tf (- s))) as [bv bd].
    cbn [fst snd] in *. subst fv bv. rewrite lit_lncut. unfold Rltb at 1. destruct (Rlt_dec (forward L s) ln_cut) as [C|C]; [reflexivity|].
    assert (NN : 0 <= s) by apply Rabs_pos. pose proof (bwd_fwd L RG s NN) as BF. apply exp_mono in BF.
    assert (EX : Rabs ((l_w L * exp (forward L s) - l_w L * exp (backward L s)) / l_w L) = exp (forward L s) - exp (backward L s)).
    { replace ((l_w L * exp (forward L s) - l_w L * exp (backward L s)) / l_w L) with (exp (forward L s) - exp (backward L s)) by (field; lra).
      apply Rabs_right. lra. }
    assert (PT : 0 < tf s) by (unfold tf; apply Rmult_lt_0_compat; [assumption|unfold Rdiv; rewrite Rmult_1_l; now apply Rinv_0_lt_compat]).
    assert (EP : l_w L * 10 * exp ((l_n L - 1) * ln (tf s)) * tf s = 10 * l_w L * Rpower (tf s) (l_n L)).
    { fold (Rpower (tf s) (l_n L - 1)). replace (l_n L) with ((l_n L - 1) + 1) at 2 by ring. rewrite Rpower_plus, Rpower_1 by assumption. ring. }
    unfold thermal, balanced, powerlaw. rewrite <- tf_div. cbv zeta. unfold Rltb.
    destruct (Rlt_dec ln_cut (backward L s)) as [D|D]; cbn [andb].
    - rewrite EX. destruct (Rlt_dec (exp (forward L s) - exp (backward L s)) (/ 10 ^ 60)) as [E|E]; [reflexivity|].
      destruct (Rlt_dec (l_tmin L) (tf s)) as [F|F]; cbv beta iota zeta; rops.
      + rewrite EP. unfold Rdiv. rewrite !Rmult_1_l. apply quad_eq; [f_equal; try ring|ring|destruct (km_withGAthermal k); ring].
      + rewrite !Rplus_0_r. unfold Rdiv. rewrite !Rmult_1_l. apply quad_eq; [f_equal; try ring|ring|destruct (km_withGAthermal k); ring].
    - destruct (Rlt_dec (l_tmin L) (tf s)) as [F|F]; cbv beta iota zeta; rops.
      + rewrite EP, !Rminus_0_r. unfold Rdiv. rewrite !Rmult_1_l. apply quad_eq; [f_equal; try ring|ring|destruct (km_withGAthermal k); ring].
      + rewrite !Rplus_0_r, !Rminus_0_r. unfold Rdiv. rewrite !Rmult_1_l. apply quad_eq; [f_equal; try ring|ring|destruct (km_withGAthermal k); ring].
  Qed.
End Rate.

(** ** derivatives along a path of stress and strengths *)
Lemma d_harm (W Q : R -> R) (u w' q' : R) : is_derive W u w' -> is_derive Q u q' -> 0 < W u -> 0 < Q u ->
  is_derive (fun v => / (/ W v + / Q v)) u (let g := / (/ W u + / Q u) in g * g * (w' * / (W u * W u) + q' * / (Q u * Q u))).
Proof.
  intros DT DD PW PR. cbv zeta. assert (SP : 0 < / W u + / Q u) by (apply Rplus_lt_0_compat; now apply Rinv_0_lt_compat).
  pose proof (is_derive_unique _ _ _ DT) as U1. pose proof (is_derive_unique _ _ _ DD) as U2.
  auto_derive; [repeat split; first [exists w'; exact DT|exists q'; exact DD|lra]|].
  change (fun x0 : R => W x0) with W. change (fun x0 : R => Q x0) with Q. rewrite U1, U2. field. repeat split; lra.
Qed.
Section Deriv.
  Variable L : KMLaw.
  Hypothesis RG : km_range L.
  Definition dactL (t : R) : R :=
    if Rlt_dec (1 - spow L t) (/ 10 ^ 90) then 0
    else l_c L * (l_p L * spow L t / t) * l_q L * Rpower (1 - spow L t) (l_q L) / (1 - spow L t).

  Lemma d_spow (t : R) : (l_lin L = false -> / 10 ^ 90 < Rabs t) -> t <> 0 -> is_derive (spow L) t (l_p L * spow L t / t).
  Proof.
    intros HT T0. pose proof RG as (_ & _ & _ & Hp & _ & _ & _ & _ & _ & _ & HL). pose proof (pow10i_pos 90) as P90.
    assert (TA : 0 < Rabs t) by now apply Rabs_pos_lt.
    destruct (l_lin L) eqn:EL.
    - apply (is_derive_ext (fun t => t)); [intros y; unfold spow; now rewrite EL|]. unfold spow. rewrite EL, (HL eq_refl).
      replace (1 * t / t) with 1 by (field; assumption). apply (is_derive_id (K := R_AbsRing) t).
    - specialize (HT eq_refl).
      assert (C : continuous Rabs t) by apply continuous_Rabs.
      pose proof (loc_gt Rabs _ t C HT) as L1.
      assert (EV : spow L t = sgn t * Rpower (Rabs t) (l_p L)) by (unfold spow; rewrite EL; destruct Rlt_dec; [lra|reflexivity]).
      rewrite EV. destruct (Rtotal_order t 0) as [N|[Z|P]]; [|contradiction|].
      + apply (is_derive_ext_loc (fun y => - exp (l_p L * ln (- y)))).
        { generalize (filter_and _ _ L1 (loc_lt (fun y => y) 0 t (cont_id t) N)). apply filter_imp. intros y [A B].
          unfold spow. rewrite EL. destruct Rlt_dec; [lra|]. rewrite sgn_neg by assumption. rewrite Rabs_left by assumption. unfold Rpower. req. ring. }
        rewrite sgn_neg, Rabs_left by assumption. unfold Rpower. auto_derive; [lra|]. field. lra.
      + apply (is_derive_ext_loc (fun y => exp (l_p L * ln y))).
        { generalize (filter_and _ _ L1 (loc_gt (fun y => y) 0 t (cont_id t) P)). apply filter_imp. intros y [A B].
          unfold spow. rewrite EL. destruct Rlt_dec; [lra|]. rewrite sgn_pos by assumption. rewrite Rabs_right by lra. unfold Rpower. req. ring. }
        rewrite sgn_pos by assumption. rewrite Rabs_right by lra. unfold Rpower. auto_derive; [lra|]. field. lra.
  Qed.
  Lemma d_act (t : R) : smooth_at L t -> is_derive (activation L) t (dactL t).
  Proof.
    intros (H1 & H2 & H3). pose proof (d_spow t H1 H2) as DS. pose proof (pow10i_pos 90) as P90.
    assert (CS : continuous (fun y => 1 - spow L y) t).
    { apply (continuous_minus (V := R_NormedModule)); [apply continuous_const|]. apply (ex_derive_continuous (spow L)). eexists. exact DS. }
    unfold dactL. destruct (Rlt_dec (1 - spow L t) (/ 10 ^ 90)) as [Y|Y].
    - apply (is_derive_ext_loc (fun _ => 0)); [|apply (is_derive_const (V := R_NormedModule) 0 t)].
      generalize (loc_lt _ _ t CS Y). apply filter_imp. intros y Hy. unfold activation. now destruct Rlt_dec.
    - assert (Y' : / 10 ^ 90 < 1 - spow L t) by lra.
      apply (is_derive_ext_loc (fun y => - l_c L * exp (l_q L * ln (1 - spow L y)))).
      { generalize (loc_gt _ _ t CS Y'). apply filter_imp. intros y Hy. unfold activation. destruct Rlt_dec; [lra|reflexivity]. }
      pose proof (is_derive_unique _ _ _ DS) as U. unfold Rpower.
      auto_derive; [split; [eexists; exact DS|split; [lra|exact I]]|].
      change (fun x0 : R => spow L x0) with (spow L). rewrite U. change (1 + - spow L t) with (1 - spow L t). field. split; lra.
  Qed.

  Variables (A G S : R -> R) (u a' g' s' : R).
  Hypothesis DA : is_derive A u a'.
  Hypothesis DG : is_derive G u g'.
  Hypothesis DS : is_derive S u s'.
  Hypothesis GP : 0 < G u.
  Hypothesis SA : - S u <= S u.
  Hypothesis AP : 0 <= A u.
  Definition Lu (v : R) : KMLaw := at_strength L (A v) (G v).
  Definition tu (v : R) : R := (S v - A v) / G v.
  Definition tmu (v : R) : R := (- S v - A v) / G v.
  Definition t' : R := (s' - a' - tu u * g') / G u.
  Definition tm' : R := (- s' - a' - tmu u * g') / G u.
  Let x' : R := (s' - a') / l_D L.

  Lemma d_tu : is_derive tu u t'.
  Proof.
    unfold tu, t'. pose proof (is_derive_unique _ _ _ DA) as UA. pose proof (is_derive_unique _ _ _ DG) as UG. pose proof (is_derive_unique _ _ _ DS) as US.
    auto_derive; [repeat split; try (eexists; eassumption); lra|].
    change (fun x0 : R => A x0) with A. change (fun x0 : R => G x0) with G. change (fun x0 : R => S x0) with S.
    rewrite UA, UG, US. unfold tu. field. lra.
  Qed.
  Lemma d_tmu : is_derive tmu u tm'.
  Proof.
    unfold tmu, tm'. pose proof (is_derive_unique _ _ _ DA) as UA. pose proof (is_derive_unique _ _ _ DG) as UG. pose proof (is_derive_unique _ _ _ DS) as US.
    auto_derive; [repeat split; try (eexists; eassumption); lra|].
    change (fun x0 : R => A x0) with A. change (fun x0 : R => G x0) with G. change (fun x0 : R => S x0) with S.
    rewrite UA, UG, US. unfold tmu. field. lra.
  Qed.
  Definition xu (v : R) : R := (S v - A v) / l_D L.
  Lemma d_xu : is_derive xu u x'.
  Proof.
    unfold xu, x'. pose proof (is_derive_unique _ _ _ DA) as UA. pose proof (is_derive_unique _ _ _ DS) as US. pose proof RG as (_ & _ & _ & _ & _ & _ & _ & HD & _).
    auto_derive; [repeat split; try (eexists; eassumption)|].
    change (fun x0 : R => A x0) with A. change (fun x0 : R => S x0) with S. rewrite UA, US. field. lra.
  Qed.
  Lemma d_comp (f h : R -> R) (x d e : R) : is_derive f (h x) d -> is_derive h x e -> is_derive (fun y => f (h y)) x (d * e).
  Proof. intros H1 H2. pose proof (is_derive_comp f h x d e H1 H2) as H. rewrite Rmult_comm. exact H. Qed.
  Lemma cont_d (h : R -> R) x e : is_derive h x e -> continuous h x.
  Proof. intros H. apply (ex_derive_continuous h). exists e. exact H. Qed.

  Lemma smooth_m : smooth_at L (tu u) -> 0 < tu u -> smooth_at L (tmu u).
  Proof.
    intros (H1 & H2 & H3) P. pose proof (Rinv_0_lt_compat _ GP) as GI. pose proof (pow10i_pos 90) as P90.
    assert (LE : tmu u <= - tu u).
    { unfold tmu, tu, Rdiv. replace (- ((S u - A u) * / G u)) with ((- S u + A u) * / G u) by ring. apply Rmult_le_compat_r; lra. }
    assert (AB : Rabs (tu u) <= Rabs (tmu u)) by (rewrite (Rabs_right (tu u)), (Rabs_left (tmu u)) by lra; lra).
    split; [intros E; specialize (H1 E); lra|]. split; [lra|].
    assert (SN : spow L (tmu u) <= 0).
    { unfold spow. destruct (l_lin L); [lra|]. destruct Rlt_dec; [lra|]. rewrite sgn_neg by lra. pose proof (Rpower_pos (Rabs (tmu u)) (l_p L)). lra. }
    assert (/ 10 ^ 90 < 1) by (rewrite <- Rinv_1; apply Rinv_lt_contravar; [rewrite Rmult_1_l; apply pow10_pos|apply Rlt_pow_R1; [lra|lia]]).
    lra.
  Qed.

  (** rates of the parts *)
  Definition fu (v : R) : R := activation L (tu v).
  Definition bu (v : R) : R := activation L (tmu v).
  Definition bal' : R := if Rlt_dec ln_cut (bu u) then l_w L * exp (bu u) * dactL (tmu u) * tm' else 0.
  Definition pl' : R := if Rlt_dec (l_tmin L) (tu u) then 10 * l_w L * l_n L * Rpower (tu u) (l_n L - 1) * t' else 0.
  Definition th' : R := l_w L * exp (fu u) * dactL (tu u) * t' - bal' + pl'.
  Definition dr' : R := l_r L * exp (- xu u) * x'.

  Lemma fwd_u v : forward (Lu v) (S v) = fu v. Proof. reflexivity. Qed.
  Lemma bwd_u v : backward (Lu v) (S v) = bu v. Proof. reflexivity. Qed.

  Lemma d_thermal : smooth_at L (tu u) -> 0 < tu u -> tu u <> l_tmin L -> bu u <> ln_cut ->
    is_derive (fun v => thermal (Lu v) (S v)) u th'.
  Proof.
    intros HS HP HM HB. pose proof (smooth_m HS HP) as HSm.
    pose proof (d_comp _ _ _ _ _ (d_act _ HS) d_tu) as DF. pose proof (d_comp _ _ _ _ _ (d_act _ HSm) d_tmu) as DB.
    fold fu in DF. change (fun y => activation L (tmu y)) with bu in DB. change (fun y => activation L (tu y)) with fu in DF.
    assert (D1 : is_derive (fun v => l_w L * exp (fu v)) u (l_w L * exp (fu u) * dactL (tu u) * t')).
    { pose proof (is_derive_unique _ _ _ DF) as U. auto_derive; [eexists; exact DF|]. change (fun x0 : R => fu x0) with fu. rewrite U. ring. }
    assert (D2 : is_derive (fun v => balanced (Lu v) (S v)) u bal').
    { pose proof (cont_d _ _ _ DB) as CB. unfold balanced, bal'. destruct (Rlt_dec ln_cut (bu u)) as [B|B].
      - apply (is_derive_ext_loc (fun v => l_w L * exp (bu v))).
        + generalize (loc_gt _ _ _ CB B). apply filter_imp. intros v Hv. rewrite bwd_u. now destruct Rlt_dec.
        + pose proof (is_derive_unique _ _ _ DB) as U. auto_derive; [eexists; exact DB|]. change (fun x0 : R => bu x0) with bu. rewrite U. ring.
      - apply (is_derive_ext_loc (fun v => 0)); [|apply (is_derive_const (V := R_NormedModule) 0 u)].
        assert (B' : bu u < ln_cut) by lra. generalize (loc_lt _ _ _ CB B'). apply filter_imp. intros v Hv. rewrite bwd_u. destruct Rlt_dec; [lra|reflexivity]. }
    assert (D3 : is_derive (fun v => powerlaw (Lu v) (S v)) u pl').
    { pose proof (cont_d _ _ _ d_tu) as CT. unfold powerlaw, pl'. destruct (Rlt_dec (l_tmin L) (tu u)) as [B|B].
      - apply (is_derive_ext_loc (fun v => 10 * l_w L * exp (l_n L * ln (tu v)))).
        + generalize (loc_gt _ _ _ CT B). apply filter_imp. intros v Hv. cbv zeta. change ((S v - l_ath (Lu v)) / l_g (Lu v)) with (tu v).
          change (l_tmin (Lu v)) with (l_tmin L). destruct Rlt_dec; [reflexivity|contradiction].
        + pose proof (is_derive_unique _ _ _ d_tu) as U. auto_derive; [split; [eexists; exact d_tu|split; [assumption|exact I]]|].
          change (fun x0 : R => tu x0) with tu. rewrite U.
          assert (E : exp (l_n L * ln (tu u)) = Rpower (tu u) (l_n L - 1) * tu u).
          { fold (Rpower (tu u) (l_n L)). replace (l_n L) with ((l_n L - 1) + 1) at 1 by ring. now rewrite Rpower_plus, Rpower_1. }
          rewrite E. field. lra.
      - apply (is_derive_ext_loc (fun v => 0)); [|apply (is_derive_const (V := R_NormedModule) 0 u)].
        assert (B' : tu u < l_tmin L) by lra. generalize (loc_lt _ _ _ CT B'). apply filter_imp. intros v Hv. cbv zeta. change ((S v - l_ath (Lu v)) / l_g (Lu v)) with (tu v).
        change (l_tmin (Lu v)) with (l_tmin L). destruct Rlt_dec; [lra|reflexivity]. }
    unfold thermal, th'.
    apply (is_derive_plus (V := R_NormedModule)); [|exact D3]. apply (is_derive_minus (V := R_NormedModule)); [exact D1|exact D2].
  Qed.
  Lemma d_drag : / 10 ^ 8 < xu u -> is_derive (fun v => drag (Lu v) (S v)) u dr'.
  Proof.
    intros HX. apply (is_derive_ext_loc (fun v => l_r L * (1 - exp (- xu v)))).
    - generalize (loc_gt _ _ _ (cont_d _ _ _ d_xu) HX). apply filter_imp. intros v Hv. unfold drag. cbv zeta. change ((S v - l_ath (Lu v)) / l_D (Lu v)) with (xu v).
      destruct Rlt_dec; [lra|reflexivity].
    - pose proof (is_derive_unique _ _ _ d_xu) as U. unfold dr'. auto_derive; [eexists; exact d_xu|]. change (fun x0 : R => xu x0) with xu. rewrite U. ring.
  Qed.
  Lemma d_mag : interior (Lu u) (S u) -> is_derive (fun v => km_mag (Lu v) (S v)) u
    (let W := thermal (Lu u) (S u) in let Rr := drag (Lu u) (S u) in let g := / (/ W + / Rr) in g * g * (th' * / (W * W) + dr' * / (Rr * Rr))).
  Proof.
    intros (I1 & I2 & I3 & I4 & I5 & I6 & I7).
    change ((S u - l_ath (Lu u)) / l_D (Lu u)) with (xu u) in I1. change ((S u - l_ath (Lu u)) / l_g (Lu u)) with (tu u) in I2, I3, I4.
    change (l_tmax (Lu u)) with (l_tmax L) in I2. change (l_tmin (Lu u)) with (l_tmin L) in I3. change (smooth_at (Lu u)) with (smooth_at L) in I4.
    rewrite fwd_u in I5, I7. rewrite bwd_u in I6, I7.
    pose proof RG as (Hw & Hr & Hc & Hp & Hq & _ & _ & HD & Hn & Ht & HL).
    assert (RGu : km_range (Lu u)) by (repeat split; assumption).
    pose proof (pow10i_pos 8) as P8. pose proof (pow10i_pos 60) as P60.
    assert (L60 : / 10 ^ 60 < / 10 ^ 8). { apply Rinv_lt_contravar; [apply Rmult_lt_0_compat; apply pow10_pos|]. apply Rlt_pow; [lra|lia]. }
    assert (TP : 0 < tu u).
    { unfold tu. apply Rmult_lt_0_compat; [|now apply Rinv_0_lt_compat]. apply (Rmult_lt_reg_r (/ l_D L)); [now apply Rinv_0_lt_compat|]. unfold xu, Rdiv in I1. lra. }
    pose proof (smooth_m I4 TP) as I4m.
    pose proof (cont_d _ _ _ d_xu) as CX. pose proof (cont_d _ _ _ d_tu) as CT.
    pose proof (cont_d _ _ _ (d_comp _ _ _ _ _ (d_act _ I4) d_tu)) as CF. pose proof (cont_d _ _ _ (d_comp _ _ _ _ _ (d_act _ I4m) d_tmu)) as CB.
    change (fun y => activation L (tmu y)) with bu in CB. change (fun y => activation L (tu y)) with fu in CF.
    assert (LOC : locally u (fun v => km_mag (Lu v) (S v) = / (/ thermal (Lu v) (S v) + / drag (Lu v) (S v)))).
    { assert (LB : locally u (fun v => bu v < ln_cut \/ / 10 ^ 60 < exp (fu v) - exp (bu v))).
      { destruct (Rlt_dec ln_cut (bu u)) as [B|B].
        - assert (CE : continuous (fun v => exp (fu v) - exp (bu v)) u).
          { apply (continuous_minus (V := R_NormedModule)); [apply (continuous_comp fu exp); [exact CF|apply continuous_exp]|apply (continuous_comp bu exp); [exact CB|apply continuous_exp]]. }
          generalize (loc_gt _ _ _ CE (I7 B)). apply filter_imp. intros v Hv. now right.
        - assert (B' : bu u < ln_cut) by lra. generalize (loc_lt _ _ _ CB B'). apply filter_imp. intros v Hv. now left. }
      generalize (filter_and _ _ (filter_and _ _ (loc_gt _ _ _ CX I1) (loc_lt _ _ _ CT I2)) (filter_and _ _ (loc_gt _ _ _ CF I5) LB)).
      apply filter_imp. intros v [[V1 V2] [V3 V4]]. unfold km_mag. rewrite fwd_u, bwd_u.
      change ((S v - l_ath (Lu v)) / l_D (Lu v)) with (xu v). change ((S v - l_ath (Lu v)) / l_g (Lu v)) with (tu v). change (l_tmax (Lu v)) with (l_tmax L).
      destruct Rlt_dec; [lra|]. destruct Rlt_dec; [lra|]. destruct Rlt_dec; [lra|]. destruct (Rlt_dec ln_cut (bu v)); [|reflexivity].
      destruct Rlt_dec; [lra|reflexivity]. }
    apply (is_derive_ext_loc (fun v => / (/ thermal (Lu v) (S v) + / drag (Lu v) (S v)))).
    { revert LOC. apply filter_imp. intros v Hv. now symmetry. }
    pose proof (d_thermal I4 TP I3 I6) as DT. pose proof (d_drag I1) as DD.
    assert (PW : 0 < thermal (Lu u) (S u)).
    { apply (th_pos (Lu u) RGu). split; [rewrite fwd_u; lra|]. rewrite fwd_u, bwd_u. intros B. specialize (I7 B). lra. }
    assert (PR : 0 < drag (Lu u) (S u)) by (apply (drag_pos (Lu u) RGu); change ((S u - l_ath (Lu u)) / l_D (Lu u)) with (xu u); lra).
    exact (d_harm (fun v => thermal (Lu v) (S v)) (fun v => drag (Lu v) (S v)) u th' dr' DT DD PW PR).
  Qed.
  Lemma d_mag_drag : interior_drag (Lu u) (S u) -> is_derive (fun v => km_mag (Lu v) (S v)) u dr'.
  Proof.
    intros (I1 & I2). change ((S u - l_ath (Lu u)) / l_D (Lu u)) with (xu u) in I1. change ((S u - l_ath (Lu u)) / l_g (Lu u)) with (tu u) in I2.
    change (l_tmax (Lu u)) with (l_tmax L) in I2.
    assert (L60 : / 10 ^ 60 < / 10 ^ 8). { apply Rinv_lt_contravar; [apply Rmult_lt_0_compat; apply pow10_pos|]. apply Rlt_pow; [lra|lia]. }
    apply (is_derive_ext_loc (fun v => drag (Lu v) (S v))); [|now apply d_drag].
    generalize (filter_and _ _ (loc_gt _ _ _ (cont_d _ _ _ d_xu) I1) (loc_gt _ _ _ (cont_d _ _ _ d_tu) I2)). apply filter_imp. intros v [V1 V2].
    unfold km_mag. change ((S v - l_ath (Lu v)) / l_D (Lu v)) with (xu v). change ((S v - l_ath (Lu v)) / l_g (Lu v)) with (tu v). change (l_tmax (Lu v)) with (l_tmax L).
    destruct Rlt_dec; [lra|]. destruct Rlt_dec; [reflexivity|lra].
  Qed.
  Lemma d_mag_off : interior_off (Lu u) (S u) -> is_derive (fun v => km_mag (Lu v) (S v)) u 0.
  Proof.
    intros H. apply (is_derive_ext_loc (fun _ => 0)); [|apply (is_derive_const (V := R_NormedModule) 0 u)].
    destruct H as [I1|(I1 & I2 & I3 & I4)].
    - change ((S u - l_ath (Lu u)) / l_D (Lu u)) with (xu u) in I1. generalize (loc_lt _ _ _ (cont_d _ _ _ d_xu) I1). apply filter_imp. intros v V1.
      unfold km_mag. change ((S v - l_ath (Lu v)) / l_D (Lu v)) with (xu v). destruct Rlt_dec; [reflexivity|lra].
    - change ((S u - l_ath (Lu u)) / l_D (Lu u)) with (xu u) in I1. change ((S u - l_ath (Lu u)) / l_g (Lu u)) with (tu u) in I2, I3.
      change (l_tmax (Lu u)) with (l_tmax L) in I2. change (smooth_at (Lu u)) with (smooth_at L) in I3. rewrite fwd_u in I4.
      pose proof (cont_d _ _ _ (d_comp _ _ _ _ _ (d_act _ I3) d_tu)) as CF. change (fun y => activation L (tu y)) with fu in CF.
      generalize (filter_and _ _ (filter_and _ _ (loc_gt _ _ _ (cont_d _ _ _ d_xu) I1) (loc_lt _ _ _ (cont_d _ _ _ d_tu) I2)) (loc_lt _ _ _ CF I4)). apply filter_imp. intros v [[V1 V2] V3].
      unfold km_mag. rewrite fwd_u. change ((S v - l_ath (Lu v)) / l_D (Lu v)) with (xu v). change ((S v - l_ath (Lu v)) / l_g (Lu v)) with (tu v). change (l_tmax (Lu v)) with (l_tmax L).
      destruct Rlt_dec; [lra|]. destruct Rlt_dec; [lra|]. destruct Rlt_dec; [reflexivity|lra].
  Qed.
End Deriv.

(** ** the code's rate and derivatives *)
Lemma copysign_nn x tau : 0 <= x -> (tau = 0 -> x = 0) -> Rcopysign x tau = sgn tau * x.
Proof.
  intros H Z. destruct (Req_dec tau 0) as [->|N]; [rewrite (Z eq_refl), sgn_0; unfold Rcopysign; destruct Rlt_dec; rewrite ?Rabs_R0; ring|].
  now apply copysign_sgn.
Qed.
Lemma mag_zero L : km_range L -> km_mag L 0 = 0.
Proof.
  intros (_ & _ & _ & _ & _ & Ha & _ & HD & _). unfold km_mag. destruct Rlt_dec as [|N]; [reflexivity|]. elim N. pose proof (pow10i_pos 60).
  apply Rle_lt_trans with 0; [|assumption]. unfold Rdiv. pose proof (Rinv_0_lt_compat _ HD).
  assert (0 <= l_ath L * / l_D L) by (apply Rmult_le_pos; lra). lra.
Qed.
Section Code.
  Variables (k : KM R) (iv : nat).
  Hypothesis OK : km_paramsOk k = true.
  Hypothesis XN : get (km_xn k) iv = get (km_xnn k) iv - 1.

  Lemma rate_law vals tau : km_range (law_of k vals iv) -> rate (km_evalGdot k vals iv tau) = km_law (law_of k vals iv) tau.
  Proof.
    intros RG. unfold km_law. pose proof (mag_nonneg _ RG (Rabs tau)) as NN.
    assert (ZZ : tau = 0 -> km_mag (law_of k vals iv) (Rabs tau) = 0) by (intros ->; rewrite Rabs_R0; now apply mag_zero).
    destruct (Req_dec tau 0) as [E|N].
    - destruct (km_withGAthermal k) eqn:EW.
      + rewrite <- (copysign_nn _ tau NN ZZ). rewrite (eval_form k vals iv OK RG XN tau) by (rewrite EW; discriminate).
        unfold km_mag. destruct Rlt_dec; [unfold km_inactive; cbn; unfold Rcopysign; destruct Rlt_dec; rewrite ?Rabs_R0; lra|].
        destruct Rlt_dec; [reflexivity|]. destruct Rlt_dec; [unfold km_inactive; cbn; unfold Rcopysign; destruct Rlt_dec; rewrite ?Rabs_R0; lra|].
        destruct (Rlt_dec ln_cut _); [|reflexivity].
        destruct Rlt_dec; [unfold km_inactive; cbn; unfold Rcopysign; destruct Rlt_dec; rewrite ?Rabs_R0; lra|reflexivity].
      + rewrite (ZZ E), Rmult_0_r. unfold km_evalGdot. rewrite EW. subst. cbn [negb andb neqb RNum zero nZ]. unfold Reqb. destruct Req_EM_T; [reflexivity|lra].
    - rewrite <- (copysign_nn _ tau NN ZZ). rewrite (eval_form k vals iv OK RG XN tau) by (intros _; exact N).
      unfold km_mag. destruct Rlt_dec; [unfold km_inactive; cbn; unfold Rcopysign; destruct Rlt_dec; rewrite ?Rabs_R0; lra|].
      destruct Rlt_dec; [reflexivity|]. destruct Rlt_dec; [unfold km_inactive; cbn; unfold Rcopysign; destruct Rlt_dec; rewrite ?Rabs_R0; lra|].
      destruct (Rlt_dec ln_cut _); [|reflexivity].
      destruct Rlt_dec; [unfold km_inactive; cbn; unfold Rcopysign; destruct Rlt_dec; rewrite ?Rabs_R0; lra|reflexivity].
  Qed.

  Section At.
  Variable vals : list R.
  Let L := law_of k vals iv.
  Hypothesis RG : km_range L.

  Lemma sgn_sq tau : tau <> 0 -> sgn tau * sgn tau = 1.
  Proof. intros H. unfold sgn. destruct (Rlt_dec tau 0); [ring|]. destruct (Rlt_dec 0 tau); lra. Qed.
  Lemma x_neq0 tau : 0 < (Rabs tau - l_ath L) / l_D L -> tau <> 0.
  Proof.
    intros H E. subst. rewrite Rabs_R0 in H. destruct RG as (_ & _ & _ & _ & _ & Ha & _ & HD & _). pose proof (Rinv_0_lt_compat _ HD).
    unfold Rdiv in H. assert (0 <= l_ath L * / l_D L) by (apply Rmult_le_pos; lra). lra.
  Qed.
  Lemma abs_local tau : tau <> 0 -> locally tau (fun t => Rabs t = sgn tau * t /\ sgn t = sgn tau).
  Proof.
    intros H. destruct (Rtotal_order tau 0) as [N|[Z|P]]; [|contradiction|].
    - generalize (loc_lt (fun t => t) 0 tau (cont_id tau) N). apply filter_imp. intros t Ht. rewrite !sgn_neg, Rabs_left by assumption. split; lra.
    - generalize (loc_gt (fun t => t) 0 tau (cont_id tau) P). apply filter_imp. intros t Ht. rewrite !sgn_pos by assumption. rewrite Rabs_right by lra. split; lra.
  Qed.
  Lemma abs_sgn tau : sgn tau * tau = Rabs tau.
  Proof.
    unfold sgn. destruct (Rlt_dec tau 0); [rewrite Rabs_left; lra|]. destruct (Rlt_dec 0 tau); [rewrite Rabs_right; lra|].
    assert (tau = 0) by lra. subst. rewrite Rabs_R0. ring.
  Qed.
  Lemma d_const (c u : R) : is_derive (fun _ : R => c) u 0.
  Proof. apply (is_derive_const (V := R_NormedModule) c u). Qed.

  (** along the stress *)
  Section Tau.
    Variable tau : R.
    Hypothesis N : tau <> 0.
    Let s := Rabs tau.
    Let AA := fun _ : R => l_ath L. Let GG := fun _ : R => l_g L. Let SS := fun t : R => sgn tau * t.
    Lemma d_SS : is_derive SS tau (sgn tau).
    Proof. unfold SS. auto_derive; [exact I|ring]. Qed.
    Lemma ss_abs : SS tau = s. Proof. apply abs_sgn. Qed.
    Lemma at_same : at_strength L (l_ath L) (l_g L) = L. Proof. destruct L. reflexivity. Qed.
    Lemma rate_path d : is_derive (fun v => km_mag (Lu L AA GG v) (SS v)) tau d ->
      is_derive (fun t => rate (km_evalGdot k vals iv t)) tau (sgn tau * d).
    Proof.
      intros D. apply (is_derive_ext_loc (fun t => sgn tau * km_mag (Lu L AA GG t) (SS t))).
      - generalize (abs_local tau N). apply filter_imp. intros t [A B]. rewrite rate_law by exact RG. unfold km_law, Lu, AA, GG, SS. rewrite at_same, A, B. reflexivity.
      - pose proof (is_derive_scal _ tau (sgn tau) d D) as H. exact H.
    Qed.
  End Tau.

  (** [b_d] is the contribution of the balancing term to the code's thermal derivative *)
  Lemma d_rate_tau tau : interior L (Rabs tau) ->
    is_derive (fun t => rate (km_evalGdot k vals iv t)) tau
      (rate_dtau (km_evalGdot k vals iv tau) +
       2 * (km_mag L (Rabs tau) / thermal L (Rabs tau)) ^ 2 * b_d k vals iv (Rabs tau)).
  Proof.
    intros HI. set (s := Rabs tau). pose proof HI as (I1 & I2 & I3 & I4 & I5 & I6 & I7). fold s in HI, I1, I2, I3, I4, I5, I6, I7. cbv zeta in *.
    assert (L60 : / 10 ^ 60 < / 10 ^ 8). { apply Rinv_lt_contravar; [apply Rmult_lt_0_compat; apply pow10_pos|]. apply Rlt_pow; [lra|lia]. }
    pose proof (pow10i_pos 60) as P60.
    assert (N : tau <> 0) by (apply x_neq0; fold s; lra).
    pose proof RG as (Hw & Hr & Hc & Hp & Hq & Ha & Hg & HD & Hn & Ht & HL).
    set (AA := fun _ : R => l_ath L). set (GG := fun _ : R => l_g L). set (SS := fun t : R => sgn tau * t).
    assert (ES : SS tau = s) by apply abs_sgn.
    assert (EL : Lu L AA GG tau = L) by (unfold Lu, AA, GG; apply at_same).
    assert (NN : 0 <= s) by apply Rabs_pos.
    pose proof (d_mag L RG AA GG SS tau 0 0 (sgn tau) (d_const _ _) (d_const _ _) (d_SS tau) Hg Ha) as D.
    rewrite EL, ES in D. specialize (D HI). cbv zeta in D.
    apply (rate_path tau N) in D. 
    evar_last; [exact D|]. clear D.
    (* the code's value *)
    rewrite (eval_form k vals iv OK RG XN tau) by (intros _; exact N). fold L. fold s.
    destruct (Rlt_dec ((s - l_ath L) / l_D L) (/ 10 ^ 60)); [lra|]. destruct (Rlt_dec (l_tmax L) ((s - l_ath L) / l_g L)); [lra|].
    destruct (Rlt_dec (forward L s) ln_cut); [lra|].
    assert (EG : km_mag L s = / (/ thermal L s + / drag L s)).
    { unfold km_mag. destruct Rlt_dec; [lra|]. destruct Rlt_dec; [lra|]. destruct Rlt_dec; [lra|]. destruct (Rlt_dec ln_cut (backward L s)) as [B|B]; [|reflexivity].
      specialize (I7 B). destruct Rlt_dec; [lra|reflexivity]. }
    replace (if Rlt_dec ln_cut (backward L s) then if Rlt_dec (exp (forward L s) - exp (backward L s)) (/ 10 ^ 60) then true else false else false) with false.
    2:{ destruct (Rlt_dec ln_cut (backward L s)) as [B|B]; [|reflexivity]. specialize (I7 B). destruct Rlt_dec; [lra|reflexivity]. }
    cbn [rate_dtau fst snd]. cbv zeta. rewrite EG. 
    assert (PW : 0 < thermal L s) by (apply (th_pos L RG); split; [lra|intros B; specialize (I7 B); lra]).
    assert (PR : 0 < drag L s) by (apply (drag_pos L RG); lra).
    assert (TP : 0 < tf k vals iv s).
    { rewrite tf_div. fold L. apply Rmult_lt_0_compat; [|now apply Rinv_0_lt_compat]. apply (Rmult_lt_reg_r (/ l_D L)); [now apply Rinv_0_lt_compat|]. unfold Rdiv in I1. lra. }
    assert (ET : tu AA GG SS tau = tf k vals iv s) by (unfold tu, AA, GG; rewrite ES, tf_div; reflexivity).
    assert (EM : tmu AA GG SS tau = tf k vals iv (- s)) by (unfold tmu, AA, GG; rewrite ES, tf_div; reflexivity).
    assert (I4t : smooth_at L (tf k vals iv s)) by (rewrite tf_div; exact I4).
    assert (I4m : smooth_at L (tf k vals iv (- s))).
    { rewrite <- EM. pose proof (smooth_m L AA GG SS tau) as SM. rewrite ET in SM. apply SM; try assumption; lra. }
    assert (MF : forall t, smooth_at L t -> mt k vals iv t = 1 / l_g L * dactL L t).
    { intros t (S1 & S2 & _). unfold mt. fold L. unfold L. rewrite (mts_form k vals iv OK); [reflexivity| |assumption]. intros E1. left. now apply S1. }
    pose proof (sgn_sq tau N) as SQ.
    assert (E1 : sgn tau * th' L AA GG SS tau 0 0 (sgn tau) = w_d k vals iv s + 2 * b_d k vals iv s).
    { unfold th', bal', pl', w_d, b_d, p_d. fold L. rewrite (MF _ I4t), (MF _ I4m). unfold fu, bu. rewrite ET, EM.
      replace (activation L (tf k vals iv s)) with (forward L s) by (unfold forward; now rewrite tf_div).
      replace (activation L (tf k vals iv (- s))) with (backward L s) by (unfold backward; now rewrite tf_div).
      unfold t', tm', GG. fold (Rpower (tf k vals iv s) (l_n L - 1)).
      destruct (Rlt_dec ln_cut (backward L s)), (Rlt_dec (l_tmin L) (tf k vals iv s)); field_simplify_eq; try lra; ring [SQ]. }
    assert (E2 : sgn tau * dr' L AA SS tau 0 (sgn tau) = r_d k vals iv s).
    { unfold dr', r_d, r_temp, xu, AA. fold L. rewrite ES. cbv zeta. destruct (Rlt_dec ((s - l_ath L) / l_D L) (/ 10 ^ 8)); [lra|]. field_simplify_eq; try lra; ring [SQ]. }
    set (W := thermal L s) in *. set (Q := drag L s) in *. set (g := / (/ W + / Q)).
    replace (sgn tau * (g * g * (th' L AA GG SS tau 0 0 (sgn tau) * / (W * W) + dr' L AA SS tau 0 (sgn tau) * / (Q * Q))))
      with (g * g * ((sgn tau * th' L AA GG SS tau 0 0 (sgn tau)) * / (W * W) + (sgn tau * dr' L AA SS tau 0 (sgn tau)) * / (Q * Q))) by ring.
    rewrite E1, E2. field. split; lra.
  Qed.

  Lemma d_rate_tau_drag tau : interior_drag L (Rabs tau) ->
    is_derive (fun t => rate (km_evalGdot k vals iv t)) tau (rate_dtau (km_evalGdot k vals iv tau)).
  Proof.
    intros HI. set (s := Rabs tau). pose proof HI as (I1 & I2). fold s in HI, I1, I2.
    assert (L60 : / 10 ^ 60 < / 10 ^ 8). { apply Rinv_lt_contravar; [apply Rmult_lt_0_compat; apply pow10_pos|]. apply Rlt_pow; [lra|lia]. }
    pose proof (pow10i_pos 60) as P60.
    assert (N : tau <> 0) by (apply x_neq0; fold s; lra).
    pose proof RG as (Hw & Hr & Hc & Hp & Hq & Ha & Hg & HD & Hn & Ht & HL).
    set (AA := fun _ : R => l_ath L). set (GG := fun _ : R => l_g L). set (SS := fun t : R => sgn tau * t).
    assert (ES : SS tau = s) by apply abs_sgn.
    assert (EL : Lu L AA GG tau = L) by (unfold Lu, AA, GG; apply at_same).
    pose proof (d_mag_drag L RG AA GG SS tau 0 0 (sgn tau) (d_const _ _) (d_const _ _) (d_SS tau)) as D.
    rewrite EL, ES in D.
    assert (D' : is_derive (fun v => km_mag (Lu L AA GG v) (SS v)) tau (dr' L AA SS tau 0 (sgn tau))) by (apply D; assumption). clear D.
    apply (rate_path tau N) in D'. evar_last; [exact D'|]. clear D'.
    rewrite (eval_form k vals iv OK RG XN tau) by (intros _; exact N). fold L. fold s.
    destruct (Rlt_dec ((s - l_ath L) / l_D L) (/ 10 ^ 60)); [lra|]. destruct (Rlt_dec (l_tmax L) ((s - l_ath L) / l_g L)); [|lra].
    cbn [rate_dtau fst snd]. unfold dr', r_d, r_temp, xu, AA. fold L. rewrite ES. cbv zeta. destruct (Rlt_dec ((s - l_ath L) / l_D L) (/ 10 ^ 8)); [lra|].
    pose proof (sgn_sq tau N) as SQ. field_simplify_eq; try lra; ring [SQ].
  Qed.
  Lemma d_rate_tau_off tau : tau <> 0 -> interior_off L (Rabs tau) ->
    is_derive (fun t => rate (km_evalGdot k vals iv t)) tau 0 /\ rate_dtau (km_evalGdot k vals iv tau) = 0.
  Proof.
    intros N HI. set (s := Rabs tau). fold s in HI.
    pose proof RG as (Hw & Hr & Hc & Hp & Hq & Ha & Hg & HD & Hn & Ht & HL).
    set (AA := fun _ : R => l_ath L). set (GG := fun _ : R => l_g L). set (SS := fun t : R => sgn tau * t).
    assert (ES : SS tau = s) by apply abs_sgn.
    assert (EL : Lu L AA GG tau = L) by (unfold Lu, AA, GG; apply at_same).
    split.
    - pose proof (d_mag_off L RG AA GG SS tau 0 0 (sgn tau) (d_const _ _) (d_const _ _) (d_SS tau)) as D.
      rewrite EL, ES in D.
      assert (D' : is_derive (fun v => km_mag (Lu L AA GG v) (SS v)) tau 0) by (apply D; assumption). clear D.
      apply (rate_path tau N) in D'. evar_last; [exact D'|]. ring.
    - rewrite (eval_form k vals iv OK RG XN tau) by (intros _; exact N). fold L. fold s. destruct HI as [I1|(I1 & I2 & I3 & I4)].
      + destruct Rlt_dec; [reflexivity|lra].
      + destruct Rlt_dec; [reflexivity|]. destruct Rlt_dec; [lra|]. destruct Rlt_dec; [reflexivity|lra].
  Qed.

  (** along the strength *)
  Hypothesis LEN : (2 + iv < length vals)%nat.
  Hypothesis NV : (1 <= km_nVPer k)%nat.
  Let g0 := get vals (2 + iv).
  Definition ath_at (v : R) : R := if km_withGAthermal k then v else l_ath L.
  Definition g_at (v : R) : R := if km_withGAthermal k then l_g L else v.
  Lemma law_at v : law_of k (with_entry vals (2 + iv) v) iv = at_strength L (ath_at v) (g_at v).
  Proof.
    assert (E0 : forall j, j <> (2 + iv)%nat -> get (with_entry vals (2 + iv) v) j = get vals j).
    { intros j H. rewrite with_entry_upd by exact LEN. apply get_upd_other. now apply not_eq_sym. }
    assert (E1 : get (with_entry vals (2 + iv) v) (2 + iv) = v).
    { rewrite with_entry_upd by exact LEN. now apply get_upd_same. }
    unfold law_of, at_strength, ath_at, g_at, L, law_of. cbn [l_w l_r l_c l_p l_q l_lin l_ath l_g l_D l_n l_tmin l_tmax].
    rewrite E1, !E0 by lia. destruct (km_withGAthermal k); reflexivity.
  Qed.
  Lemma ath_g0 : ath_at g0 = l_ath L. Proof. unfold ath_at, g0, L, law_of. cbn. destruct (km_withGAthermal k); reflexivity. Qed.
  Lemma g_g0 : g_at g0 = l_g L. Proof. unfold g_at, g0, L, law_of. cbn. destruct (km_withGAthermal k); reflexivity. Qed.
  Lemma range_at v : 0 < v -> km_range (at_strength L (ath_at v) (g_at v)).
  Proof.
    intros H. pose proof RG as (Hw & Hr & Hc & Hp & Hq & Ha & Hg & HD & Hn & Ht & HL). unfold km_range, at_strength, ath_at, g_at. cbn [l_w l_r l_c l_p l_q l_lin l_ath l_g l_D l_n l_tmin l_tmax].
    destruct (km_withGAthermal k); repeat (apply conj); try assumption; lra.
  Qed.
  Lemma g_path tau d : 0 < g0 -> is_derive (fun v => km_mag (Lu L ath_at g_at v) (Rabs tau)) g0 d ->
    is_derive (fun v => rate (km_evalGdot k (with_entry vals (2 + iv) v) iv tau)) g0 (sgn tau * d).
  Proof.
    intros P D. apply (is_derive_ext_loc (fun v => sgn tau * km_mag (Lu L ath_at g_at v) (Rabs tau))).
    - generalize (loc_gt (fun v => v) 0 g0 (cont_id g0) P). apply filter_imp. intros v Hv. rewrite rate_law by (rewrite law_at; now apply range_at).
      unfold km_law. rewrite law_at. reflexivity.
    - pose proof (is_derive_scal _ g0 (sgn tau) d D) as H. exact H.
  Qed.
  Lemma d_ath : is_derive ath_at g0 (if km_withGAthermal k then 1 else 0).
  Proof. unfold ath_at. destruct (km_withGAthermal k); [apply (is_derive_id (K := R_AbsRing) g0)|apply d_const]. Qed.
  Lemma d_g_at : is_derive g_at g0 (if km_withGAthermal k then 0 else 1).
  Proof. unfold g_at. destruct (km_withGAthermal k); [apply d_const|apply (is_derive_id (K := R_AbsRing) g0)]. Qed.
  Lemma Lu_g0 : Lu L ath_at g_at g0 = L.
  Proof. unfold Lu. rewrite ath_g0, g_g0. apply at_same. Qed.
  Lemma copy_sgn x tau : 0 <= x -> tau <> 0 -> Rcopysign x tau = sgn tau * x.
  Proof. intros. apply copysign_nn; [assumption|contradiction]. Qed.

  Lemma d_rate_g tau : 0 < g0 -> interior L (Rabs tau) ->
    is_derive (fun v => rate (km_evalGdot k (with_entry vals (2 + iv) v) iv tau)) g0 (rate_dg (km_evalGdot k vals iv tau)).
  Proof.
    intros PG HI. set (s := Rabs tau). pose proof HI as (I1 & I2 & I3 & I4 & I5 & I6 & I7). fold s in HI, I1, I2, I3, I4, I5, I6, I7. cbv zeta in *.
    assert (L60 : / 10 ^ 60 < / 10 ^ 8). { apply Rinv_lt_contravar; [apply Rmult_lt_0_compat; apply pow10_pos|]. apply Rlt_pow; [lra|lia]. }
    pose proof (pow10i_pos 60) as P60.
    assert (N : tau <> 0) by (apply x_neq0; fold s; lra).
    pose proof RG as (Hw & Hr & Hc & Hp & Hq & Ha & Hg & HD & Hn & Ht & HL).
    set (SS := fun _ : R => s).
    assert (NN : 0 <= s) by apply Rabs_pos.
    pose proof (d_mag L RG ath_at g_at SS g0 (if km_withGAthermal k then 1 else 0 : R) (if km_withGAthermal k then 0 else 1 : R) 0 d_ath d_g_at (d_const _ _)) as D.
    rewrite Lu_g0, ath_g0, g_g0 in D. specialize (D Hg Ha HI). cbv zeta in D.
    apply (g_path tau _ PG) in D. evar_last; [exact D|]. clear D. change (SS g0) with s.
    rewrite (eval_form k vals iv OK RG XN tau) by (intros _; exact N). fold L. fold s.
    destruct (Rlt_dec ((s - l_ath L) / l_D L) (/ 10 ^ 60)); [lra|]. destruct (Rlt_dec (l_tmax L) ((s - l_ath L) / l_g L)); [lra|].
    destruct (Rlt_dec (forward L s) ln_cut); [lra|].
    replace (if Rlt_dec ln_cut (backward L s) then if Rlt_dec (exp (forward L s) - exp (backward L s)) (/ 10 ^ 60) then true else false else false) with false.
    2:{ destruct (Rlt_dec ln_cut (backward L s)) as [B|B]; [|reflexivity]. specialize (I7 B). destruct Rlt_dec; [lra|reflexivity]. }
    cbn [rate_dg fst snd]. cbv zeta.
    assert (PW : 0 < thermal L s) by (apply (th_pos L RG); split; [lra|intros B; specialize (I7 B); lra]).
    assert (PR : 0 < drag L s) by (apply (drag_pos L RG); lra).
    assert (TP : 0 < tf k vals iv s).
    { rewrite tf_div. fold L. apply Rmult_lt_0_compat; [|now apply Rinv_0_lt_compat]. apply (Rmult_lt_reg_r (/ l_D L)); [now apply Rinv_0_lt_compat|]. unfold Rdiv in I1. lra. }
    assert (ET : tu ath_at g_at SS g0 = tf k vals iv s) by (unfold tu; rewrite ath_g0, g_g0, tf_div; reflexivity).
    assert (EM : tmu ath_at g_at SS g0 = tf k vals iv (- s)) by (unfold tmu; rewrite ath_g0, g_g0, tf_div; reflexivity).
    assert (I4t : smooth_at L (tf k vals iv s)) by (rewrite tf_div; exact I4).
    assert (I4m : smooth_at L (tf k vals iv (- s))).
    { rewrite <- EM. pose proof (smooth_m L ath_at g_at SS g0) as SM. rewrite ET, ath_g0, g_g0 in SM. apply SM; try assumption; change (SS g0) with s; lra. }
    assert (MF : forall t, smooth_at L t -> mt k vals iv t = 1 / l_g L * dactL L t).
    { intros t (S1 & S2 & _). unfold mt. fold L. unfold L. rewrite (mts_form k vals iv OK); [reflexivity| |assumption]. intros E1. left. now apply S1. }
    set (W := thermal L s) in *. set (Q := drag L s) in *. set (g := / (/ W + / Q)).
    assert (GP : 0 < g). { unfold g. apply Rinv_0_lt_compat. apply Rplus_lt_0_compat; now apply Rinv_0_lt_compat. }
    rewrite (copy_sgn g tau) by (assumption || lra).
    assert (E2 : dr' L ath_at SS g0 (if km_withGAthermal k then 1 else 0) 0 = - (if km_withGAthermal k then r_d k vals iv s else 0)).
    { unfold dr', r_d, r_temp, xu. fold L. rewrite ath_g0. change (SS g0) with s. cbv zeta. destruct (Rlt_dec ((s - l_ath L) / l_D L) (/ 10 ^ 8)); [lra|].
      destruct (km_withGAthermal k); field; lra. }
    assert (E1 : th' L ath_at g_at SS g0 (if km_withGAthermal k then 1 else 0) (if km_withGAthermal k then 0 else 1) 0
                 = - (if km_withGAthermal k then w_d k vals iv s else w_g k vals iv s)).
    { unfold th', bal', pl', w_d, w_g, b_d, p_d. fold L. rewrite (MF _ I4t), (MF _ I4m). unfold fu, bu, t', tm'. rewrite ET, EM, g_g0.
      replace (activation L (tf k vals iv s)) with (forward L s) by (unfold forward; now rewrite tf_div).
      replace (activation L (tf k vals iv (- s))) with (backward L s) by (unfold backward; now rewrite tf_div).
      fold (Rpower (tf k vals iv s) (l_n L - 1)).
      destruct (km_withGAthermal k), (Rlt_dec ln_cut (backward L s)), (Rlt_dec (l_tmin L) (tf k vals iv s)); field; lra. }
    rewrite E1, E2. destruct (km_withGAthermal k); field; lra.
  Qed.
  Lemma d_rate_g_drag tau : 0 < g0 -> interior_drag L (Rabs tau) ->
    is_derive (fun v => rate (km_evalGdot k (with_entry vals (2 + iv) v) iv tau)) g0 (rate_dg (km_evalGdot k vals iv tau)).
  Proof.
    intros PG HI. set (s := Rabs tau). pose proof HI as (I1 & I2). fold s in HI, I1, I2.
    assert (L60 : / 10 ^ 60 < / 10 ^ 8). { apply Rinv_lt_contravar; [apply Rmult_lt_0_compat; apply pow10_pos|]. apply Rlt_pow; [lra|lia]. }
    pose proof (pow10i_pos 60) as P60.
    assert (N : tau <> 0) by (apply x_neq0; fold s; lra).
    pose proof RG as (Hw & Hr & Hc & Hp & Hq & Ha & Hg & HD & Hn & Ht & HL).
    set (SS := fun _ : R => s).
    assert (NN : 0 <= s) by apply Rabs_pos.
    pose proof (d_mag_drag L RG ath_at g_at SS g0 (if km_withGAthermal k then 1 else 0 : R) (if km_withGAthermal k then 0 else 1 : R) 0 d_ath d_g_at (d_const _ _)) as D.
    rewrite Lu_g0, ?ath_g0, ?g_g0 in D.
    assert (D' : is_derive (fun v => km_mag (Lu L ath_at g_at v) (SS v)) g0 (dr' L ath_at SS g0 (if km_withGAthermal k then 1 else 0) 0)) by (apply D; assumption). clear D.
    apply (g_path tau _ PG) in D'. evar_last; [exact D'|]. clear D'.
    rewrite (eval_form k vals iv OK RG XN tau) by (intros _; exact N). fold L. fold s.
    destruct (Rlt_dec ((s - l_ath L) / l_D L) (/ 10 ^ 60)); [lra|]. destruct (Rlt_dec (l_tmax L) ((s - l_ath L) / l_g L)); [|lra].
    cbn [rate_dg fst snd]. unfold dr', r_d, r_temp, xu. fold L. rewrite ath_g0. change (SS g0) with s. cbv zeta. destruct (Rlt_dec ((s - l_ath L) / l_D L) (/ 10 ^ 8)); [lra|].
    destruct (km_withGAthermal k); [|field; lra]. rewrite copy_sgn; [field; lra| |assumption].
    pose proof (exp_pos (- ((s - l_ath L) / l_D L))). pose proof (Rinv_0_lt_compat _ HD). unfold Rdiv. apply Rmult_le_pos; [|lra]. apply Rmult_le_pos; lra.
  Qed.
  Lemma d_rate_g_off tau : 0 < g0 -> tau <> 0 -> interior_off L (Rabs tau) ->
    is_derive (fun v => rate (km_evalGdot k (with_entry vals (2 + iv) v) iv tau)) g0 0 /\ rate_dg (km_evalGdot k vals iv tau) = 0.
  Proof.
    intros PG N HI. set (s := Rabs tau). fold s in HI. set (SS := fun _ : R => s). 
    pose proof RG as (Hw & Hr & Hc & Hp & Hq & Ha & Hg & HD & Hn & Ht & HL).
    split.
    - pose proof (d_mag_off L RG ath_at g_at SS g0 (if km_withGAthermal k then 1 else 0 : R) (if km_withGAthermal k then 0 else 1 : R) 0 d_ath d_g_at (d_const _ _)) as D. rewrite Lu_g0, ?ath_g0, ?g_g0 in D.
      assert (D' : is_derive (fun v => km_mag (Lu L ath_at g_at v) (SS v)) g0 0) by (apply D; assumption). clear D.
      apply (g_path tau _ PG) in D'. evar_last; [exact D'|]. ring.
    - rewrite (eval_form k vals iv OK RG XN tau) by (intros _; exact N). fold L. fold s. destruct HI as [I1|(I1 & I2 & I3 & I4)].
      + destruct Rlt_dec; [reflexivity|lra].
      + destruct Rlt_dec; [reflexivity|]. destruct Rlt_dec; [lra|]. destruct Rlt_dec; [reflexivity|lra].
  Qed.
  End At.
End Code.
