(** Consequences for the slip rates of the models as set up from their parameters. *)
From Coq Require Import List ZArith Bool Lia Reals Lra.
From Coquelicot Require Import Coquelicot.
From Verif Require Import Num Arr NumR Util Hard KinVoce KinKMBalD SpecKin P_KinV P_Hard P_KinKM.
Import ListNotations.
Local Open Scope R_scope.

(** ** the law of a parameter vector *)
Section Set_.
  Variables (ga lin q1 per : bool) (n : nat) (P : list R).
  Let k := km_setParams ga lin q1 per n P.
  Lemma n_pos v : (v < n)%nat -> IZR (Z.of_nat n) <> 0.
  Proof. intros H. apply not_0_IZR. lia. Qed.
  Lemma xm_inv v : (v < n)%nat ->
    1 / (2 * (get (sub P 2 n) v / get P 1 * get P 0 * get P (2 + n + 1) * get P (2 + n + 2))) = / km_exponent n P v.
  Proof.
    intros H. unfold km_exponent. rewrite get_sub by assumption. unfold get. change (@nundef R RNum) with 0.
    replace (2 + n + 1)%nat with (3 + n)%nat by lia. replace (2 + n + 2)%nat with (4 + n)%nat by lia. unfold Rdiv. rewrite Rmult_1_l. reflexivity.
  Qed.
  Lemma set_xnn v : (v < n)%nat -> get (km_xnn k) v = km_exponent n P v.
  Proof.
    intros H. unfold k, km_setParams. cbn [km_xnn]. rewrite get_tab by assumption.
    change (1 / (1 / (2 * (get (sub P 2 n) v / get P 1 * get P 0 * get P (2 + n + 1) * get P (2 + n + 2)))) = km_exponent n P v).
    rewrite (xm_inv v H). unfold Rdiv. now rewrite Rmult_1_l, Rinv_inv.
  Qed.
  Lemma set_xn v : (v < n)%nat -> get (km_xn k) v = get (km_xnn k) v - 1.
  Proof. intros H. unfold k, km_setParams. cbn [km_xn km_xnn]. rewrite !get_tab by assumption. reflexivity. Qed.
  Lemma set_tmin v : (v < n)%nat -> get (km_t_min k) v = Rpower (/ 10 ^ 60) (/ km_exponent n P v).
  Proof.
    intros H. unfold k, km_setParams. cbn [km_t_min]. rewrite get_tab by assumption. rewrite lit_gmin.
    change (Rpow (/ 10 ^ 60) (1 / (2 * (get (sub P 2 n) v / get P 1 * get P 0 * get P (2 + n + 1) * get P (2 + n + 2)))) = Rpower (/ 10 ^ 60) (/ km_exponent n P v)).
    rewrite (xm_inv v H). apply Rpow_pos. apply pow10i_pos.
  Qed.
  Lemma set_tmax v : (v < n)%nat -> get (km_t_max k) v = Rpower (10 ^ 60) (/ km_exponent n P v).
  Proof.
    intros H. unfold k, km_setParams. cbn [km_t_max]. rewrite get_tab by assumption. rewrite lit_govf.
    change (Rpow (10 ^ 60) (1 / (2 * (get (sub P 2 n) v / get P 1 * get P 0 * get P (2 + n + 1) * get P (2 + n + 2)))) = Rpower (10 ^ 60) (/ km_exponent n P v)).
    rewrite (xm_inv v H). apply Rpow_pos. apply pow10_pos.
  Qed.
  Lemma set_ok : (lin = true -> nth (3 + n) P 0 = 1) -> (q1 = true -> nth (4 + n) P 0 = 1) -> km_paramsOk k = true.
  Proof.
    intros H1 H2. unfold km_paramsOk, k, km_setParams. cbn [km_pOne km_qOne km_p km_q]. unfold get. change (@nundef R RNum) with 0.
    replace (2 + n + 1)%nat with (3 + n)%nat by lia. replace (2 + n + 2)%nat with (4 + n)%nat by lia.
    apply andb_true_intro. split.
    - destruct lin; [|reflexivity]. rewrite (H1 eq_refl). cbn. unfold Reqb. destruct Req_EM_T; [reflexivity|lra].
    - destruct q1; [|reflexivity]. rewrite (H2 eq_refl). cbn. unfold Reqb. destruct Req_EM_T; [reflexivity|lra].
  Qed.

  Variables (pr T rho : R) (v : nat).
  Hypothesis Hv : (v < n)%nat.
  Hypothesis Hrho : 0 < rho.
  Let vals := fst (km_getVals k pr T [rho]).
  Lemma vals_len : length vals = (2 + n + n)%nat.
  Proof. unfold vals, km_getVals. cbn [fst]. rewrite app_length, app_length, !tab_length. reflexivity. Qed.
  Lemma set_law : law_of k vals v = km_spec ga lin n P rho T v.
  Proof.
    assert (E0 : get vals 0 = nth (5 + n) P 0 / sqrt rho).
    { unfold vals, km_getVals, k, km_setParams. cbn [fst app get nth km_gam_wo]. rops. unfold get. cbn [nth]. f_equal. f_equal. lia. }
    assert (E1 : get vals 1 = nth (6 + n) P 0 * rho).
    { unfold vals, km_getVals, k, km_setParams. cbn [fst app get nth km_gam_ro]. rops. unfold get. cbn [nth].
      rewrite Rmult_assoc, sqrt_sqrt by lra. f_equal. f_equal. lia. }
    assert (E2 : get vals (2 + v) = km_strength n P rho v).
    { unfold vals, km_getVals. cbn [fst]. rewrite get_app2 by (cbn; lia). cbn [length]. replace (2 + v - 2)%nat with v by lia.
      unfold k at 1. unfold k at 1. change (km_nVPer (km_setParams ga lin q1 per n P)) with n. rewrite get_app1 by (rewrite tab_length; assumption). rewrite get_tab by assumption.
      unfold k, km_setParams, km_strength. cbn [km_go km_s]. rewrite !get_sub by assumption. unfold get. cbn [nth]. rops.
      f_equal; [f_equal; lia|]. f_equal. f_equal. lia. }
    assert (E3 : get vals (2 + n + v) = nth (2 + v) P 0 / T).
    { unfold vals, km_getVals. cbn [fst]. rewrite get_app2 by (cbn; lia). cbn [length].
      unfold k at 1. unfold k at 1. unfold k at 1. change (km_nVPer (km_setParams ga lin q1 per n P)) with n. rewrite get_app2 by (rewrite tab_length; lia). rewrite tab_length.
      replace (2 + n + v - 2 - n)%nat with v by lia. rewrite get_tab by assumption. unfold k, km_setParams. cbn [km_c_1]. rewrite get_sub by assumption. reflexivity. }
    unfold law_of, km_spec. change (km_nVPer k) with n. rewrite E0, E1, E2, E3. rewrite (set_xnn v Hv), (set_tmin v Hv), (set_tmax v Hv).
    unfold k, km_setParams. cbn [km_mu_ref km_p km_q km_pOne km_withGAthermal km_tau_a km_wrD]. unfold get. change (@nundef R RNum) with 0.
    replace (2 + n + 1)%nat with (3 + n)%nat by lia. replace (2 + n + 2)%nat with (4 + n)%nat by lia. replace (2 + n + 5)%nat with (7 + n)%nat by lia.
    reflexivity.
  Qed.
  Lemma spec_range : 0 < T -> km_params_ok ga lin n P rho T v -> km_range (km_spec ga lin n P rho T v).
  Proof.
    intros HT (R0 & R1 & R2 & R3 & R4 & R5 & R6 & R7 & R8 & R9 & R10 & R11). unfold km_range, km_spec. cbn [l_w l_r l_c l_p l_q l_lin l_ath l_g l_D l_n l_tmin l_tmax].
    pose proof (sqrt_lt_R0 _ Hrho). pose proof (Rinv_0_lt_compat _ R3). pose proof (Rinv_0_lt_compat _ R1).
    repeat (apply conj); try assumption.
    - apply Rmult_lt_0_compat; [assumption|now apply Rinv_0_lt_compat].
    - now apply Rmult_lt_0_compat.
    - unfold Rdiv. apply Rmult_lt_0_compat; [|assumption]. now apply Rmult_lt_0_compat.
    - destruct ga; lra.
    - destruct ga; lra.
    - unfold km_exponent, Rdiv. repeat apply Rmult_lt_0_compat; try assumption; lra.
    - left. apply Rpower_pos.
  Qed.
End Set_.

(** ** sums *)
Lemma dissipation_nonneg tau gdot : (forall i, (i < length gdot)%nat -> 0 <= nth i tau 0 * nth i gdot 0) -> 0 <= dissipation tau gdot.
Proof.
  unfold dissipation. revert gdot. induction tau as [|t tau IH]; intros [|g gdot] H; cbn; try lra.
  pose proof (H 0%nat ltac:(cbn; lia)) as H0. cbn in H0. assert (0 <= fold_right Rplus 0 (map (fun p => fst p * snd p) (combine tau gdot))).
  { apply IH. intros i Hi. apply (H (S i)). cbn. lia. } lra.
Qed.
