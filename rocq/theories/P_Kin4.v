(** The balancing term in the reported derivative, and the inputs on which properties of the thermally activated
    kinetics fail. *)
From Coq Require Import List ZArith Bool Lia Reals Lra.
From Coquelicot Require Import Coquelicot.
From Verif Require Import Num Arr NumR Util Hard KinVoce KinKMBalD SpecKin P_KinV P_Hard P_KinKM P_Kin2.
Import ListNotations.
Local Open Scope R_scope.

Section Bal.
  Variables (k : KM R) (vals : list R) (iv : nat).
  Let L := law_of k vals iv.
  Hypothesis OK : km_paramsOk k = true.
  Hypothesis RG : km_range L.
  Lemma tmu_m (A G S : R -> R) (u : R) : (forall v, A v = l_ath L) -> (forall v, G v = l_g L) -> tmu A G S u = tf k vals iv (- S u).
  Proof. intros HA HG. unfold tmu. rewrite HA, HG, tf_div. reflexivity. Qed.
  Lemma d_balanced s : 0 < (s - l_ath L) / l_g L -> smooth_at L ((s - l_ath L) / l_g L) -> backward L s <> ln_cut ->
    is_derive (balanced L) s (- b_d k vals iv s) /\ (backward L s < ln_cut -> b_d k vals iv s = 0).
  Proof.
    intros TP HS HB. pose proof RG as (Hw & Hr & Hc & Hp & Hq & Ha & Hg & HD & Hn & Ht & HL).
    set (A := fun _ : R => l_ath L). set (G := fun _ : R => l_g L). set (S := fun t : R => t).
    assert (SP : 0 <= s).
    { apply Rnot_lt_le. intros N. assert ((s - l_ath L) / l_g L < 0); [|lra]. unfold Rdiv. pose proof (Rinv_0_lt_compat _ Hg). nra. }
    assert (HSm : smooth_at L (tmu A G S s)).
    { apply (smooth_m L A G S s); try assumption; unfold A, S; try lra. }
    assert (DI : is_derive S s 1) by apply (is_derive_id (K := R_AbsRing) s).
    pose proof (d_tmu A G S s 0 0 1 (d_const _ _) (d_const _ _) DI Hg) as DT.
    pose proof (d_comp _ _ _ _ _ (d_act L RG _ HSm) DT) as DB.
    change (fun y => activation L (tmu A G S y)) with (backward L) in DB.
    assert (EM : tmu A G S s = tf k vals iv (- s)) by (unfold tmu, A, G, S; rewrite tf_div; reflexivity).
    assert (MF : mt k vals iv (tf k vals iv (- s)) = 1 / l_g L * dactL L (tf k vals iv (- s))).
    { rewrite EM in HSm. destruct HSm as (S1 & S2 & _). unfold mt. fold L. unfold L. rewrite (mts_form k vals iv OK); [reflexivity| |assumption]. intros E1. left. now apply S1. }
    pose proof (cont_d _ _ _ DB) as CB. unfold b_d. fold L. destruct (Rlt_dec ln_cut (backward L s)) as [B|B].
    - split; [|lra]. apply (is_derive_ext_loc (fun v => l_w L * exp (backward L v))).
      + generalize (loc_gt _ _ _ CB B). apply filter_imp. intros v Hv. unfold balanced. destruct Rlt_dec; [reflexivity|contradiction].
      + pose proof (is_derive_unique _ _ _ DB) as U0. auto_derive; [eexists; exact DB|]. change (fun x0 : R => backward L x0) with (backward L). rewrite U0.
        rewrite MF, EM. unfold tm', G. change (get vals 0) with (l_w L). field. lra.
    - split; [|reflexivity]. rewrite Ropp_0. apply (is_derive_ext_loc (fun v => 0)); [|apply (is_derive_const (V := R_NormedModule) 0 s)].
      assert (B' : backward L s < ln_cut) by lra. generalize (loc_lt _ _ _ CB B'). apply filter_imp. intros v Hv. unfold balanced. destruct Rlt_dec; [lra|reflexivity].
  Qed.
End Bal.

(** ** a crystal of parameters in the documented ranges *)
Definition wit_P (D : R) : list R := [1; 1; 30; 0; 1; 1; 1; 1; D; 1; 0; 1; 1; 1; 1; 1].
Lemma pow_one x : 0 < x -> Rpower x 1 = x. Proof. apply Rpower_1. Qed.
Lemma wit_ok D : 0 < D -> km_params_ok false true 1 (wit_P D) 1 1 0.
Proof. intros H. unfold km_params_ok, wit_P, km_strength. cbn [nth Nat.add]. rewrite sqrt_1. repeat split; try lra. Qed.
Lemma root60 : Rpower (10 ^ 60) (/ 60) = 10.
Proof. rewrite <- Rpower_pow by lra. rewrite Rpower_mult. replace (INR 60 * / 60) with 1 by (rewrite INR_IZR_INZ; cbn; field). apply Rpower_1. lra. Qed.
Lemma root60i : Rpower (/ 10 ^ 60) (/ 60) = / 10.
Proof. transitivity (/ Rpower (10 ^ 60) (/ 60)); [|now rewrite root60]. unfold Rpower. rewrite ln_Rinv by apply pow10_pos. rewrite <- exp_Ropp. f_equal. ring. Qed.
Lemma wit_exp D : km_exponent 1 (wit_P D) 0 = 60.
Proof. unfold km_exponent, wit_P. cbn [nth Nat.add]. field. Qed.
Definition wit_L (D : R) : KMLaw := {| l_w := 1; l_r := 1; l_c := 30; l_p := 1; l_q := 1; l_lin := true; l_ath := 0; l_g := 1; l_D := D; l_n := 60; l_tmin := / 10; l_tmax := 10 |}.
Lemma wit_law D : km_spec false true 1 (wit_P D) 1 1 0 = wit_L D.
Proof.
  unfold km_spec, wit_L. rewrite wit_exp, root60, root60i. unfold wit_P, km_strength. cbn [nth Nat.add]. rewrite sqrt_1. f_equal; field.
Qed.

(** derivative *)
Lemma wit_interior : interior (wit_L 1) (/ 2) /\ ln_cut < backward (wit_L 1) (/ 2).
Proof.
  assert (SP : forall t, spow (wit_L 1) t = t) by reflexivity.
  pose proof (pow10i_pos 90) as P90. assert (B90 : / 10 ^ 90 < / 10).
  { apply Rinv_lt_contravar; [apply Rmult_lt_0_compat; [lra|apply pow10_pos]|]. rewrite <- (pow_1 10) at 1. apply Rlt_pow; [lra|lia]. }
  assert (B60 : / 10 ^ 60 < / 10 ^ 45).
  { apply Rinv_lt_contravar; [apply Rmult_lt_0_compat; apply pow10_pos|]. apply Rlt_pow; [lra|lia]. }
  assert (B8 : / 10 ^ 8 < / 10).
  { apply Rinv_lt_contravar; [apply Rmult_lt_0_compat; [lra|apply pow10_pos]|]. rewrite <- (pow_1 10) at 1. apply Rlt_pow; [lra|lia]. }
  assert (F : forward (wit_L 1) (/ 2) = - 15).
  { unfold forward, activation. rewrite SP. cbn [l_ath l_g wit_L l_c l_q]. destruct Rlt_dec as [A|A]; [lra|]. rewrite Rpower_1 by lra. field. }
  assert (B : backward (wit_L 1) (/ 2) = - 45).
  { unfold backward, activation. rewrite SP. cbn [l_ath l_g wit_L l_c l_q]. destruct Rlt_dec as [A|A]; [lra|]. rewrite Rpower_1 by lra. field. }
  assert (E45 : / 10 ^ 60 < exp (- 45)).
  { change (/ 10 ^ 60 < exp (Ropp 45)). rewrite exp_Ropp. apply Rinv_lt_contravar; [apply Rmult_lt_0_compat; [apply exp_pos|apply pow10_pos]|].
    replace 45 with (INR 45) by (rewrite INR_IZR_INZ; reflexivity). rewrite <- (Rmult_1_r (INR 45)), Rmult_comm, <- Rpower_pow with (n := 60%nat) by lra.
    unfold Rpower. apply exp_increasing. rewrite Rmult_1_l.
    assert (1 < ln 10). { rewrite <- (ln_exp 1). apply ln_increasing; [apply exp_pos|]. pose proof exp_le_3. lra. }
    rewrite !INR_IZR_INZ. cbn [Z.of_nat Pos.of_succ_nat Pos.succ]. lra. }
  assert (E15 : exp (- 15) = exp (- 45) * exp 30) by (rewrite <- exp_plus; f_equal; lra).
  assert (E30 : 31 <= exp 30) by (pose proof (exp_ineq1 30); lra).
  unfold interior. rewrite F, B. cbn [l_ath l_g wit_L l_D l_tmin l_tmax]. unfold smooth_at. rewrite SP.
  split; [|unfold ln_cut; lra].
  pose proof (exp_pos (- 45)) as XP. pose proof (Rmult_le_compat_l _ _ _ (Rlt_le _ _ XP) E30) as X. rewrite <- E15 in X.
  repeat split; try lra; try (unfold ln_cut; lra); try (intros; discriminate); intros; lra.
Qed.
Lemma wit_bd k vals iv : km_paramsOk k = true -> law_of k vals iv = wit_L 1 -> km_qOne k = true -> 0 < b_d k vals iv (/ 2).
Proof.
  intros OK EL Q1. unfold b_d. rewrite EL. destruct Rlt_dec as [_|N]; [|elim N; apply wit_interior].
  assert (RG : km_range (law_of k vals iv)) by (rewrite EL; unfold km_range; cbn; repeat split; lra).
  assert (ET : tf k vals iv (- / 2) = - / 2) by (unfold tf; rewrite EL; cbn [l_ath l_g wit_L]; lra).
  rewrite ET. assert (SP : spow (wit_L 1) (- / 2) = - / 2) by reflexivity.
  pose proof (pow10i_pos 90) as P90. assert (B90 : / 10 ^ 90 < / 10).
  { apply Rinv_lt_contravar; [apply Rmult_lt_0_compat; [lra|apply pow10_pos]|]. rewrite <- (pow_1 10) at 1. apply Rlt_pow; [lra|lia]. }
  apply Rmult_lt_0_compat; [|cbn [l_w wit_L]; rewrite Rmult_1_l; apply exp_pos].
  unfold mt. rewrite (mts_form k vals iv OK); [|assert (X : l_lin (law_of k vals iv) = true) by (rewrite EL; reflexivity); change (km_pOne k = true) in X; congruence|lra].
  rewrite EL. cbn [snd]. unfold dact. 
  match goal with |- 0 < 1 / l_g (wit_L 1) * ?x => change (0 < 1 / 1 * x) end.
  fold (law_of k vals iv). rewrite EL, SP. cbn [l_c l_p l_q wit_L].
  destruct Rlt_dec; [lra|]. rewrite Rpower_1 by lra. match goal with |- 0 < ?x => replace x with 30 by (field; lra) end. lra.
Qed.

(** monotonicity: the linearised drag rate below x = 1e-8 is larger than the rate just above *)
Definition wit_s2 : R := 100.
Definition wit_s1 : R := 10 ^ 10 * ((1 - exp (- / 10 ^ 8)) + / 10 ^ 8) / 2.
Lemma exp_below x : 0 < x -> 1 - x < exp (- x).
Proof. intros H. pose proof (exp_ineq1 (- x)). lra. Qed.
Lemma wit_drop : 0 <= wit_s1 < wit_s2 /\ km_mag (wit_L (10 ^ 10)) wit_s2 < km_mag (wit_L (10 ^ 10)) wit_s1.
Proof.
  set (e := / 10 ^ 8). assert (PE : 0 < e) by apply pow10i_pos. set (u := 1 - exp (- e)).
  assert (U1 : u < e) by (unfold u; pose proof (exp_below e PE); lra).
  assert (U2 : e - e * e / 2 <= u) by (unfold u; pose proof (exp_quad e (Rlt_le _ _ PE)); lra).
  assert (E8 : 10 ^ 10 * e = 100) by (unfold e; field_simplify; lra).
  assert (EV : e = 1 / 100000000) by (unfold e; field_simplify; lra).
  assert (EE : e * e / 2 <= e / 10) by nra.
  set (y := (u + e) / 2).
  assert (Y : wit_s1 = 10 ^ 10 * y) by (unfold wit_s1, y; fold e; fold u; field).
  assert (P10 : 0 < 10 ^ 10) by apply pow10_pos.
  assert (Y1 : u < y < e) by (unfold y; lra). assert (Y0 : 9 / 10 * e <= y) by (unfold y; lra).
  assert (S1 : wit_s1 / 10 ^ 10 = y) by (rewrite Y; field; lra).
  assert (S2 : wit_s2 / 10 ^ 10 = e) by (unfold wit_s2; rewrite <- E8; field; lra).
  assert (V1 : 90 <= wit_s1 < 100) by (rewrite Y; nra).
  assert (L60 : / 10 ^ 60 < 9 / 10 * e).
  { apply Rlt_trans with (/ 10 ^ 9). apply Rinv_lt_contravar; [apply Rmult_lt_0_compat; apply pow10_pos|apply Rlt_pow; [lra|lia]].
    rewrite EV. field_simplify. lra. }
  split; [unfold wit_s2; lra|].
  unfold km_mag, drag. cbn [l_ath l_D l_g l_r l_tmax wit_L]. rewrite !Rminus_0_r, S1, S2. fold e.
  unfold wit_s2. destruct (Rlt_dec e (/ 10 ^ 60)); [lra|]. destruct (Rlt_dec 10 (100 / 1)); [|lra].
  destruct (Rlt_dec e e); [lra|]. destruct (Rlt_dec y (/ 10 ^ 60)); [lra|]. destruct (Rlt_dec 10 (wit_s1 / 1)); [|lra].
  destruct (Rlt_dec y e); [|lra]. fold u. lra.
Qed.

(** the evaluation of slip system [v] as evalGdots makes it after setParams and getVals, ECMech_kinetics_KMBalD.h:64-299 *)
Definition km_eval (ga p1 q1 per : bool) (n : nat) (P : list R) (pr T rho : R) (v : nat) (tau : R) : R * bool * R * R :=
  let k := km_setParams ga p1 q1 per n P in km_evalGdot k (fst (km_getVals k pr T [rho])) v tau.
(** same, with the strength that getVals computed for the group of [v] replaced *)
Definition km_eval_g (ga p1 q1 per : bool) (n : nat) (P : list R) (pr T rho : R) (v : nat) (g tau : R) : R * bool * R * R :=
  let k := km_setParams ga p1 q1 per n P in km_evalGdot k (with_entry (fst (km_getVals k pr T [rho])) (2 + v) g) v tau.

Section Eval.
  Variables (ga p1 q1 per : bool) (n : nat) (P : list R) (pr T rho : R) (v : nat).
  Hypothesis Hv : (v < n)%nat.
  Hypothesis PO : km_params_ok ga p1 n P rho T v.
  Hypothesis Q1 : q1 = true -> nth (4 + n) P 0 = 1.
  Let k := km_setParams ga p1 q1 per n P.
  Let vals := fst (km_getVals k pr T [rho]).
  Let L := km_spec ga p1 n P rho T v.
  Lemma e_rho : 0 < rho. Proof. apply PO. Qed.
  Lemma e_ok : km_paramsOk k = true.
  Proof. apply set_ok; [apply PO|exact Q1]. Qed.
  Lemma e_law : law_of k vals v = L.
  Proof. apply set_law; [exact Hv|exact e_rho]. Qed.
  Lemma e_range : km_range L.
  Proof. exact (spec_range ga p1 q1 per n P pr T rho v e_rho (proj1 (proj2 PO)) PO). Qed.
  Lemma e_xn : get (km_xn k) v = get (km_xnn k) v - 1.
  Proof. now apply set_xn. Qed.
  Lemma e_len : (2 + v < length vals)%nat.
  Proof. unfold vals, k. rewrite vals_len. lia. Qed.
  Lemma e_nv : (1 <= km_nVPer k)%nat.
  Proof. unfold k. cbn. lia. Qed.
  Lemma e_g : get vals (2 + v) = km_strength n P rho v.
  Proof.
    pose proof e_law as E. destruct ga eqn:EG.
    - assert (X := f_equal l_ath E). unfold law_of in X. cbn [l_ath] in X. unfold k in X at 1. cbn [km_withGAthermal km_setParams] in X. exact X.
    - assert (X := f_equal l_g E). unfold law_of in X. cbn [l_g] in X. unfold k in X at 1. cbn [km_withGAthermal km_setParams] in X. exact X.
  Qed.

  Lemma km_eval_law tau : rate (km_eval ga p1 q1 per n P pr T rho v tau) = km_law L tau.
  Proof.
    unfold km_eval. cbv zeta. fold k. fold vals. rewrite (rate_law k v e_ok e_xn vals tau); rewrite e_law; [reflexivity|exact e_range].
  Qed.
  Lemma km_sign tau : 0 <= tau * km_law L tau.
  Proof.
    unfold km_law. replace (tau * (sgn tau * km_mag L (Rabs tau))) with ((sgn tau * tau) * km_mag L (Rabs tau)) by ring.
    rewrite abs_sgn. apply Rmult_le_pos; [apply Rabs_pos|]. apply mag_nonneg, e_range.
  Qed.
  Lemma km_odd tau : km_law L (- tau) = - km_law L tau.
  Proof.
    unfold km_law. rewrite Rabs_Ropp. unfold sgn. repeat destruct Rlt_dec; try lra.
  Qed.
  Lemma km_law_abs tau : Rabs (km_law L tau) = km_mag L (Rabs tau).
  Proof.
    unfold km_law. pose proof (mag_nonneg L e_range (Rabs tau)) as H. destruct (Req_dec tau 0) as [->|N].
    - rewrite Rabs_R0 in *. rewrite (mag_zero L e_range), Rmult_0_r. apply Rabs_R0.
    - unfold sgn. destruct Rlt_dec; [|destruct Rlt_dec; [|lra]].
      + rewrite Rabs_left1 by lra. lra.
      + rewrite Rabs_right by lra. lra.
  Qed.
  Lemma km_near t1 t2 : Rabs t1 <= Rabs t2 -> Rabs (km_law L t1) <= (1 + / 10 ^ 8) * Rabs (km_law L t2).
  Proof.
    intros H. rewrite !km_law_abs. apply mag_near; [exact e_range|exact H|left; apply pow10i_pos|]. intros A. apply drag_near; [exact e_range|exact H|exact A].
  Qed.
  Lemma km_same t1 t2 : Rabs t1 <= Rabs t2 ->
    ((Rabs t1 - l_ath L) / l_D L < / 10 ^ 8 <-> (Rabs t2 - l_ath L) / l_D L < / 10 ^ 8) -> Rabs (km_law L t1) <= Rabs (km_law L t2).
  Proof.
    intros H E. rewrite !km_law_abs. rewrite <- (Rmult_1_l (km_mag L (Rabs t2))). replace 1 with (1 + 0) by ring.
    apply mag_near; [exact e_range|exact H|lra|]. intros A. rewrite Rplus_0_r, Rmult_1_l. apply drag_mono; [exact e_range|exact H|exact A|exact E].
  Qed.
  Lemma km_dtau_actual tau : interior L (Rabs tau) -> exists b, is_derive (balanced L) (Rabs tau) (- b) /\ (backward L (Rabs tau) < ln_cut -> b = 0) /\
    is_derive (fun t => rate (km_eval ga p1 q1 per n P pr T rho v t)) tau
      (rate_dtau (km_eval ga p1 q1 per n P pr T rho v tau) + 2 * (km_mag L (Rabs tau) / thermal L (Rabs tau)) ^ 2 * b).
  Proof.
    intros HI. pose proof e_range as RG. rewrite <- e_law in HI, RG. pose proof HI as (I1 & I2 & I3 & I4 & I5 & I6 & I7). cbv zeta in *.
    assert (TP : 0 < (Rabs tau - l_ath (law_of k vals v)) / l_g (law_of k vals v)).
    { pose proof RG as (_ & _ & _ & _ & _ & _ & Hg & HD & _). apply Rmult_lt_0_compat; [|now apply Rinv_0_lt_compat].
      apply (Rmult_lt_reg_r (/ l_D (law_of k vals v))); [now apply Rinv_0_lt_compat|]. pose proof (pow10i_pos 8). unfold Rdiv in I1. lra. }
    destruct (d_balanced k vals v e_ok RG (Rabs tau) TP I4 I6) as [B1 B2]. pose proof (d_rate_tau k v e_ok e_xn vals RG tau HI) as D.
    rewrite e_law in *. exists (b_d k vals v (Rabs tau)). refine (conj B1 (conj B2 _)). exact D.
  Qed.
End Eval.
