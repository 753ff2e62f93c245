(** Proofs about the Voce power-law kinetics. *)
From Coq Require Import List ZArith Bool Lia Reals Lra.
From Coquelicot Require Import Coquelicot.
From Verif Require Import Num Arr NumR Util Hard KinVoce SpecKin.
Import ListNotations.
Local Open Scope R_scope.

(** ** real-number helpers *)
Lemma lit_gmin : (gam_ratio_min : R) = / 10 ^ 60.
Proof. unfold gam_ratio_min. cbn [nlit RNum]. unfold Rlit. change (10 ^ Z.pos 60)%Z with (10 ^ Z.of_nat 60)%Z. rewrite <- pow_IZR. lra. Qed.
Lemma lit_govf : (gam_ratio_ovf : R) = 10 ^ 60.
Proof. unfold gam_ratio_ovf. cbn [nlit RNum]. unfold Rlit. rewrite Z.mul_1_l. change (10 ^ 60)%Z with (10 ^ Z.of_nat 60)%Z. now rewrite <- pow_IZR. Qed.
Lemma lit_govffx : (gam_ratio_ovffx : R) = 10 ^ 45.
Proof. unfold gam_ratio_ovffx. cbn [nlit RNum]. unfold Rlit. rewrite Z.mul_1_l. change (10 ^ 45)%Z with (10 ^ Z.of_nat 45)%Z. now rewrite <- pow_IZR. Qed.
Lemma lit_tiny : (idp_tiny_sqrt : R) = / 10 ^ 90.
Proof. unfold idp_tiny_sqrt. cbn [nlit RNum]. unfold Rlit. change (10 ^ Z.pos 90)%Z with (10 ^ Z.of_nat 90)%Z. rewrite <- pow_IZR. lra. Qed.
Lemma lit_eps : (idp_eps_sqrt : R) = / 10 ^ 8.
Proof. unfold idp_eps_sqrt. cbn [nlit RNum]. unfold Rlit. change (10 ^ Z.pos 8)%Z with (10 ^ Z.of_nat 8)%Z. rewrite <- pow_IZR. lra. Qed.
Lemma pow10_pos n : 0 < 10 ^ n.
Proof. apply pow_lt. lra. Qed.
Lemma pow10i_pos n : 0 < / 10 ^ n.
Proof. apply Rinv_0_lt_compat, pow10_pos. Qed.
Lemma Rpow_pos x y : 0 < x -> Rpow x y = Rpower x y.
Proof. intros H. unfold Rpow. destruct (Rlt_dec 0 x); [reflexivity|contradiction]. Qed.
Lemma Rpower_pos x y : 0 < Rpower x y.
Proof. unfold Rpower. apply exp_pos. Qed.

Lemma sgn_pos x : 0 < x -> sgn x = 1.
Proof. intros H. unfold sgn. destruct (Rlt_dec x 0); [lra|]. destruct (Rlt_dec 0 x); lra. Qed.
Lemma sgn_neg x : x < 0 -> sgn x = -1.
Proof. intros H. unfold sgn. destruct (Rlt_dec x 0); lra. Qed.
Lemma sgn_0 : sgn 0 = 0.
Proof. unfold sgn. destruct (Rlt_dec 0 0); lra. Qed.
Lemma sgn_abs x : sgn x * Rabs x = x.
Proof. unfold sgn. destruct (Rlt_dec x 0); [rewrite Rabs_left; lra|]. destruct (Rlt_dec 0 x); [rewrite Rabs_right; lra|]. assert (x = 0) by lra. subst. lra. Qed.
Lemma sgn_opp x : sgn (- x) = - sgn x.
Proof. unfold sgn. destruct (Rlt_dec x 0), (Rlt_dec (- x) 0), (Rlt_dec 0 x), (Rlt_dec 0 (- x)); lra. Qed.
Lemma sgn_bound x : Rabs (sgn x) <= 1.
Proof. unfold sgn. destruct (Rlt_dec x 0); [rewrite Rabs_left; lra|]. destruct (Rlt_dec 0 x); [rewrite Rabs_right; lra|rewrite Rabs_R0; lra]. Qed.
Lemma sgn_mul_self x : 0 <= sgn x * x.
Proof. unfold sgn. destruct (Rlt_dec x 0); [lra|]. destruct (Rlt_dec 0 x); lra. Qed.
Lemma copysign_sgn x y : 0 <= x -> y <> 0 -> Rcopysign x y = sgn y * x.
Proof. intros H Hy. unfold Rcopysign, sgn. rewrite (Rabs_right x) by lra. destruct (Rlt_dec y 0); [lra|]. destruct (Rlt_dec 0 y); lra. Qed.

(** strict inequalities of continuous functions hold near the point *)
Lemma loc_gt (f : R -> R) c x : continuous f x -> c < f x -> locally x (fun t => c < f t).
Proof. intros H L. exact (H (fun y => c < y) (open_gt c (f x) L)). Qed.
Lemma loc_lt (f : R -> R) c x : continuous f x -> f x < c -> locally x (fun t => f t < c).
Proof. intros H L. exact (H (fun y => y < c) (open_lt c (f x) L)). Qed.
Lemma cont_absdiv (g x : R) : continuous (fun t => Rabs t / g) x.
Proof.
  apply (continuous_mult (fun t => Rabs t) (fun _ => / g)); [|apply continuous_const].
  apply (continuous_comp (fun t => t) Rabs); [apply continuous_id|]. apply continuous_Rabs.
Qed.
Lemma cont_id (x : R) : continuous (fun t : R => t) x.
Proof. apply continuous_id. Qed.

(** ** slip rate *)
Section VoceRate.
  Variable v : Voce R.
  Variable gw xm : R.
  Hypothesis Hgw : v_gam_w v = gw.
  Hypothesis Hxn : v_xn v = 1 / xm - 1.
  Hypothesis Hxnn : v_xnn v = 1 / xm.
  Hypothesis Htmin : v_t_min v = Rpower (/ 10 ^ 60) xm.
  Hypothesis Htmax : v_t_max v = Rpower (10 ^ 60) xm.

  Lemma frac_abs g tau : 0 < g -> Rabs (tau * (1 / g)) = Rabs tau / g.
  Proof. intros H. rewrite Rabs_mult. unfold Rdiv. rewrite Rmult_1_l, (Rabs_right (/ g)); [reflexivity|]. left. now apply Rinv_0_lt_compat. Qed.
  Lemma thr_neq0 g tau : Rpower (/ 10 ^ 60) xm < Rabs tau / g -> tau <> 0.
  Proof. intros H E. subst. rewrite Rabs_R0 in H. unfold Rdiv in H. rewrite Rmult_0_l in H. generalize (Rpower_pos (/ 10 ^ 60) xm). lra. Qed.

  (** the three branches, in closed form *)
  Lemma gdot_cases g tau : 0 < g -> 0 <= gw ->
    voce_evalGdot v g tau =
      if Rle_dec (Rabs tau / g) (Rpower (/ 10 ^ 60) xm) then (0, false, 0, 0)
      else if Rle_dec (Rabs tau / g) (Rpower (10 ^ 60) xm) then
        (power_rate gw xm g tau, true, gw * Rpower (Rabs tau / g) (1 / xm - 1) * (1 / xm) / g,
         - (gw * Rpower (Rabs tau / g) (1 / xm - 1) * (1 / xm) / g) * (tau / g))
      else (sgn tau * (10 ^ 45 * gw), true, 0, 0).
  Proof.
    intros Hg Hw. unfold voce_evalGdot. rops. rewrite Hgw, Hxn, Hxnn, Htmin, Htmax, lit_govffx.
    change (@nabs R RNum) with Rabs. rewrite (frac_abs g tau Hg).
    destruct (Rle_dec (Rabs tau / g) (Rpower (/ 10 ^ 60) xm)) as [L|L].
    - assert (E : Rltb (Rpower (/ 10 ^ 60) xm) (Rabs tau / g) = false) by now apply Rltb_false. now rewrite E.
    - apply Rnot_le_lt in L. pose proof (thr_neq0 g tau L) as Ht.
      assert (E : Rltb (Rpower (/ 10 ^ 60) xm) (Rabs tau / g) = true) by now apply Rltb_true. rewrite E.
      destruct (Rle_dec (Rabs tau / g) (Rpower (10 ^ 60) xm)) as [M|M].
      + assert (F : Rltb (Rpower (10 ^ 60) xm) (Rabs tau / g) = false) by now apply Rltb_false. rewrite F.
        assert (P : 0 < Rabs tau / g) by (apply Rlt_trans with (2 := L); apply Rpower_pos).
        fold (Rpower (Rabs tau / g) (1 / xm - 1)).
        assert (Q : gw * Rpower (Rabs tau / g) (1 / xm - 1) * (tau * (1 / g)) = power_rate gw xm g tau).
        { unfold power_rate. replace (1 / xm) with ((1 / xm - 1) + 1) at 2 by ring. rewrite Rpower_plus, Rpower_1 by assumption.
          rewrite <- (sgn_abs tau) at 2. unfold Rdiv. ring. }
        rewrite Q. f_equal; [f_equal|]; unfold Rdiv; ring.
      + apply Rnot_le_lt in M. assert (F : Rltb (Rpower (10 ^ 60) xm) (Rabs tau / g) = true) by now apply Rltb_true. rewrite F.
        rewrite copysign_sgn; [reflexivity| |exact Ht]. apply Rmult_le_pos; [left; apply pow10_pos|assumption].
  Qed.
  Lemma gdot_law g tau : 0 < g -> 0 <= gw -> rate (voce_evalGdot v g tau) = voce_law gw xm g tau.
  Proof.
    intros Hg Hw. rewrite gdot_cases by assumption. unfold voce_law.
    destruct (Rle_dec (Rabs tau / g) (Rpower (/ 10 ^ 60) xm)); [reflexivity|].
    destruct (Rle_dec (Rabs tau / g) (Rpower (10 ^ 60) xm)); reflexivity.
  Qed.
  Lemma gdot_active g tau : 0 < g -> 0 < gw -> active (voce_evalGdot v g tau) = true <-> rate (voce_evalGdot v g tau) <> 0.
  Proof.
    intros Hg Hw. rewrite gdot_cases by (try assumption; lra).
    destruct (Rle_dec (Rabs tau / g) (Rpower (/ 10 ^ 60) xm)) as [L|L]; [split; [discriminate|intros H; exfalso; now apply H]|].
    apply Rnot_le_lt in L. pose proof (thr_neq0 g tau L) as Ht.
    assert (S : sgn tau <> 0). { unfold sgn. destruct (Rlt_dec tau 0); [lra|]. destruct (Rlt_dec 0 tau); lra. }
    destruct (Rle_dec (Rabs tau / g) (Rpower (10 ^ 60) xm)); (split; [intros _|reflexivity]); cbn [rate fst]; unfold power_rate.
    - generalize (Rpower_pos (Rabs tau / g) (1 / xm)). intros P. apply Rmult_integral_contrapositive. split; [|lra].
      apply Rmult_integral_contrapositive. split; [assumption|lra].
    - apply Rmult_integral_contrapositive. split; [assumption|]. generalize (pow10_pos 45). intros. apply Rmult_integral_contrapositive. lra.
  Qed.

  (** derivatives *)
  Lemma d_power (g tau : R) : xm <> 0 -> 0 < g -> tau <> 0 ->
    is_derive (power_rate gw xm g) tau (gw * Rpower (Rabs tau / g) (1 / xm - 1) * (1 / xm) / g).
  Proof.
    intros Hxm Hg Ht. pose proof (Rinv_0_lt_compat g Hg) as Hgi.
    assert (E : forall u, 0 < u -> 1 / xm * exp (1 / xm * ln u) / u = 1 / xm * Rpower u (1 / xm - 1)).
    { intros u Hu. fold (Rpower u (1 / xm)). replace (1 / xm) with ((1 / xm - 1) + 1) at 2 by ring.
      rewrite Rpower_plus, Rpower_1 by assumption. field_simplify; [reflexivity|lra|lra]. }
    assert (EN : forall t, t < 0 -> - gw * exp (1 / xm * ln (- t / g)) = power_rate gw xm g t).
    { intros t Hn. unfold power_rate, Rpower. rewrite sgn_neg by assumption. rewrite Rabs_left by assumption. ring. }
    assert (EP : forall t, 0 < t -> gw * exp (1 / xm * ln (t / g)) = power_rate gw xm g t).
    { intros t Hn. unfold power_rate, Rpower. rewrite sgn_pos by assumption. rewrite Rabs_right by lra. ring. }
    destruct (Rtotal_order tau 0) as [N|[Z|P]]; [|contradiction|].
    - apply (is_derive_ext_loc (fun t => - gw * exp (1 / xm * ln (- t / g)))).
      + apply (filter_imp (fun t => t < 0)); [|apply loc_lt; [apply cont_id|assumption]].
        exact EN.
      + rewrite Rabs_left by assumption. auto_derive.
        * apply Rmult_lt_0_compat; lra.
        * assert (U : 0 < - tau / g) by (apply Rmult_lt_0_compat; lra).
          replace (gw * Rpower (- tau / g) (1 / xm - 1) * (1 / xm) / g) with (gw / g * (1 / xm * Rpower (- tau / g) (1 / xm - 1))) by (unfold Rdiv; ring).
          rewrite <- (E _ U). unfold Rdiv. field. repeat split; lra.
    - apply (is_derive_ext_loc (fun t => gw * exp (1 / xm * ln (t / g)))).
      + apply (filter_imp (fun t => 0 < t)); [|apply loc_gt; [apply cont_id|assumption]].
        exact EP.
      + rewrite Rabs_right by lra. auto_derive.
        * apply Rmult_lt_0_compat; lra.
        * assert (U : 0 < tau / g) by (apply Rmult_lt_0_compat; lra).
          replace (gw * Rpower (tau / g) (1 / xm - 1) * (1 / xm) / g) with (gw / g * (1 / xm * Rpower (tau / g) (1 / xm - 1))) by (unfold Rdiv; ring).
          rewrite <- (E _ U). unfold Rdiv. field. repeat split; lra.
  Qed.

  Lemma d_power_g (g tau : R) : xm <> 0 -> 0 < g -> tau <> 0 ->
    is_derive (fun g => power_rate gw xm g tau) g (- (gw * Rpower (Rabs tau / g) (1 / xm - 1) * (1 / xm) / g) * (tau / g)).
  Proof.
    intros Hxm Hg Ht. pose proof (Rabs_pos_lt tau Ht) as Ha.
    assert (U : 0 < Rabs tau / g) by (apply Rmult_lt_0_compat; [assumption|now apply Rinv_0_lt_compat]).
    apply (is_derive_ext (fun g => sgn tau * gw * exp (1 / xm * ln (Rabs tau / g)))); [reflexivity|].
    auto_derive; [split; [lra|split; [exact U|exact I]]|].
    assert (E : exp (1 / xm * ln (Rabs tau / g)) = Rpower (Rabs tau / g) (1 / xm - 1) * (Rabs tau / g)).
    { fold (Rpower (Rabs tau / g) (1 / xm)). replace (1 / xm) with ((1 / xm - 1) + 1) at 1 by ring.
      now rewrite Rpower_plus, Rpower_1 by assumption. }
    change (Rabs tau * / g) with (Rabs tau / g).
    rewrite E. replace (tau / g) with (sgn tau * Rabs tau / g) by (now rewrite sgn_abs). field. repeat split; lra.
  Qed.

  Lemma const_branch (f : R -> R) c x (D : R -> Prop) : locally x D -> (forall t, D t -> f t = c) -> is_derive f x 0.
  Proof.
    intros HD H. apply (is_derive_ext_loc (fun _ => c)); [|apply (is_derive_const (V := R_NormedModule) c x)].
    apply (filter_imp D); [|exact HD]. intros t Ht. symmetry. now apply H.
  Qed.

  Lemma d_tau g tau : 0 < g -> 0 <= gw -> xm <> 0 ->
    Rabs tau / g <> Rpower (/ 10 ^ 60) xm -> Rabs tau / g <> Rpower (10 ^ 60) xm ->
    is_derive (fun t => rate (voce_evalGdot v g t)) tau (rate_dtau (voce_evalGdot v g tau)).
  Proof.
    intros Hg Hw Hxm N1 N2. pose proof (cont_absdiv g tau) as C.
    rewrite (gdot_cases g tau Hg Hw). apply (is_derive_ext (voce_law gw xm g)); [intros t; symmetry; now apply gdot_law|].
    destruct (Rle_dec (Rabs tau / g) (Rpower (/ 10 ^ 60) xm)) as [L|L]; cbn [rate_dtau fst snd].
    - apply (const_branch _ 0 tau (fun t => Rabs t / g < Rpower (/ 10 ^ 60) xm)); [apply (loc_lt (fun t => Rabs t / g)); [exact C|lra]|].
      intros t Ht. unfold voce_law. destruct Rle_dec; [reflexivity|lra].
    - apply Rnot_le_lt in L. pose proof (thr_neq0 g tau L) as Ht.
      pose proof (loc_gt (fun t => Rabs t / g) _ tau C L) as L1.
      destruct (Rle_dec (Rabs tau / g) (Rpower (10 ^ 60) xm)) as [M|M]; cbn [rate_dtau fst snd].
      + apply (is_derive_ext_loc (power_rate gw xm g)); [|now apply d_power].
        assert (L2 : locally tau (fun t => Rabs t / g < Rpower (10 ^ 60) xm)) by (apply (loc_lt (fun t => Rabs t / g)); [exact C|lra]).
        generalize (filter_and _ _ L1 L2). apply filter_imp. intros t [A B]. unfold voce_law.
        destruct Rle_dec; [lra|]. destruct Rle_dec; [reflexivity|lra].
      + apply Rnot_le_lt in M. pose proof (loc_gt (fun t => Rabs t / g) _ tau C M) as L2.
        destruct (Rtotal_order tau 0) as [Hn|[Hz|Hp]]; [|contradiction|].
        * apply (const_branch _ (-1 * (10 ^ 45 * gw)) tau (fun t => (Rpower (/ 10 ^ 60) xm < Rabs t / g /\ Rpower (10 ^ 60) xm < Rabs t / g) /\ t < 0)).
          { apply filter_and; [now apply filter_and|]. apply (loc_lt (fun t => t)); [apply cont_id|assumption]. }
          intros t [[A B] D]. unfold voce_law. destruct Rle_dec; [lra|]. destruct Rle_dec; [lra|]. now rewrite sgn_neg.
        * apply (const_branch _ (1 * (10 ^ 45 * gw)) tau (fun t => (Rpower (/ 10 ^ 60) xm < Rabs t / g /\ Rpower (10 ^ 60) xm < Rabs t / g) /\ 0 < t)).
          { apply filter_and; [now apply filter_and|]. apply (loc_gt (fun t => t)); [apply cont_id|assumption]. }
          intros t [[A B] D]. unfold voce_law. destruct Rle_dec; [lra|]. destruct Rle_dec; [lra|]. now rewrite sgn_pos.
  Qed.
  Lemma d_g g tau : 0 < g -> 0 <= gw -> xm <> 0 ->
    Rabs tau / g <> Rpower (/ 10 ^ 60) xm -> Rabs tau / g <> Rpower (10 ^ 60) xm ->
    is_derive (fun g => rate (voce_evalGdot v g tau)) g (rate_dg (voce_evalGdot v g tau)).
  Proof.
    intros Hg Hw Hxm N1 N2.
    assert (C : continuous (fun g => Rabs tau / g) g).
    { apply (continuous_mult (fun _ => Rabs tau) (fun g => / g)); [apply continuous_const|].
      apply (ex_derive_continuous (fun g => / g)). auto_derive. lra. }
    assert (G : locally g (fun g => 0 < g)) by (apply (loc_gt (fun t => t)); [apply cont_id|assumption]).
    rewrite (gdot_cases g tau Hg Hw). apply (is_derive_ext_loc (fun g => voce_law gw xm g tau)).
    { revert G. apply filter_imp. intros t Ht. symmetry. now apply gdot_law. }
    destruct (Rle_dec (Rabs tau / g) (Rpower (/ 10 ^ 60) xm)) as [L|L]; cbn [rate_dg fst snd].
    - apply (const_branch _ 0 g (fun g => Rabs tau / g < Rpower (/ 10 ^ 60) xm)); [apply (loc_lt (fun g => Rabs tau / g)); [exact C|lra]|].
      intros t Ht. unfold voce_law. destruct Rle_dec; [reflexivity|lra].
    - apply Rnot_le_lt in L. pose proof (thr_neq0 g tau L) as Ht.
      pose proof (loc_gt (fun g => Rabs tau / g) _ g C L) as L1.
      destruct (Rle_dec (Rabs tau / g) (Rpower (10 ^ 60) xm)) as [M|M]; cbn [rate_dg fst snd].
      + apply (is_derive_ext_loc (fun g => power_rate gw xm g tau)); [|now apply d_power_g].
        assert (L2 : locally g (fun g => Rabs tau / g < Rpower (10 ^ 60) xm)) by (apply (loc_lt (fun g => Rabs tau / g)); [exact C|lra]).
        generalize (filter_and _ _ L1 L2). apply filter_imp. intros t [A B]. unfold voce_law.
        destruct Rle_dec; [lra|]. destruct Rle_dec; [reflexivity|lra].
      + apply Rnot_le_lt in M. pose proof (loc_gt (fun g => Rabs tau / g) _ g C M) as L2.
        apply (const_branch _ (sgn tau * (10 ^ 45 * gw)) g (fun g => (Rpower (/ 10 ^ 60) xm < Rabs tau / g /\ Rpower (10 ^ 60) xm < Rabs tau / g))); [now apply filter_and|].
        intros t [A B]. unfold voce_law. destruct Rle_dec; [lra|]. destruct Rle_dec; [lra|reflexivity].
  Qed.
End VoceRate.

(** ** the law *)
Lemma law_odd gw xm g tau : voce_law gw xm g (- tau) = - voce_law gw xm g tau.
Proof.
  unfold voce_law, power_rate. rewrite Rabs_Ropp, sgn_opp.
  destruct Rle_dec; [ring|]. destruct Rle_dec; ring.
Qed.
Lemma law_sign gw xm g tau : 0 <= gw -> 0 <= tau * voce_law gw xm g tau.
Proof.
  intros Hw. unfold voce_law, power_rate. pose proof (sgn_mul_self tau) as S.
  destruct Rle_dec; [lra|]. destruct Rle_dec.
  - replace (tau * (sgn tau * gw * Rpower (Rabs tau / g) (1 / xm))) with (sgn tau * tau * (gw * Rpower (Rabs tau / g) (1 / xm))) by ring.
    apply Rmult_le_pos; [assumption|]. apply Rmult_le_pos; [assumption|]. left. apply Rpower_pos.
  - replace (tau * (sgn tau * (10 ^ 45 * gw))) with (sgn tau * tau * (10 ^ 45 * gw)) by ring.
    apply Rmult_le_pos; [assumption|]. apply Rmult_le_pos; [left; apply pow10_pos|assumption].
Qed.
Lemma sgn_abs1 x : x <> 0 -> Rabs (sgn x) = 1.
Proof. intros H. unfold sgn. destruct (Rlt_dec x 0); [rewrite Rabs_left; lra|]. destruct (Rlt_dec 0 x); [rewrite Rabs_right; lra|lra]. Qed.
Lemma law_mono gw xm g t1 t2 : 0 < g -> 0 <= gw -> 0 < xm -> Rabs t1 <= Rabs t2 -> Rabs t2 / g <= Rpower (10 ^ 60) xm ->
  Rabs (voce_law gw xm g t1) <= Rabs (voce_law gw xm g t2).
Proof.
  intros Hg Hw Hxm H12 HM. pose proof (Rinv_0_lt_compat g Hg) as Hgi. pose proof (Rpower_pos (/ 10 ^ 60) xm) as P0.
  assert (U : Rabs t1 / g <= Rabs t2 / g) by (apply Rmult_le_compat_r; lra).
  unfold voce_law. destruct (Rle_dec (Rabs t1 / g) (Rpower (/ 10 ^ 60) xm)) as [L1|L1]; [rewrite Rabs_R0; apply Rabs_pos|].
  apply Rnot_le_lt in L1.
  destruct (Rle_dec (Rabs t2 / g) (Rpower (/ 10 ^ 60) xm)); [lra|].
  destruct (Rle_dec (Rabs t1 / g) (Rpower (10 ^ 60) xm)); [|lra].
  destruct (Rle_dec (Rabs t2 / g) (Rpower (10 ^ 60) xm)); [|lra].
  unfold power_rate. rewrite !Rabs_mult, !sgn_abs1.
  2:{ apply (thr_neq0 xm g). lra. }
  2:{ apply (thr_neq0 xm g). lra. }
  rewrite !(Rabs_right (Rpower _ _)) by (left; apply Rpower_pos).
  apply Rmult_le_compat_l; [generalize (Rabs_pos gw); lra|].
  apply Rle_Rpower_l; [|lra]. unfold Rdiv. rewrite Rmult_1_l. left. now apply Rinv_0_lt_compat.
Qed.
Lemma law_drop gw xm g : 0 < g -> 0 < gw -> 0 < xm ->
  let t1 := g * Rpower (10 ^ 60) xm in
  voce_law gw xm g t1 = 10 ^ 60 * gw /\ forall t2, t1 < t2 -> voce_law gw xm g t2 = 10 ^ 45 * gw.
Proof.
  intros Hg Hw Hxm t1. pose proof (Rpower_pos (10 ^ 60) xm) as P1. pose proof (Rpower_pos (/ 10 ^ 60) xm) as P0.
  assert (T1 : 0 < t1) by (apply Rmult_lt_0_compat; assumption).
  assert (E1 : Rabs t1 / g = Rpower (10 ^ 60) xm) by (rewrite Rabs_right by lra; unfold t1; field; lra).
  assert (LT : Rpower (/ 10 ^ 60) xm < Rpower (10 ^ 60) xm).
  { unfold Rpower. apply exp_increasing. apply Rmult_lt_compat_l; [assumption|]. apply ln_increasing; [apply pow10i_pos|].
    assert (1 < 10 ^ 60) by (apply Rlt_pow_R1; [lra|lia]). apply Rlt_trans with 1; [|assumption]. rewrite <- Rinv_1. apply Rinv_lt_contravar; lra. }
  split.
  - unfold voce_law. rewrite E1. destruct Rle_dec; [lra|]. destruct Rle_dec; [|lra].
    unfold power_rate. rewrite E1, sgn_pos by assumption. rewrite Rpower_mult. replace (xm * (1 / xm)) with 1 by (field; lra).
    rewrite Rpower_1 by apply pow10_pos. ring.
  - intros t2 H. assert (E2 : Rpower (10 ^ 60) xm < Rabs t2 / g).
    { rewrite <- E1. rewrite !Rabs_right by lra. apply Rmult_lt_compat_r; [now apply Rinv_0_lt_compat|assumption]. }
    unfold voce_law. destruct Rle_dec; [lra|]. destruct Rle_dec; [lra|]. rewrite sgn_pos by lra. ring.
Qed.

(** the model of setParams meets the section's hypotheses *)
Lemma voce_set nl (p : list R) : v_gam_w (voce_setParams nl p) = nth 2 p 0 /\
  v_xn (voce_setParams nl p) = 1 / nth 1 p 0 - 1 /\ v_xnn (voce_setParams nl p) = 1 / nth 1 p 0 /\
  v_t_min (voce_setParams nl p) = Rpower (/ 10 ^ 60) (nth 1 p 0) /\ v_t_max (voce_setParams nl p) = Rpower (10 ^ 60) (nth 1 p 0).
Proof.
  unfold voce_setParams. cbn [v_gam_w v_xn v_xnn v_t_min v_t_max].
  change (@npow R RNum) with Rpow. rewrite lit_gmin, lit_govf, !Rpow_pos by (apply pow10i_pos || apply pow10_pos). repeat split.
Qed.

(** ** backward Euler with a non-increasing rate *)
Section Implicit.
  Variables (f : R -> R) (dt : R).
  Hypothesis Hdt : 0 <= dt.
  Hypothesis Hmono : forall a b, a <= b -> f b <= f a.
  Definition Fi (ho h : R) : R := h - ho - dt * f h.

  Lemma Fi_slope ho a b : a <= b -> b - a <= Fi ho b - Fi ho a.
  Proof. intros H. unfold Fi. assert (dt * f b <= dt * f a) by (apply Rmult_le_compat_l; auto). lra. Qed.
  Lemma Fi_near ho a b : Rabs (a - b) <= Rabs (Fi ho a - Fi ho b).
  Proof.
    destruct (Rle_dec a b) as [H|H].
    - pose proof (Fi_slope ho a b H). rewrite (Rabs_left1 (a - b)) by lra. rewrite (Rabs_left1 (Fi ho a - Fi ho b)) by lra. lra.
    - pose proof (Fi_slope ho b a ltac:(lra)). rewrite (Rabs_right (a - b)) by lra. rewrite (Rabs_right (Fi ho a - Fi ho b)) by lra. lra.
  Qed.
  Lemma Fi_root ho h : implicit_step f dt ho h <-> Fi ho h = 0.
  Proof. unfold implicit_step, Fi. split; intros; lra. Qed.
  Lemma Fi_unique ho a b : implicit_step f dt ho a -> implicit_step f dt ho b -> a = b.
  Proof.
    intros A B. apply Fi_root in A. apply Fi_root in B. pose proof (Fi_near ho a b) as N. rewrite A, B, Rminus_0_r, Rabs_R0 in N.
    assert (Rabs (a - b) = 0) by (generalize (Rabs_pos (a - b)); lra). apply Rabs_eq_0 in H. lra.
  Qed.
  Lemma Fi_between ho s h : f s = 0 -> implicit_step f dt ho h -> Rmin ho s <= h <= Rmax ho s.
  Proof.
    intros Hs H. unfold implicit_step in H. destruct (Rle_dec h s) as [L|L].
    - assert (0 <= dt * f h) by (apply Rmult_le_pos; [assumption|]; rewrite <- Hs; auto).
      split; [apply Rle_trans with ho; [apply Rmin_l|lra]|apply Rle_trans with s; [lra|apply Rmax_r]].
    - assert (f h <= 0) by (rewrite <- Hs; apply Hmono; lra).
      assert (dt * f h <= 0) by (generalize (Rmult_le_compat_l dt (f h) 0 Hdt H0); lra).
      split; [apply Rle_trans with s; [apply Rmin_r|lra]|apply Rle_trans with ho; [lra|apply Rmax_l]].
  Qed.
  Lemma Fi_exists ho : (forall x, continuity_pt f x) -> exists h, implicit_step f dt ho h.
  Proof.
    intros C.
    assert (CF : continuity (Fi ho)).
    { intros x. unfold Fi. apply continuity_pt_minus; [apply continuity_pt_minus; [apply derivable_continuous_pt, derivable_pt_id|apply continuity_pt_const; intros ? ?; reflexivity]|].
      apply continuity_pt_mult; [apply continuity_pt_const; intros ? ?; reflexivity|apply C]. }
    set (d := dt * f ho). assert (F0 : Fi ho ho = - d) by (unfold Fi, d; ring).
    destruct (Rle_dec 0 d) as [Hd|Hd].
    - assert (F1 : 0 <= Fi ho (ho + d)).
      { unfold Fi. assert (dt * f (ho + d) <= dt * f ho) by (apply Rmult_le_compat_l; [assumption|apply Hmono; lra]). fold d in H. lra. }
      destruct (IVT_cor (Fi ho) ho (ho + d) CF ltac:(lra)) as [z [_ Hz]].
      + rewrite F0. generalize (Rmult_le_pos d (Fi ho (ho + d)) Hd F1). lra.
      + exists z. now apply Fi_root.
    - assert (F1 : Fi ho (ho + d) <= 0).
      { unfold Fi. assert (dt * f ho <= dt * f (ho + d)) by (apply Rmult_le_compat_l; [assumption|apply Hmono; lra]). fold d in H. lra. }
      destruct (IVT_cor (Fi ho) (ho + d) ho CF ltac:(lra)) as [z [_ Hz]].
      + rewrite F0. generalize (Rmult_le_pos (- d) (- Fi ho (ho + d)) ltac:(lra) ltac:(lra)). lra.
      + exists z. now apply Fi_root.
  Qed.
End Implicit.

(** ** the one-variable hardness problem *)
Lemma h1_scale_pos ho : 0 < h1_x_scale ho.
Proof. unfold h1_x_scale. rops. unfold Rmax. destruct (Rle_dec ho 1); lra. Qed.
Lemma lit_tol10 : (nlit 1 (-10) : R) = / 10 ^ 10.
Proof. cbn [nlit RNum]. unfold Rlit. change (10 ^ Z.pos 10)%Z with (10 ^ Z.of_nat 10)%Z. rewrite <- pow_IZR. lra. Qed.
Lemma h1_residual (sd : Sdot1 R) ho dt x :
  fst (h1_computeRJ sd ho dt x) = [Fi (fun h => fst (sd h)) dt ho (h1_getHn ho x) / h1_x_scale ho].
Proof.
  unfold h1_computeRJ, h1_getHn, h1_res_scale, Fi. rops.
  destruct (sd (ho + get x 0 * h1_x_scale ho)) as [s d]. cbn [fst]. f_equal. unfold Rdiv. ring.
Qed.
Lemma d_scaled (f : R -> R) (a c dt y d : R) : c <> 0 -> is_derive f (a + y * c) d ->
  is_derive (fun y => (a + y * c - a - dt * f (a + y * c)) / c) y (1 - d * dt).
Proof.
  intros Hc D. pose proof (is_derive_unique _ _ _ D) as U.
  auto_derive; [exists d; exact D|]. change (fun x0 : R => f x0) with f. rewrite U. field. lra.
Qed.
Lemma h1_jacobian (sd : Sdot1 R) ho dt (x : list R) : is_derive (fun h => fst (sd h)) (h1_getHn ho x) (snd (sd (h1_getHn ho x))) ->
  is_derive (fun y => get (fst (h1_computeRJ sd ho dt [y])) 0) (get x 0) (get (snd (h1_computeRJ sd ho dt x)) 0).
Proof.
  intros HD. pose proof (h1_scale_pos ho) as HS.
  apply (is_derive_ext (fun y => Fi (fun h => fst (sd h)) dt ho (ho + y * h1_x_scale ho) / h1_x_scale ho)).
  { intros y. rewrite h1_residual. reflexivity. }
  unfold h1_computeRJ. rops.
  assert (D : is_derive (fun h => fst (sd h)) (ho + get x 0 * h1_x_scale ho) (snd (sd (ho + get x 0 * h1_x_scale ho)))) by exact HD.
  replace (snd (let '(sdot, dsdot_ds) := sd (ho + get x 0 * h1_x_scale ho) in ([(get x 0 * h1_x_scale ho - sdot * dt) * h1_res_scale ho], [1 - dsdot_ds * dt])))
    with [1 - snd (sd (ho + get x 0 * h1_x_scale ho)) * dt] by (now destruct (sd (ho + get x 0 * h1_x_scale ho))).
  cbn [get nth]. unfold Fi. apply (d_scaled (fun h => fst (sd h))); [lra|exact D].
Qed.
Lemma some_pair {A B} (a a' : A) (b b' : B) : Some (a, b) = Some (a', b') -> a = a' /\ b = b'.
Proof. intros H. split; congruence. Qed.
Lemma updateH1_spec (hs : Solver R) sd ho dt h nf : updateH1 hs sd ho dt = Some (h, nf) -> accurate hs ->
  Rabs (Fi (fun h => fst (sd h)) dt ho h) <= / 10 ^ 10 * Rmax ho 1.
Proof.
  intros H HA. unfold updateH1 in H.
  destruct (so_converged (hs 1%nat (h1_computeRJ sd ho dt) (nlit 1 (-10)) 100%nat [nZ 0])) eqn:E; [|discriminate].
  pose proof (HA _ _ _ _ _ E 0%nat (le_n 1)) as B. rewrite h1_residual in B. apply some_pair in H. destruct H as [<- _].
  generalize dependent (so_x (hs 1%nat (h1_computeRJ sd ho dt) (nlit 1 (-10)) 100%nat [nZ 0])). intros xx B. rewrite lit_tol10 in B. cbn [get nth] in B. pose proof (h1_scale_pos ho) as HS.
  unfold Rdiv in B. rewrite Rabs_mult, (Rabs_right (/ h1_x_scale ho)) in B by (left; now apply Rinv_0_lt_compat).
  apply (Rmult_le_compat_r (h1_x_scale ho)) in B; [|lra]. rewrite Rmult_assoc, Rinv_l, Rmult_1_r in B by lra.
  exact B.
Qed.
