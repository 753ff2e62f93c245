(** C42: the kinetics on defined numbers. *)
From Coq Require Import List ZArith Bool Lia PeanoNat Reals Lra.
From Verif Require Import Num Arr NumR NumO Util SlipGeom Eos Hard KinVoce KinKMBalD Elast Evptn MatModel Cases SpecDef P_Def SpecKin P_KinV P_KinKM P_Kin2.
Import ListNotations.
Local Open Scope R_scope.

Definition liftV (v : Voce R) : Voce (option R) :=
  {| v_nonlinear := v_nonlinear v; v_mu := Some (v_mu v); v_xm := Some (v_xm v); v_gam_w := Some (v_gam_w v);
     v_t_max := Some (v_t_max v); v_t_min := Some (v_t_min v); v_xn := Some (v_xn v); v_xnn := Some (v_xnn v);
     v_h0 := Some (v_h0 v); v_tausi := Some (v_tausi v); v_taus0 := Some (v_taus0 v); v_xms := Some (v_xms v); v_gamss0 := Some (v_gamss0 v);
     v_xmprime := Some (v_xmprime v); v_xmprime1 := Some (v_xmprime1 v); v_hdn_init := Some (v_hdn_init v) |}.
Definition liftK (k : KM R) : KM (option R) :=
  {| km_withGAthermal := km_withGAthermal k; km_pOne := km_pOne k; km_qOne := km_qOne k; km_perSS := km_perSS k; km_nVPer := km_nVPer k;
     km_mu_ref := Some (km_mu_ref k); km_tK_ref := Some (km_tK_ref k); km_tau_a := Some (km_tau_a k); km_p := Some (km_p k); km_q := Some (km_q k);
     km_gam_ro := Some (km_gam_ro k); km_gam_wo := Some (km_gam_wo k);
     km_c_1 := L (km_c_1 k); km_wrD := Some (km_wrD k); km_go := L (km_go k); km_s := L (km_s k);
     km_t_max := L (km_t_max k); km_t_min := L (km_t_min k); km_xn := L (km_xn k); km_xnn := L (km_xnn k);
     km_k1 := Some (km_k1 k); km_k2o := Some (km_k2o k); km_ninv := Some (km_ninv k); km_gamma_o := Some (km_gamma_o k);
     km_hdn_init := Some (km_hdn_init k); km_hdn_min := Some (km_hdn_min k) |}.

Lemma odiv_L a b : b <> 0 -> odiv (Some a) (Some b) = Some (a / b).
Proof. intros H. cbn. destruct (Req_EM_T b 0); [contradiction|reflexivity]. Qed.
Lemma olog_L a : 0 < a -> olog (Some a) = Some (ln a).
Proof. intros H. cbn. destruct (Rlt_dec 0 a); [reflexivity|lra]. Qed.
Lemma opow_L a b : 0 < a -> opow (Some a) (Some b) = Some (Rpow a b).
Proof. intros H. cbn. destruct (Rlt_dec 0 a); [reflexivity|lra]. Qed.
Lemma opow_nat a n : opow (Some a) (Some (INR n)) = Some (Rpow a (INR n)).
Proof.
  cbn. destruct (Rlt_dec 0 a); [reflexivity|]. destruct (Req_EM_T a 0).
  - destruct (Rle_dec 0 (INR n)) as [|N]; [reflexivity|]. elim N. apply pos_INR.
  - destruct (Req_EM_T (INR n) (IZR (Int_part (INR n)))) as [|N]; [reflexivity|]. elim N. rewrite Int_part_INR. apply INR_IZR_INZ.
Qed.

(** both sides as operations of R *)
Ltac ored :=
  cbn beta iota delta [P_Def.ON ONum RNum nadd nsub nmul ndiv nopp nabs nsqrt nexp nlog nsin ncos npow ncopysign nmax nmin nltb nleb neqb nZ nlit
    zero one two onehalf idp_tiny_sqrt idp_eps_sqrt gam_ratio_min ln_gam_ratio_min gam_ratio_ovffx gam_ratio_ovf o1 o2 ocmp].

Section Def3.
Variable u : bool.
Local Notation ON := (P_Def.ON u).
Local Hint Extern 0 (Num (option R)) => exact (P_Def.ON u) : typeclass_instances.

Lemma gmin_pos : 0 < (gam_ratio_min : R). Proof. rewrite lit_gmin. apply pow10i_pos. Qed.
Lemma govf_pos : 0 < (gam_ratio_ovf : R). Proof. rewrite lit_govf. apply pow10_pos. Qed.

(** ** Voce *)
Lemma voce_L nl p : (voce_nParams nl <= length p)%nat -> get p 1 <> 0 -> voce_setParams nl (L p) = liftV (voce_setParams nl p).
Proof.
  intros H X. unfold voce_nParams in H. unfold voce_setParams. rewrite !get_L by (destruct nl; cbn in H |- *; lia).
  change (@one (option R) ON) with (Some (1 : R)). rewrite div_L by assumption.
  change (@gam_ratio_min (option R) ON) with (Some (gam_ratio_min : R)). change (@gam_ratio_ovf (option R) ON) with (Some (gam_ratio_ovf : R)).
  rewrite (pow_L u gam_ratio_min) by apply gmin_pos. rewrite (pow_L u gam_ratio_ovf) by apply govf_pos.
  destruct nl; reflexivity.
Qed.
Definition lift4 (q : R * bool * R * R) : option R * bool * option R * option R :=
  let '(a, b, c, d) := q in (Some a, b, Some c, Some d).
Lemma voce_evalGdot_L v g tau : 0 <= v_t_min v -> g <> 0 -> voce_evalGdot (liftV v) (Some g) (Some tau) = lift4 (voce_evalGdot v g tau).
Proof.
  intros H1 H2. unfold voce_evalGdot. cbn [liftV v_t_min v_t_max v_gam_w v_xn v_xnn]. change (@one (option R) ON) with (Some (1 : R)). rewrite div_L by assumption.
  ored. set (x := Rabs (tau * (1 / g))). destruct (Rltb (v_t_min v) x) eqn:E; [|reflexivity].
  destruct (Rltb (v_t_max v) x); [reflexivity|]. apply Rltb_true in E. rewrite olog_L by lra. reflexivity.
Qed.
Lemma voce_evalGdots_L v n tau vals : 0 <= v_t_min v -> (n <= length tau)%nat -> (1 <= length vals)%nat -> get vals 0 <> 0 ->
  voce_evalGdots (liftV v) n (L tau) (L vals) =
  (L (fst (fst (voce_evalGdots v n tau vals))), L (snd (fst (voce_evalGdots v n tau vals))), L (snd (voce_evalGdots v n tau vals))).
Proof.
  intros H1 H2 H3 H4. unfold voce_evalGdots. rewrite (get_L u vals) by lia. cbn [fst snd].
  rewrite <- !(tab_L n (fun i => Some _) _ (fun i _ => eq_refl)).
  f_equal; [f_equal|]; apply tab_ext; intros i Hi; rewrite get_L by lia; rewrite voce_evalGdot_L by assumption;
    destruct (voce_evalGdot v (get vals 0) (get tau i)) as [[[a b] c] d]; reflexivity.
Qed.
Definition lift2 (q : R * R) : option R * option R := (Some (fst q), Some (snd q)).
Lemma voce_getEvolVals_L v n g : (n <= length g)%nat -> 0 < v_gamss0 v -> voce_getEvolVals (liftV v) n (L g) = lift2 (voce_getEvolVals v n g).
Proof.
  intros H1 H2. unfold voce_getEvolVals. rewrite sumabs_L by assumption. cbn [liftV v_taus0 v_gamss0 v_xms]. set (s := vecsssumabs n g).
  change (idp_tiny_sqrt <? Some s)%num with (Rltb idp_tiny_sqrt s). change (idp_tiny_sqrt <? s)%num with (Rltb idp_tiny_sqrt s).
  destruct (Rltb idp_tiny_sqrt s) eqn:E; [|reflexivity]. apply Rltb_true in E. pose proof tiny_pos. rewrite div_L by lra.
  rewrite pow_L; [reflexivity|]. apply Rmult_lt_0_compat; [lra|now apply Rinv_0_lt_compat].
Qed.
(** the exponent of the hardening law minus one is a natural number, or the law is linear *)
Definition xmp_ok (v : Voce R) : Prop := v_nonlinear v = true -> exists k, v_xmprime1 v = INR k.
Lemma voce_getSdot1_L v e h : xmp_ok v -> voce_getSdot1 (liftV v) (lift2 e) (Some h) = lift2 (voce_getSdot1 v e h).
Proof.
  intros H. destruct e as [s w]. unfold voce_getSdot1, lift2. cbn [fst snd liftV v_tausi v_nonlinear v_h0 v_xmprime v_xmprime1].
  change (Some w <=? Some (v_tausi v))%num with (Rleb w (v_tausi v)). change (w <=? v_tausi v)%num with (Rleb w (v_tausi v)).
  assert (E : (if Rleb w (v_tausi v) then zero else one / (Some w - Some (v_tausi v)))%num = Some (if Rleb w (v_tausi v) then zero else one / (w - v_tausi v))%num).
  { destruct (Rleb w (v_tausi v)) eqn:E; [reflexivity|]. apply Rleb_false in E. apply div_L. cbn. lra. }
  rewrite E. set (t := if Rleb w (v_tausi v) then _ else _). destruct (v_nonlinear v) eqn:N; [|reflexivity].
  destruct (H N) as [k EK]. rewrite EK. ored. rewrite opow_nat. reflexivity.
Qed.

(** ** the hardness update *)
Variables (hso : Solver (option R)) (hsr : Solver R).
Hypothesis HS : same_solver hso hsr.
Definition lift_h (o : option (R * nat)) : option (option R * nat) := match o with Some (h, n) => Some (Some h, n) | None => None end.
Lemma updateH1_L (so : Sdot1 (option R)) (sr : Sdot1 R) h dt : (forall x, so (Some x) = lift2 (sr x)) ->
  updateH1 hso so (Some h) (Some dt) = lift_h (updateH1 hsr sr h dt).
Proof.
  intros H. unfold updateH1.
  assert (P : h1_x_scale h <> 0). { unfold h1_x_scale. cbn. pose proof (Rmax_r h 1). lra. }
  assert (E : forall x, length x = 1%nat -> h1_computeRJ so (Some h) (Some dt) (L x) = L2 (h1_computeRJ sr h dt x)).
  { intros x Hx. unfold h1_computeRJ, h1_res_scale. rewrite get_L by lia. change (h1_x_scale (Some h)) with (Some (h1_x_scale h)).
    change (@one (option R) ON) with (Some (1 : R)). rewrite div_L by assumption. change (Some h + Some (get x 0) * Some (h1_x_scale h))%num with (Some (h + get x 0 * h1_x_scale h)).
    rewrite H. change (h + get x 0 * h1_x_scale h)%num with (h + get x 0 * h1_x_scale h). destruct (sr (h + get x 0 * h1_x_scale h)) as [a b]. reflexivity. }
  destruct (HS 1%nat (h1_computeRJ so (Some h) (Some dt)) (h1_computeRJ sr h dt) (nlit 1 (-10)) 100%nat [0] E eq_refl) as (EQ & L1 & _).
  change [@nZ (option R) ON 0] with (L [0]). change [@nZ R RNum 0] with [0 : R]. change (@nlit (option R) ON 1 (-10)) with (Some (nlit 1 (-10) : R)). rewrite EQ. cbn [liftSO so_converged so_x so_nfev]. destruct (so_converged _); [|reflexivity]. unfold h1_getHn, lift_h. rewrite get_L by lia. reflexivity.
Qed.
Definition lift_hs (o : option (list R * nat)) : option (list (option R) * nat) := match o with Some (h, n) => Some (L h, n) | None => None end.
Lemma voce_updateH_L v n h dt g : (n <= length g)%nat -> (1 <= length h)%nat -> 0 < v_gamss0 v -> xmp_ok v ->
  voce_updateH hso (liftV v) n (L h) (Some dt) (L g) = lift_hs (voce_updateH hsr v n h dt g).
Proof.
  intros H1 H2 H3 H4. unfold voce_updateH. rewrite get_L by lia. rewrite voce_getEvolVals_L by assumption.
  rewrite (updateH1_L _ (voce_getSdot1 v (voce_getEvolVals v n g))) by (intros x; now apply voce_getSdot1_L).
  destruct (updateH1 _ _ _ _) as [[a b]|]; reflexivity.
Qed.

(** ** KMBalD *)
Lemma km_L ga p1 q1 ps n p : (km_nParams n <= length p)%nat -> get p 1 <> 0 -> get p 0 <> 0 -> get p (2 + n + 1) <> 0 -> get p (2 + n + 2) <> 0 ->
  (forall i, (i < n)%nat -> get p (2 + i) <> 0) -> km_setParams ga p1 q1 ps n (L p) = liftK (km_setParams ga p1 q1 ps n p).
Proof.
  intros H Ht Hm Hp Hq Hc. unfold km_nParams in H. unfold km_setParams. rewrite !get_L by lia. rewrite !sub_L.
  assert (CL : length (sub p 2 n) = n) by (apply sub_length; lia).
  assert (XM : forall i, (i < n)%nat -> (one / (two * ((get (L (sub p 2 n)) i / Some (get p 1)) * Some (get p 0) * Some (get p (2 + n + 1)) * Some (get p (2 + n + 2)))))%num =
     Some (one / (two * ((get (sub p 2 n) i / get p 1) * get p 0 * get p (2 + n + 1) * get p (2 + n + 2))))%num /\
     (one / (two * ((get (sub p 2 n) i / get p 1) * get p 0 * get p (2 + n + 1) * get p (2 + n + 2))))%num <> (0 : R)).
  { intros i Hi. rewrite get_L by lia. rewrite div_L by assumption. rewrite get_sub by assumption. specialize (Hc i Hi).
    assert (NZ : 2 * (get p (2 + i) / get p 1 * get p 0 * get p (2 + n + 1) * get p (2 + n + 2)) <> 0).
    { unfold Rdiv. repeat apply Rmult_integral_contrapositive_currified; try assumption; try lra. now apply Rinv_neq_0_compat. }
    split; [apply div_L; exact NZ|]. change (1 / (2 * (get p (2 + i) / get p 1 * get p 0 * get p (2 + n + 1) * get p (2 + n + 2))) <> 0).
    unfold Rdiv at 1. rewrite Rmult_1_l. now apply Rinv_neq_0_compat. }
  unfold liftK. cbn [km_withGAthermal km_pOne km_qOne km_perSS km_nVPer km_mu_ref km_tK_ref km_tau_a km_p km_q km_gam_ro km_gam_wo km_c_1 km_wrD km_go km_s
    km_t_max km_t_min km_xn km_xnn km_k1 km_k2o km_ninv km_gamma_o km_hdn_init km_hdn_min].
  f_equal; try reflexivity.
  - apply tab_L. intros i Hi. destruct (XM i Hi) as [-> _]. change (@gam_ratio_ovf (option R) ON) with (Some (gam_ratio_ovf : R)). apply pow_L, govf_pos.
  - apply tab_L. intros i Hi. destruct (XM i Hi) as [-> _]. change (@gam_ratio_min (option R) ON) with (Some (gam_ratio_min : R)). apply pow_L, gmin_pos.
  - apply tab_L. intros i Hi. destruct (XM i Hi) as [-> N]. change (@one (option R) ON) with (Some (1 : R)). rewrite div_L by exact N. reflexivity.
  - apply tab_L. intros i Hi. destruct (XM i Hi) as [-> N]. change (@one (option R) ON) with (Some (1 : R)). rewrite div_L by exact N. reflexivity.
Qed.
Lemma km_getVals_L k p tK h : (1 <= length h)%nat -> 0 < get h 0 -> tK <> 0 -> (0 < km_nVPer k)%nat ->
  length (km_go k) = km_nVPer k -> length (km_s k) = km_nVPer k -> length (km_c_1 k) = km_nVPer k ->
  km_getVals (liftK k) (Some p) (Some tK) (L h) = (L (fst (km_getVals k p tK h)), Some (snd (km_getVals k p tK h))).
Proof.
  intros H1 H2 H3 H4 G1 G2 G3. unfold km_getVals. cbn [liftK km_nVPer km_go km_s km_gam_wo km_gam_ro km_c_1 fst snd].
  rewrite (get_L u h) by lia. rewrite sqrt_L by lra. set (q := sqrt (get h 0)). assert (Q : 0 < q) by now apply sqrt_lt_R0.
  change (@nZ (option R) ON) with (fun z => Some (IZR z)). cbv beta.
  assert (NI : IZR (Z.of_nat (km_nVPer k)) <> 0) by (apply not_0_IZR; lia). rewrite !div_L by (first [exact NI | lra]).
  rewrite (tab_L (km_nVPer k) _ (fun i => get (km_go k) i + get (km_s k) i * q)%num) by (intros i Hi; rewrite !get_L by lia; reflexivity).
  rewrite (tab_L (km_nVPer k) _ (fun i => get (km_c_1 k) i / tK)%num) by (intros i Hi; rewrite !get_L by lia; now apply div_L).
  rewrite (sum_L u (km_nVPer k) _ (fun i => get (km_go k) i + get (km_s k) i * q)%num) by (intros i Hi; rewrite !get_L by lia; reflexivity).
  rewrite !L_app. reflexivity.
Qed.
Lemma lit_tiny_pos : 0 < Rlit 1 (-90). Proof. exact tiny_pos. Qed.
Lemma mts_L k c d t : get_mts_dG (liftK k) (Some c) (Some d) (Some t) = lift2 (get_mts_dG k c d t).
Proof.
  unfold get_mts_dG. cbn [liftK km_pOne km_qOne km_p km_q]. ored. pose proof lit_tiny_pos as TP.
  assert (T : forall pf m1 : R,
    (if Rltb (1 - pf) (Rlit 1 (-90)) then (Some (- c * 0), Some 0) else if km_qOne k then (Some (- c * (1 - pf)), Some m1)
     else (match (match opow (Some (Rabs (1 - pf))) (Some (km_q k)) with Some a => Some (Rcopysign a (1 - pf)) | None => None end) with Some b => Some (- c * b) | None => None end,
           odiv match opow (Some (Rabs (1 - pf))) (Some (km_q k)) with Some b => Some (m1 * km_q k * b) | None => None end (Some (Rabs (1 - pf))))) =
    lift2 (if Rltb (1 - pf) (Rlit 1 (-90)) then (- c * 0, 0) else if km_qOne k then (- c * (1 - pf), m1)
     else (- c * Rcopysign (Rpow (Rabs (1 - pf)) (km_q k)) (1 - pf), m1 * km_q k * Rpow (Rabs (1 - pf)) (km_q k) / Rabs (1 - pf)))).
  { intros pf m1. destruct (Rltb (1 - pf) (Rlit 1 (-90))) eqn:E; [reflexivity|]. apply Rltb_false in E. destruct (km_qOne k); [reflexivity|].
    rewrite opow_L by (rewrite Rabs_pos_eq; lra). cbv beta iota zeta delta [o1 o2]. rewrite odiv_L by (rewrite Rabs_pos_eq; lra). reflexivity. }
  destruct (km_pOne k); [exact (T t (c * d))|]. destruct (Rltb (Rabs t) (Rlit 1 (-90))) eqn:E; [exact (T 0 (c * d * Rlit 1 10))|]. apply Rltb_false in E.
  assert (t <> 0). { intros ->. rewrite Rabs_R0 in E. lra. }
  rewrite opow_L by lra. cbv beta iota zeta delta [o1 o2]. rewrite odiv_L by assumption. exact (T (Rcopysign (Rpow (Rabs t) (km_p k)) t) (c * d * km_p k * Rcopysign (Rpow (Rabs t) (km_p k)) t / t)).
Qed.
(** the law of the slip system: P_KinKM.law_of *)
Lemma km_evalGdot_L k vals iv tau : km_paramsOk k = true -> km_range (law_of k vals iv) -> (2 + km_nVPer k + iv < length vals)%nat ->
  (iv < length (km_xn k))%nat -> (iv < length (km_xnn k))%nat -> (iv < length (km_t_max k))%nat -> (iv < length (km_t_min k))%nat ->
  km_evalGdot (liftK k) (L vals) iv (Some tau) = lift4 (km_evalGdot k vals iv tau).
Proof.
  intros OK RG H0 H1 H2 H3 H4. unfold km_evalGdot.
  cbn [liftK km_mu_ref km_nVPer km_xn km_xnn km_t_max km_t_min km_withGAthermal km_tau_a km_wrD].
  rewrite (get_L u vals 0), (get_L u vals 1), (get_L u vals (2 + iv)), (get_L u vals (2 + km_nVPer k + iv)) by lia. rewrite !get_L by assumption.
  set (w := get vals 0). set (r := get vals 1). set (gi := get vals (2 + iv)). set (ct := get vals (2 + km_nVPer k + iv)).
  set (xn := get (km_xn k) iv). set (xnn := get (km_xnn k) iv). set (tM := get (km_t_max k) iv). set (tm := get (km_t_min k) iv).
  pose proof RG as (Rw & Rr & Rc & Rp & Rq & Ra & Rg & RD & Rn & Rt & _). cbn [law_of l_w l_r l_c l_p l_q l_ath l_g l_D l_n l_tmin] in Rw, Rr, Rc, Rp, Rq, Ra, Rg, RD, Rn, Rt.
  fold w in Rw. fold r in Rr. fold ct in Rc. fold gi in Ra, Rg. fold xnn in Rn. fold tm in Rt.
  set (ga := if km_withGAthermal k then gi else km_tau_a k). set (gt := if km_withGAthermal k then km_tau_a k else gi) in *.
  assert (E1 : (if km_withGAthermal k then Some gi else Some (km_tau_a k)) = Some ga) by (unfold ga; destruct (km_withGAthermal k); reflexivity).
  assert (E2 : (if km_withGAthermal k then one / Some (km_tau_a k) else one / Some gi)%num = Some (1 / gt)).
  { unfold gt. change (@one (option R) ON) with (Some (1:R)). destruct (km_withGAthermal k); apply div_L; unfold gt in Rg; lra. }
  assert (E3 : (if km_withGAthermal k then one / km_tau_a k else one / gi)%num = 1 / gt) by (unfold gt; destruct (km_withGAthermal k); reflexivity).
  rewrite E1, E2, E3. clear E1 E2 E3. ored.
  destruct (negb (km_withGAthermal k) && Reqb tau 0); [reflexivity|]. cbv beta iota zeta delta [o1 o2 ocmp].
  rewrite (odiv_L (Rabs tau - ga)) by lra. cbv beta iota zeta delta [o1 o2 ocmp].
  set (xr := (Rabs tau - ga) / km_wrD k). destruct (Rltb xr (Rlit 1 (-60))) eqn:C1; [reflexivity|]. apply Rltb_false in C1.
  pose proof (pow10i_pos 60) as P60. change (Rlit 1 (-60)) with (gam_ratio_min : R) in *. rewrite lit_gmin in *.
  assert (PS : 0 < Rabs tau - ga).
  { apply (Rmult_lt_reg_r (/ km_wrD k)); [now apply Rinv_0_lt_compat|]. unfold xr, Rdiv in C1. lra. }
  assert (PG : 0 < 1 / gt) by (unfold Rdiv; rewrite Rmult_1_l; now apply Rinv_0_lt_compat).
  assert (GR : exists gr tr, 0 < gr /\
    (if Rltb xr (Rlit 1 (-8)) then (r * xr, 1 - xr) else (r * (1 - exp (- xr)), exp (- xr))) = (gr, tr) /\
    (if Rltb xr (Rlit 1 (-8)) then (Some (r * xr), Some (1 - xr)) else (Some (r * (1 - exp (- xr))), Some (exp (- xr)))) = (Some gr, Some tr)).
  { destruct (Rltb xr (Rlit 1 (-8))); eexists; eexists; (split; [|split; reflexivity]).
    - apply Rmult_lt_0_compat; lra.
    - apply Rmult_lt_0_compat; [assumption|]. assert (EE : exp (- xr) < exp 0) by (apply exp_increasing; lra). rewrite exp_0 in EE. lra. }
  destruct GR as (gr & tr & PR & GE & GO). rewrite GE, GO. clear GE GO. cbv beta iota zeta delta [o1 o2 ocmp].
  rewrite (odiv_L (r * tr)) by lra. set (dr := r * tr / km_wrD k). cbv beta iota zeta delta [o1 o2 ocmp].
  rewrite (Rmax_right 0 (Rabs tau - ga)) by lra. set (tf := (Rabs tau - ga) * (1 / gt)).
  assert (PT : 0 < tf) by (unfold tf; now apply Rmult_lt_0_compat).
  destruct (Rltb tM tf); [destruct (km_withGAthermal k); reflexivity|].
  set (tfm := (- Rabs tau - ga) * (1 / gt)). rewrite !mts_L. 
  pose proof (mts_value k vals iv OK (1 / gt) tf) as M1. pose proof (mts_value k vals iv OK (1 / gt) tfm) as M2.
  assert (BF : activation (law_of k vals iv) tfm <= activation (law_of k vals iv) tf).
  { apply act_mono; [assumption|]. unfold tf, tfm. apply Rmult_le_compat_r; [lra|]. pose proof (Rabs_pos tau). lra. }
  rewrite <- M1, <- M2 in BF. cbn [law_of l_c] in BF. fold ct in BF. clear M1 M2.
  destruct (get_mts_dG k (ct * km_mu_ref k) (1 / gt) tf) as [fv fd]. destruct (get_mts_dG k (ct * km_mu_ref k) (1 / gt) tfm) as [bv bd].
  cbn [fst snd] in BF. unfold lift2. cbn [fst snd]. cbv beta iota zeta delta [o1 o2 ocmp].
  destruct (Rltb fv (Rlit (-13816) (-2))); [reflexivity|]. apply exp_mono in BF.
  set (bal := Rltb (Rlit (-13816) (-2)) bv).
  set (g2 := if bal then w * exp fv - w * exp bv else w * exp fv).
  set (d2 := if bal then fd * (w * exp fv) - bd * (w * exp bv) else fd * (w * exp fv)).
  set (h2 := if bal then fd * (w * exp fv) * tf - bd * (w * exp bv) * tfm else fd * (w * exp fv) * tf).
  assert (E2 : (if bal then Some (w * exp fv - w * exp bv) else Some (w * exp fv)) = Some g2) by (unfold g2; destruct bal; reflexivity).
  assert (E3 : (if bal then Some (fd * (w * exp fv) - bd * (w * exp bv)) else Some (fd * (w * exp fv))) = Some d2) by (unfold d2; destruct bal; reflexivity).
  assert (E4 : (if bal then Some (fd * (w * exp fv) * tf - bd * (w * exp bv) * tfm) else Some (fd * (w * exp fv) * tf)) = Some h2) by (unfold h2; destruct bal; reflexivity).
  rewrite E2, E3, E4. clear E2 E3 E4. rewrite (odiv_L g2) by lra. cbv beta iota zeta delta [o1 o2 ocmp].
  destruct (bal && Rltb (Rabs (g2 / w)) (/ 10 ^ 60)) eqn:C5; [reflexivity|].
  assert (P2 : 0 < g2).
  { assert (N2 : 0 <= g2).
    { unfold g2. destruct bal; [|left; apply Rmult_lt_0_compat; [assumption|apply exp_pos]]. rewrite <- Rmult_minus_distr_l. apply Rmult_le_pos; lra. }
    destruct bal eqn:EB; [|apply Rmult_lt_0_compat; [assumption|apply exp_pos]].
    cbn [andb] in C5. apply Rltb_false in C5. rewrite Rabs_pos_eq in C5.
    - apply (Rmult_lt_reg_r (/ w)); [now apply Rinv_0_lt_compat|]. unfold Rdiv in C5. lra.
    - apply Rmult_le_pos; [assumption|left; now apply Rinv_0_lt_compat]. }
  clearbody g2 d2 h2. clear C5 bal.
  assert (GW : exists gw dw dh, 0 < gw /\
    (if Rltb tm tf then (g2 + w * 10 * exp (xn * ln tf) * tf, d2 + w * 10 * exp (xn * ln tf) * xnn * (1 / gt), h2 + w * 10 * exp (xn * ln tf) * xnn * (1 / gt) * tf) else (g2, d2, h2)) = (gw, dw, dh)).
  { destruct (Rltb tm tf); eexists; eexists; eexists; (split; [|reflexivity]); [|assumption].
    assert (0 < w * 10 * exp (xn * ln tf) * tf). { repeat apply Rmult_lt_0_compat; try assumption; try lra. apply exp_pos. } lra. }
  rewrite (olog_L tf) by assumption. cbv beta iota zeta delta [o1 o2 ocmp].
  destruct GW as (gw & dw & dh & PW & EW). rewrite EW.
  match goal with |- match ?X with _ => _ end = _ => assert (EO : X = (Some gw, Some dw, Some dh)) by (destruct (Rltb tm tf); injection EW as <- <- <-; reflexivity); rewrite EO; clear EO EW end.
  cbv beta iota zeta delta [o1 o2 ocmp].
  rewrite (odiv_L 1 gw), (odiv_L 1 gr) by lra. cbv beta iota zeta delta [o1 o2 ocmp].
  assert (NS : 1 / gw + 1 / gr <> 0). { unfold Rdiv. rewrite !Rmult_1_l. pose proof (Rinv_0_lt_compat _ PW). pose proof (Rinv_0_lt_compat _ PR). lra. }
  rewrite (odiv_L 1 (1 / gw + 1 / gr)), (odiv_L 1 (gr * gr)), (odiv_L 1 (gw * gw)) by (first [exact NS | apply Rmult_integral_contrapositive_currified; lra]).
  cbv beta iota zeta delta [o1 o2 ocmp]. destruct (km_withGAthermal k); reflexivity.
Qed.

Lemma km_evalGdots_L k n tau vals : km_paramsOk k = true -> (n <= length tau)%nat ->
  (forall iv, (iv < km_nVPer k)%nat -> km_range (law_of k vals iv)) -> (length vals = 2 + km_nVPer k + km_nVPer k)%nat ->
  length (km_xn k) = km_nVPer k -> length (km_xnn k) = km_nVPer k -> length (km_t_max k) = km_nVPer k -> length (km_t_min k) = km_nVPer k ->
  (forall i, (i < n)%nat -> ((if km_perSS k then i else 0) < km_nVPer k)%nat) ->
  km_evalGdots (liftK k) n (L tau) (L vals) =
  (L (fst (fst (km_evalGdots k n tau vals))), L (snd (fst (km_evalGdots k n tau vals))), L (snd (km_evalGdots k n tau vals))).
Proof.
  intros H1 H2 H3 H4 G1 G2 G3 G4 H5. unfold km_evalGdots. cbn [fst snd].
  rewrite <- !(tab_L n (fun i => Some _) _ (fun i _ => eq_refl)).
  assert (E : forall i, (i < n)%nat -> km_evalGdot (liftK k) (L vals) (if km_perSS k then i else 0%nat) (get (L tau) i) = lift4 (km_evalGdot k vals (if km_perSS k then i else 0%nat) (get tau i))).
  { intros i Hi. specialize (H5 i Hi). rewrite get_L by lia. apply km_evalGdot_L; try (rewrite ?G1, ?G2, ?G3, ?G4; assumption); [now apply H3|lia]. }
  change (km_perSS (liftK k)) with (km_perSS k).
  f_equal; [f_equal|]; apply tab_ext; intros i Hi; rewrite (E i Hi);
    destruct (km_evalGdot k vals (if km_perSS k then i else 0%nat) (get tau i)) as [[[a b] c] d]; reflexivity.
Qed.
Lemma km_getEvolVals_L k n g : (n <= length g)%nat -> 0 < km_gamma_o k -> km_getEvolVals (liftK k) n (L g) = lift2 (km_getEvolVals k n g).
Proof.
  intros H1 H2. unfold km_getEvolVals. rewrite sumabs_L by assumption. cbn [liftK km_k2o km_gamma_o km_ninv]. set (s := vecsssumabs n g).
  change (idp_tiny_sqrt <? Some s)%num with (Rltb idp_tiny_sqrt s). change (idp_tiny_sqrt <? s)%num with (Rltb idp_tiny_sqrt s).
  destruct (Rltb idp_tiny_sqrt s) eqn:E; [|reflexivity]. apply Rltb_true in E. pose proof tiny_pos. rewrite div_L by lra.
  rewrite pow_L; [reflexivity|]. apply Rmult_lt_0_compat; [lra|apply Rinv_0_lt_compat; lra].
Qed.
Lemma km_getSdot1_L k e h : km_getSdot1 (liftK k) (lift2 e) (Some h) = lift2 (km_getSdot1 k e h).
Proof. destruct e as [s w]. unfold onehalf. reflexivity. Qed.
Lemma km_updateH_L k n h dt g : (n <= length g)%nat -> (1 <= length h)%nat -> 0 < km_gamma_o k -> 0 < km_hdn_min k ->
  km_updateH hso (liftK k) n (L h) (Some dt) (L g) = lift_hs (km_updateH hsr k n h dt g).
Proof.
  intros H1 H2 H3 H4. unfold km_updateH. rewrite get_L by lia. cbn [liftK km_hdn_min].
  change (nmax (Some (get h 0)) (Some (km_hdn_min k)))%num with (Some (Rmax (get h 0) (km_hdn_min k))).
  rewrite log_L by (pose proof (Rmax_r (get h 0) (km_hdn_min k)); lra). rewrite km_getEvolVals_L by assumption.
  rewrite (updateH1_L _ (km_getSdot1 k (km_getEvolVals k n g))) by (intros x; apply km_getSdot1_L).
  change (nmax (get h 0) (km_hdn_min k))%num with (Rmax (get h 0) (km_hdn_min k)). change (@nlog R RNum) with ln.
  destruct (updateH1 hsr _ _ _) as [[a b]|]; reflexivity.
Qed.

(** ** both kinetics as the crystal update sees them *)
Definition lift3 (q : list R * list R * list R) := (L (fst (fst q)), L (snd (fst q)), L (snd q)).
Record KinDef (ko : Kinetics (option R)) (kr : Kinetics R) (hnew : list R -> Prop) : Prop := {
  kd_nslip : k_nslip ko = k_nslip kr;
  kd_nH : k_nH ko = k_nH kr;
  kd_upd : forall h dt g, length h = k_nH kr -> length g = k_nslip kr ->
    k_updateH ko (L h) (Some dt) (L g) = lift_hs (k_updateH kr h dt g) /\
    forall h' n, k_updateH kr h dt g = Some (h', n) -> length h' = k_nH kr /\ hnew h';
  kd_vals : forall p tK h, length h = k_nH kr -> hnew h -> 0 < tK ->
    k_getVals ko (Some p) (Some tK) (L h) = (L (fst (k_getVals kr p tK h)), Some (snd (k_getVals kr p tK h))) /\
    k_valsOk ko (Some p) (Some tK) (L h) = k_valsOk kr p tK h;
  kd_rates : forall p tK h, length h = k_nH kr -> hnew h -> 0 < tK -> k_valsOk kr p tK h = true -> let vals := fst (k_getVals kr p tK h) in
    k_getFixedRefRate ko (L vals) = Some (k_getFixedRefRate kr vals) /\ 0 < k_getFixedRefRate kr vals /\
    forall tau, length tau = k_nslip kr -> k_evalGdots ko (L tau) (L vals) = lift3 (k_evalGdots kr tau vals) /\
      length (fst (fst (k_evalGdots kr tau vals))) = k_nslip kr /\ length (snd (fst (k_evalGdots kr tau vals))) = k_nslip kr }.

Lemma voce_def nl n P : length P = voce_nParams nl -> voce_valid nl P ->
  KinDef (voce_kinetics hso (voce_setParams nl (L P)) n) (voce_kinetics hsr (voce_setParams nl P) n) (fun _ => True).
Proof.
  intros HL (V1 & V2 & V3 & V4). rewrite voce_L by (first [lia | exact V1]). set (v := voce_setParams nl P).
  assert (G0 : 0 < v_gamss0 v).
  { unfold v, voce_setParams. cbn [v_gamss0]. unfold get. change (@nundef R RNum) with 0. destruct nl; exact V3. }
  assert (XM : xmp_ok v).
  { unfold xmp_ok, v, voce_setParams. cbn [v_nonlinear v_xmprime1]. intros ->. destruct (V4 eq_refl) as [k E]. exists k. unfold get. change (@nundef R RNum) with 0.
    rewrite E, S_INR. cbn. ring. }
  assert (TM : 0 <= v_t_min v). { unfold v, voce_setParams. cbn [v_t_min]. change (0 <= Rpow (gam_ratio_min : R) (get P 1)). rewrite Rpow_pos by apply gmin_pos. left. apply Rpower_pos. }
  constructor; cbn [voce_kinetics k_nslip k_nH k_updateH k_getVals k_valsOk k_getFixedRefRate k_evalGdots].
  - reflexivity.
  - reflexivity.
  - intros h dt g H1 H2. split; [apply voce_updateH_L; try assumption; lia|]. intros h' m. unfold voce_updateH. destruct (updateH1 hsr _ _ _) as [[a b]|]; [|discriminate].
    intros E. injection E as <- _. now split.
  - intros p tK h H1 _ _. unfold voce_getVals, voce_valsOk. rewrite get_L by lia. split; reflexivity.
  - intros p tK h H1 _ _ OK. unfold voce_getVals. cbn [fst]. split; [reflexivity|]. split.
    + unfold voce_getFixedRefRate, v, voce_setParams. cbn [v_gam_w]. exact V2.
    + unfold voce_valsOk in OK. cbn [nltb RNum] in OK. apply Rltb_true in OK. change (zero : R) with 0 in OK. intros tau HT. split.
      * apply voce_evalGdots_L; [assumption|lia|cbn; lia|]. apply Rgt_not_eq. exact OK.
      * unfold voce_evalGdots. cbn [fst snd]. rewrite !tab_length. now split.
Qed.
Lemma km_def ga p1 q1 per n ns P : length P = km_nParams n -> km_valid ga n P -> (0 < n)%nat -> km_ctorOk per n ns = true -> 
  km_paramsOk (km_setParams ga p1 q1 per n P) = true ->
  KinDef (km_kinetics hso (km_setParams ga p1 q1 per n (L P)) ns) (km_kinetics hsr (km_setParams ga p1 q1 per n P) ns) (fun h => 0 < get h 0).
Proof.
  intros HL (V0 & V1 & V2 & V3 & V4 & V5 & V6 & V7 & V8 & V9 & V10) Hn CO OK. unfold km_nParams in HL.
  assert (EX : forall a b, (a = b)%nat -> get P a = nth b P 0) by (intros a b ->; reflexivity).
  rewrite km_L.
  2:{ unfold km_nParams. lia. }
  2:{ rewrite (EX 1%nat 1%nat) by lia. lra. }
  2:{ rewrite (EX 0%nat 0%nat) by lia. lra. }
  2:{ rewrite (EX _ (3 + n)%nat) by lia. lra. }
  2:{ rewrite (EX _ (4 + n)%nat) by lia. lra. }
  2:{ intros i Hi. rewrite (EX _ (2 + i)%nat) by lia. specialize (V2 i Hi). lra. }
  set (k := km_setParams ga p1 q1 per n P) in *.
  assert (LC : length (km_c_1 k) = n) by (unfold k, km_setParams; cbn [km_c_1]; apply sub_length; lia).
  assert (LG : length (km_go k) = n) by (unfold k, km_setParams; cbn [km_go]; apply sub_length; lia).
  assert (LS : length (km_s k) = n) by (unfold k, km_setParams; cbn [km_s]; apply sub_length; lia).
  assert (GO : 0 < km_gamma_o k). { unfold k, km_setParams. cbn [km_gamma_o]. rewrite (EX _ (11 + 3 * n)%nat) by lia. exact V9. }
  assert (HM : 0 < km_hdn_min k).
  { unfold k, km_setParams. cbn [km_hdn_min]. rewrite (EX _ (12 + 3 * n)%nat) by lia. change (0 < Rlit 1 (-4) * nth (12 + 3 * n) P 0).
    apply Rmult_lt_0_compat; [|exact V10]. unfold Rlit. cbn. lra. }
  constructor; cbn [km_kinetics k_nslip k_nH k_updateH k_getVals k_valsOk k_getFixedRefRate k_evalGdots].
  - reflexivity.
  - reflexivity.
  - intros h dt g H1 H2. split; [apply km_updateH_L; try assumption; lia|]. intros h' m. unfold km_updateH. destruct (updateH1 hsr _ _ _) as [[a b]|]; [|discriminate].
    intros E. injection E as <- _. split; [reflexivity|]. cbn. apply exp_pos.
  - intros p tK h H1 H2 H3. assert (GV : km_getVals (liftK k) (Some p) (Some tK) (L h) = (L (fst (km_getVals k p tK h)), Some (snd (km_getVals k p tK h)))).
    { apply km_getVals_L; try assumption; try lia; lra. }
    split; [exact GV|]. unfold km_valsOk. change (km_withGAthermal (liftK k)) with (km_withGAthermal k). destruct (km_withGAthermal k); [reflexivity|].
    rewrite GV. cbn [fst]. change (km_nVPer (liftK k)) with n. change (km_nVPer k) with n.
    assert (VL : length (fst (km_getVals k p tK h)) = (2 + n + n)%nat) by (unfold km_getVals; cbn [fst]; rewrite app_length, app_length, !tab_length; reflexivity).
    assert (FB : forall (f g : nat -> bool) l, (forall i, In i l -> f i = g i) -> forallb f l = forallb g l).
    { clear. intros f g l. induction l as [|a l IH]; intros H; [reflexivity|]. cbn. rewrite (H a), IH; [reflexivity| |now left]. intros i Hi. apply H. now right. }
    apply FB. intros i Hi. apply in_seq in Hi. rewrite get_L by lia. reflexivity.
  - intros p tK h H1 H2 H3 VO. destruct h as [|rho [|]]; cbn [length] in H1; try lia. unfold get in H2. cbn [nth] in H2.
    set (vals := fst (km_getVals k p tK [rho])).
    assert (VL : length vals = (2 + n + n)%nat) by (unfold vals, km_getVals; cbn [fst]; rewrite app_length, app_length, !tab_length; reflexivity).
    assert (LAW : forall iv, (iv < n)%nat -> km_range (law_of k vals iv)).
    { intros iv Hi. unfold vals, k. rewrite set_law by (first [assumption | exact H2]). apply (spec_range ga p1 q1 per n P p tK rho iv H2 H3).
      unfold km_params_ok. repeat split; try assumption; [now apply V2| |].
      - destruct ga.
        + destruct V8 as [V8 V8']. destruct (V8' iv Hi) as [A B]. split; [exact V8|]. unfold km_strength. replace (8 + n + n + iv)%nat with (8 + 2 * n + iv)%nat by lia.
          pose proof (sqrt_pos rho). assert (0 <= nth (8 + 2 * n + iv) P 0 * sqrt rho) by now apply Rmult_le_pos. lra.
        + split; [exact V8|]. unfold km_valsOk, k, km_setParams in VO. cbn [km_withGAthermal km_nVPer] in VO. rewrite forallb_forall in VO.
          specialize (VO iv ltac:(apply in_seq; lia)). cbn [nltb RNum] in VO. apply Rltb_true in VO. change (zero : R) with 0 in VO.
          pose proof (f_equal l_g (set_law false p1 q1 per n P p tK rho iv Hi H2)) as E. cbn [law_of km_spec l_g] in E. 
          change (km_withGAthermal (km_setParams false p1 q1 per n P)) with false in E. cbv iota in E. rewrite <- E. exact VO.
      - intros ->. unfold km_paramsOk, k, km_setParams in OK. cbn [km_pOne km_p] in OK. apply andb_prop in OK. destruct OK as [OK _].
        cbn [neqb RNum] in OK. unfold Reqb in OK. destruct Req_EM_T as [E|]; [|discriminate]. rewrite <- (EX (2 + n + 1)%nat) by lia. exact E. }
    destruct (LAW 0%nat Hn) as (W0 & W1 & _). cbn [law_of l_w l_r] in W0, W1.
    split; [unfold km_getFixedRefRate; rewrite !get_L by lia; reflexivity|]. split; [unfold km_getFixedRefRate; rops; lra|].
    intros tau HT. split.
    + apply km_evalGdots_L; try assumption; try (unfold k, km_setParams; cbn [km_xn km_xnn km_t_max km_t_min km_nVPer]; apply tab_length); try lia.
      change (km_perSS k) with per. change (km_nVPer k) with n. intros i Hi. unfold km_ctorOk in CO. destruct per; [apply Nat.eqb_eq in CO; lia|lia].
    + unfold km_evalGdots. cbn [fst snd]. rewrite !tab_length. now split.
Qed.
End Def3.
