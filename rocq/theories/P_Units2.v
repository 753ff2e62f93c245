(** Change of the units of stress and time: the slip kinetics and the hardness problems. *)
From Coq Require Import List ZArith Bool Lia PeanoNat Reals Lra FunctionalExtensionality.
From Verif Require Import Num Arr NumR Util SlipGeom Eos Hard KinVoce KinKMBalD Elast Evptn P_Units.
Import ListNotations.
Local Open Scope R_scope.

Definition same_side2 (a b : R) : Prop := (/ 10 ^ 90 < a <-> / 10 ^ 90 < b).
Lemma tiny_R : idp_tiny_sqrt = / 10 ^ 90.
Proof. unfold idp_tiny_sqrt. cbn [nlit RNum Rlit]. unfold Rdiv. rewrite Rmult_1_l. f_equal. rewrite <- (Z2Nat.id 90) at 1 by lia. rewrite pow_IZR. reflexivity. Qed.
Lemma side_ltb a b : same_side2 a b -> nltb idp_tiny_sqrt b = nltb idp_tiny_sqrt a.
Proof.
  intros [H1 H2]. rewrite tiny_R. cbn [nltb RNum]. unfold Rltb. destruct (Rlt_dec (/ 10 ^ 90) a), (Rlt_dec (/ 10 ^ 90) b); try reflexivity; exfalso; tauto.
Qed.

Lemma ltb_scal a x y : 0 < a -> Rltb (a * x) (a * y) = Rltb x y.
Proof. intros Ha. unfold Rltb. destruct (Rlt_dec x y), (Rlt_dec (a * x) (a * y)); try reflexivity; exfalso; nra. Qed.
Lemma leb_scal a x y : 0 < a -> Rleb (a * x) (a * y) = Rleb x y.
Proof. intros Ha. unfold Rleb. destruct (Rle_dec x y), (Rle_dec (a * x) (a * y)); try reflexivity; exfalso; nra. Qed.
Lemma eqb0_scal a x : 0 < a -> Reqb (a * x) 0 = Reqb x 0.
Proof. intros Ha. unfold Reqb. destruct (Req_EM_T x 0), (Req_EM_T (a * x) 0); try reflexivity; exfalso; nra. Qed.
Lemma csign_scal a b x y : 0 < a -> 0 < b -> Rcopysign (a * x) (b * y) = a * Rcopysign x y.
Proof. intros Ha Hb. unfold Rcopysign. rewrite Rabs_mult, (Rabs_pos_eq a) by lra. destruct (Rlt_dec y 0), (Rlt_dec (b * y) 0); try ring; exfalso; nra. Qed.
Lemma abs_scal a x : 0 < a -> Rabs (a * x) = a * Rabs x.
Proof. intros Ha. rewrite Rabs_mult, (Rabs_pos_eq a) by lra. reflexivity. Qed.
Lemma ratio_scal a x y : 0 < a -> (a * x) / (a * y) = x / y.
Proof. intros Ha. unfold Rdiv. rewrite Rinv_mult. transitivity (a * / a * (x * / y)); [ring|]. rewrite Rinv_r by lra. ring. Qed.
Lemma max_scal a x y : 0 < a -> Rmax (a * x) (a * y) = a * Rmax x y.
Proof. intros. apply RmaxRmult. lra. Qed.
Lemma min_scal a x y : 0 < a -> Rmin (a * x) (a * y) = a * Rmin x y.
Proof. intros. unfold Rmin. destruct (Rle_dec x y), (Rle_dec (a * x) (a * y)); nra. Qed.

(** ** Power-law kinetics with Voce hardening *)
Definition voce_units (lam kap : R) (v v' : Voce R) : Prop :=
  v_nonlinear v' = v_nonlinear v /\ v_gam_w v' = / kap * v_gam_w v /\ v_t_max v' = v_t_max v /\ v_t_min v' = v_t_min v /\ v_xn v' = v_xn v /\ v_xnn v' = v_xnn v /\
  v_h0 v' = lam * v_h0 v /\ v_tausi v' = lam * v_tausi v /\ v_taus0 v' = lam * v_taus0 v /\ v_xms v' = v_xms v /\ v_gamss0 v' = / kap * v_gamss0 v /\
  v_xmprime v' = v_xmprime v /\ v_xmprime1 v' = v_xmprime1 v.

Section Voce.
  Variables (lam kap : R) (v v' : Voce R).
  Hypothesis Hl : 0 < lam.
  Hypothesis Hk : 0 < kap.
  Hypothesis HV : voce_units lam kap v v'.
  Variable hs : Solver R.
  Variable n : nat.
  Lemma voce_gdot_u g tau : 0 < g ->
    fst (fst (fst (voce_evalGdot v' (lam * g) (lam * tau)))) = / kap * fst (fst (fst (voce_evalGdot v g tau))) /\
    snd (fst (voce_evalGdot v' (lam * g) (lam * tau))) = / (kap * lam) * snd (fst (voce_evalGdot v g tau)).
  Proof.
    intros Hg. destruct HV as (_ & E1 & E2 & E3 & E4 & E5 & _). assert (K : 0 < / kap) by now apply Rinv_0_lt_compat.
    unfold voce_evalGdot. rewrite E1, E2, E3, E4, E5. cbv zeta.
    assert (T : nmul (lam * tau) (ndiv one (lam * g)) = nmul tau (ndiv one g)) by (rops; field; lra).
    rewrite T. set (t := nmul tau (ndiv one g)).
    destruct (nltb (v_t_min v) (nabs t)); [|cbn [fst snd]; rops; split; ring].
    destruct (nltb (v_t_max v) (nabs t)); cbn [fst snd].
    - split; [|rops; ring]. rops. rewrite <- csign_scal with (b := lam) by assumption. f_equal. ring.
    - split; rops; field; lra.
  Qed.
  Lemma voce_kin_u h : 0 < h -> kin_units lam kap (voce_kinetics hs v n) (voce_kinetics hs v' n) [h] [lam * h].
  Proof.
    intros Hh tau. cbn [voce_kinetics k_evalGdots]. unfold voce_evalGdots. cbn [fst snd]. change (get [h] 0) with h. change (get [lam * h] 0) with (lam * h).
    rewrite !sc_tab. split; apply tab_ext; intros i Hi; rewrite get_sc; now apply voce_gdot_u.
  Qed.
  (** the hardness problem; its scale is 1 when the strength is below 1, so that the unit of stress matters there *)
  Lemma voce_hard_u h dt gdot : lam = 1 \/ 1 <= h /\ 1 <= lam * h -> same_side2 (vecsssumabs n gdot) (/ kap * vecsssumabs n gdot) ->
    voce_updateH hs v' n [lam * h] (kap * dt) (sc (/ kap) gdot) =
    option_map (fun r => (sc lam (fst r), snd r)) (voce_updateH hs v n [h] dt gdot).
  Proof.
    intros HS HT. assert (K : 0 < / kap) by now apply Rinv_0_lt_compat. unfold voce_updateH, updateH1. change (get [h] 0) with h. change (get [lam * h] 0) with (lam * h).
    assert (XS : h1_x_scale (lam * h) = lam * h1_x_scale h).
    { unfold h1_x_scale. rops. destruct HS as [E|[A B]]; [rewrite E, !Rmult_1_l; reflexivity|]. rewrite !Rmax_left by assumption. reflexivity. }
    assert (XP : 0 < h1_x_scale h) by (unfold h1_x_scale; rops; pose proof (Rmax_r h 1); lra).
    set (S' := voce_getSdot1 v' _). set (S := voce_getSdot1 v _).
    assert (ES : forall y, S' (lam * y) = (lam / kap * fst (S y), / kap * snd (S y))).
    { intros y. unfold S', S, voce_getSdot1, voce_getEvolVals. destruct HV as (E0 & _ & _ & _ & _ & _ & E1 & E2 & E3 & E4 & E5 & E6 & E7).
      rewrite sumabs_sc by lra. set (shr := vecsssumabs n gdot) in *. rewrite (side_ltb _ _ HT), E0, E1, E2, E3, E4, E5, E6, E7.
      set (sat := if nltb idp_tiny_sqrt shr then _ else v_taus0 v).
      set (sat' := if nltb idp_tiny_sqrt shr then _ else lam * v_taus0 v).
      assert (EX : sat' = lam * sat) by (unfold sat, sat'; destruct nltb; [|reflexivity]; rops; rewrite ratio_scal by assumption; ring).
      rewrite EX. clearbody sat. clear sat' EX.
      set (t2 := if nleb sat (v_tausi v) then _ else _).
      set (t2' := if nleb (lam * sat) _ then _ else _).
      assert (EX : t2' = / lam * t2).
      { unfold t2, t2'. rops. rewrite leb_scal by assumption. destruct (Rleb sat (v_tausi v)); [ring|]. rewrite <- Rmult_minus_distr_l. unfold Rdiv. rewrite Rinv_mult. ring. }
      rewrite EX. clearbody t2. clear t2' EX.
      destruct (v_nonlinear v); cbn [fst snd].
      - set (a' := nmul (nsub (lam * sat) (lam * y)) (/ lam * t2)). set (a := nmul (nsub sat y) t2).
        assert (EX : a' = a) by (unfold a', a; rops; field; lra). rewrite EX. apply f_equal2; rops; field; lra.
      - apply f_equal2; rops; field; lra. }
    assert (ER : h1_computeRJ S' (lam * h) (kap * dt) = h1_computeRJ S h dt).
    { apply functional_extensionality. intros x. unfold h1_computeRJ. unfold h1_res_scale. rewrite XS.
      replace (nadd (lam * h) (nmul (get x 0) (lam * h1_x_scale h))) with (lam * (nadd h (nmul (get x 0) (h1_x_scale h)))) by (rops; ring).
      rewrite ES. destruct (S (nadd h (nmul (get x 0) (h1_x_scale h)))) as [s ds]. cbn [fst snd]. apply f_equal2; (apply f_equal2; [|reflexivity]); rops; field; lra. }
    rewrite ER. destruct (hs _ _ _ _ _) as [cv xx xl nf nr]. cbn [so_converged so_x so_nfev]. destruct cv; [|reflexivity].
    cbn [option_map fst snd]. unfold h1_getHn. rewrite XS. unfold sc. cbn [map]. repeat f_equal. rops. ring.
  Qed.
End Voce.

(** ** Balanced thermally activated kinetics *)
Definition km_units (lam kap : R) (k k' : KM R) : Prop :=
  km_withGAthermal k' = km_withGAthermal k /\ km_pOne k' = km_pOne k /\ km_qOne k' = km_qOne k /\ km_perSS k' = km_perSS k /\ km_nVPer k' = km_nVPer k /\
  km_mu_ref k' = lam * km_mu_ref k /\ km_tau_a k' = lam * km_tau_a k /\ km_p k' = km_p k /\ km_q k' = km_q k /\
  km_gam_ro k' = / kap * km_gam_ro k /\ km_gam_wo k' = / kap * km_gam_wo k /\ km_c_1 k' = sc (/ lam) (km_c_1 k) /\ km_wrD k' = lam * km_wrD k /\
  km_go k' = sc lam (km_go k) /\ km_s k' = sc lam (km_s k) /\ km_t_max k' = km_t_max k /\ km_t_min k' = km_t_min k /\ km_xn k' = km_xn k /\ km_xnn k' = km_xnn k /\
  km_k1 k' = km_k1 k /\ km_k2o k' = km_k2o k /\ km_ninv k' = km_ninv k /\ km_gamma_o k' = / kap * km_gamma_o k /\ km_hdn_min k' = km_hdn_min k.

Section KM.
  Variables (lam kap : R) (k k' : KM R).
  Hypothesis Hl : 0 < lam.
  Hypothesis Hk : 0 < kap.
  Hypothesis HK : km_units lam kap k k'.
  Variable hs : Solver R.
  Variable n : nat.

  Lemma mts_u ce gi t : get_mts_dG k' ce (/ lam * gi) t = (fst (get_mts_dG k ce gi t), / lam * snd (get_mts_dG k ce gi t)).
  Proof.
    destruct HK as (_ & P1 & Q1 & _ & _ & _ & _ & P & Q & _). unfold get_mts_dG. rewrite P1, Q1, P, Q.
    destruct (km_pOne k); [|destruct (nltb (nabs t) idp_tiny_sqrt)];
      (match goal with |- context[nsub one ?z] => set (q := nsub one z) end; destruct (nltb q idp_tiny_sqrt); [|destruct (km_qOne k)]; cbn [fst snd]; apply f_equal2; rops; unfold Rdiv; ring).
  Qed.
  (** values at a temperature and a dislocation density *)
  Definition vals_units (vals vals' : list R) : Prop :=
    get vals' 0 = / kap * get vals 0 /\ get vals' 1 = / kap * get vals 1 /\
    (forall i, get vals' (2 + i) = lam * get vals (2 + i) \/ (km_nVPer k <= i)%nat) /\
    (forall i, get vals' (2 + km_nVPer k + i) = / lam * get vals (2 + km_nVPer k + i)).
  Lemma km_gdot_u vals vals' iV tau : vals_units vals vals' -> (iV < km_nVPer k)%nat ->
    fst (fst (fst (km_evalGdot k' vals' iV (lam * tau)))) = / kap * fst (fst (fst (km_evalGdot k vals iV tau))) /\
    snd (fst (km_evalGdot k' vals' iV (lam * tau))) = / (kap * lam) * snd (fst (km_evalGdot k vals iV tau)).
  Proof.
    intros (V0 & V1 & V2 & V3) HiV. assert (K : 0 < / kap) by now apply Rinv_0_lt_compat.
    destruct (V2 iV) as [V2'|]; [|lia]. clear V2. specialize (V3 iV).
    pose proof HK as (W & P1 & Q1 & SS & NV & MU & TA & PP & QQ & GR & GW & C1 & WD & GO & SS' & TM & TN & XN & XNN & _).
    unfold km_evalGdot. rewrite W, NV, MU, TA, WD, TM, TN, XN, XNN, V0, V1, V2', V3. cbv zeta.
    set (gIn := get vals (2 + iV)). set (ct := get vals (2 + km_nVPer k + iV)). set (gw := get vals 0). set (gr := get vals 1).
    assert (E0 : neqb (lam * tau) zero = neqb tau zero) by (rops; now apply eqb0_scal). rewrite E0. clear E0.
    destruct (negb (km_withGAthermal k) && neqb tau zero); [cbn [km_inactive fst snd]; rops; split; ring|].
    set (gA := if km_withGAthermal k then gIn else km_tau_a k).
    replace (if km_withGAthermal k then lam * gIn else lam * km_tau_a k) with (lam * gA) by (unfold gA; destruct (km_withGAthermal k); reflexivity).
    set (gi := if km_withGAthermal k then ndiv one (km_tau_a k) else ndiv one gIn).
    replace (if km_withGAthermal k then ndiv one (lam * km_tau_a k) else ndiv one (lam * gIn)) with (/ lam * gi)
      by (unfold gi; destruct (km_withGAthermal k); rops; unfold Rdiv; rewrite Rinv_mult; ring).
    assert (EA : nabs (lam * tau) = lam * nabs tau) by (rops; now apply abs_scal). rewrite EA. clear EA.
    set (at_ := nabs tau).
    replace (nsub (lam * at_) (lam * gA)) with (lam * nsub at_ gA) by (rops; ring).
    replace (nsub (nopp (lam * at_)) (lam * gA)) with (lam * nsub (nopp at_) gA) by (rops; ring).
    set (df := nsub at_ gA). set (dm := nsub (nopp at_) gA).
    assert (EM : nmax zero (lam * df) = lam * nmax zero df) by (rops; rewrite <- max_scal, Rmult_0_r by assumption; reflexivity). rewrite EM. clear EM.
    assert (EC : forall z, nmul (lam * z) (/ lam * gi) = nmul z gi) by (intros z; rops; field; lra). rewrite !EC.
    assert (ED : ndiv (lam * df) (lam * km_wrD k) = ndiv df (km_wrD k)) by (rops; now apply ratio_scal). rewrite ED. clear ED EC.
    set (a0 := nmul (nmax zero df) gi). set (er := ndiv df (km_wrD k)).
    destruct (nltb er gam_ratio_min); [cbn [km_inactive fst snd]; rops; split; ring|].
    set (rr := if nltb er idp_eps_sqrt then _ else (nmul gr _, _)).
    set (rr' := if nltb er idp_eps_sqrt then _ else (nmul (/ kap * gr) _, _)).
    assert (ER : rr' = (/ kap * fst rr, snd rr)) by (unfold rr', rr; destruct nltb; cbn [fst snd]; apply f_equal2; rops; try reflexivity; ring).
    rewrite ER. clearbody rr. clear rr' ER. destruct rr as [gdr tr]. cbn [fst snd].
    assert (EDR : ndiv (nmul (/ kap * gr) tr) (lam * km_wrD k) = / (kap * lam) * ndiv (nmul gr tr) (km_wrD k)) by (rops; unfold Rdiv; rewrite !Rinv_mult; ring).
    rewrite EDR. clear EDR. set (dgr := ndiv (nmul gr tr) (km_wrD k)).
    destruct (nltb (get (km_t_max k) iV) a0).
    { cbn [fst snd]. split; [|reflexivity]. rops. now rewrite <- csign_scal with (b := lam). }
    assert (ECE : nmul (/ lam * ct) (lam * km_mu_ref k) = nmul ct (km_mu_ref k)) by (rops; field; lra). rewrite ECE. clear ECE.
    rewrite !mts_u. destruct (get_mts_dG k (nmul ct (km_mu_ref k)) gi (nmul df gi)) as [ea md]. destruct (get_mts_dG k (nmul ct (km_mu_ref k)) gi (nmul dm gi)) as [eam mdm].
    cbn [fst snd]. destruct (nltb ea ln_gam_ratio_min); [cbn [km_inactive fst snd]; rops; split; ring|].
    set (bal := nltb ln_gam_ratio_min eam).
    set (g2 := if bal then nsub (nmul gw (nexp ea)) (nmul gw (nexp eam)) else nmul gw (nexp ea)).
    set (g2' := if bal then nsub (nmul (/ kap * gw) (nexp ea)) (nmul (/ kap * gw) (nexp eam)) else nmul (/ kap * gw) (nexp ea)).
    assert (EG2 : g2' = / kap * g2) by (unfold g2', g2; destruct bal; rops; ring). rewrite EG2. clear EG2. clearbody g2. clear g2'.
    set (d2 := if bal then nsub (nmul md (nmul gw (nexp ea))) (nmul mdm (nmul gw (nexp eam))) else nmul md (nmul gw (nexp ea))).
    set (d2' := if bal then nsub (nmul (/ lam * md) (nmul (/ kap * gw) (nexp ea))) (nmul (/ lam * mdm) (nmul (/ kap * gw) (nexp eam))) else nmul (/ lam * md) (nmul (/ kap * gw) (nexp ea))).
    assert (EG2 : d2' = / (kap * lam) * d2) by (unfold d2', d2; destruct bal; rops; rewrite Rinv_mult; ring). rewrite EG2. clear EG2. clearbody d2. clear d2'.
    assert (EQ : ndiv (/ kap * g2) (/ kap * gw) = ndiv g2 gw) by (rops; now apply ratio_scal). rewrite EQ. clear EQ.
    destruct (bal && nltb (nabs (ndiv g2 gw)) gam_ratio_min); [cbn [km_inactive fst snd]; rops; split; ring|].
    set (w3 := if nltb (get (km_t_min k) iV) a0 then (nadd g2 _, _, _) else (g2, d2, _)).
    set (w3' := if nltb (get (km_t_min k) iV) a0 then (nadd (/ kap * g2) _, _, _) else (/ kap * g2, / (kap * lam) * d2, _)).
    assert (EW : fst (fst w3') = / kap * fst (fst w3) /\ snd (fst w3') = / (kap * lam) * snd (fst w3)).
    { unfold w3', w3. destruct (nltb (get (km_t_min k) iV) a0); cbn [fst snd]; [|split; reflexivity]. rops. rewrite Rinv_mult. split; ring. }
    clearbody w3 w3'. destruct w3 as [[w1 w2] w4]. destruct w3' as [[w1' w2'] w4']. cbn [fst snd] in EW. destruct EW as [-> ->]. cbn [fst snd].
    assert (EI : forall z, 1 / (/ kap * z) = kap * (1 / z)) by (intros z; unfold Rdiv; rewrite Rinv_mult, Rinv_inv; ring).
    assert (EGD : ndiv one (nadd (ndiv one (/ kap * w1)) (ndiv one (/ kap * gdr))) = / kap * ndiv one (nadd (ndiv one w1) (ndiv one gdr))).
    { rops. rewrite !EI, <- Rmult_plus_distr_l. unfold Rdiv. rewrite Rinv_mult. ring. }
    rewrite EGD. clear EGD. set (gd := ndiv one (nadd (ndiv one w1) (ndiv one gdr))). split.
    - rops. now rewrite <- csign_scal with (b := lam).
    - rops. unfold Rdiv. rewrite !Rinv_mult, !Rinv_inv. generalize (/ w1) (/ gdr). intros. field. lra.
  Qed.
  Lemma km_kin_u vals vals' : vals_units vals vals' -> (if km_perSS k then n <= km_nVPer k else 0 < km_nVPer k)%nat ->
    kin_units lam kap (km_kinetics hs k n) (km_kinetics hs k' n) vals vals'.
  Proof.
    intros HV Hn tau. cbn [km_kinetics k_evalGdots]. unfold km_evalGdots. cbn [fst snd]. pose proof HK as (_ & _ & _ & SS & _). rewrite SS.
    rewrite !sc_tab. split; apply tab_ext; intros i Hi; rewrite get_sc; apply km_gdot_u; trivial; destruct (km_perSS k); lia.
  Qed.
  Lemma km_vals_u q q' tK h : vals_units (fst (km_getVals k q tK [h])) (fst (km_getVals k' q' tK [h])) /\
    snd (km_getVals k' q' tK [h]) = lam * snd (km_getVals k q tK [h]).
  Proof.
    pose proof HK as (W & P1 & Q1 & SS & NV & MU & TA & PP & QQ & GR & GW & C1 & WD & GO & SS' & _).
    unfold km_getVals. cbv zeta. rewrite NV, GW, GR, GO, SS', C1. change (get [h] 0) with h. cbn [fst snd].
    set (nv := km_nVPer k). split.
    - assert (G : forall (a b : list R) i, List.length a = nv -> get (a ++ b) (nv + i) = get b i).
      { intros a b i L. unfold get. rewrite app_nth2 by lia. f_equal. lia. }
      assert (G1 : forall (a b : list R) i, List.length a = nv -> (i < nv)%nat -> get (a ++ b) i = get a i).
      { intros a b i L Hi. unfold get. apply app_nth1. lia. }
      repeat split.
      + change (/ kap * km_gam_wo k / sqrt h = / kap * (km_gam_wo k / sqrt h)). unfold Rdiv. ring.
      + change (/ kap * km_gam_ro k * sqrt h * sqrt h = / kap * (km_gam_ro k * sqrt h * sqrt h)). ring.
      + intros i. destruct (Nat.lt_ge_cases i nv) as [Hi|Hi]; [left|right; exact Hi].
        change (get (tab nv (fun i => nadd (get (sc lam (km_go k)) i) (nmul (get (sc lam (km_s k)) i) (nsqrt h))) ++ tab nv (fun i => ndiv (get (sc (/ lam) (km_c_1 k)) i) tK)) i =
                lam * get (tab nv (fun i => nadd (get (km_go k) i) (nmul (get (km_s k) i) (nsqrt h))) ++ tab nv (fun i => ndiv (get (km_c_1 k) i) tK)) i).
        rewrite !G1 by (apply tab_length || assumption). rewrite !get_tab by assumption. rewrite !get_sc. rops. ring.
      + intros i. fold nv.
        change (get (tab nv (fun i => nadd (get (sc lam (km_go k)) i) (nmul (get (sc lam (km_s k)) i) (nsqrt h))) ++ tab nv (fun i => ndiv (get (sc (/ lam) (km_c_1 k)) i) tK)) (nv + i) =
                / lam * get (tab nv (fun i => nadd (get (km_go k) i) (nmul (get (km_s k) i) (nsqrt h))) ++ tab nv (fun i => ndiv (get (km_c_1 k) i) tK)) (nv + i)).
        rewrite !G by apply tab_length. destruct (Nat.lt_ge_cases i nv) as [Hi|Hi].
        * rewrite !get_tab by assumption. rewrite get_sc. rops. unfold Rdiv. ring.
        * unfold get. rewrite !nth_overflow by (rewrite tab_length; assumption). cbn. ring.
    - rewrite (sum_ext nv _ (fun i => lam * nadd (get (km_go k) i) (nmul (get (km_s k) i) (nsqrt h)))) by (intros; rewrite !get_sc; rops; ring).
      rewrite sum_scal_l. rops. ring.
  Qed.
  Lemma km_hard_u h dt gdot : same_side2 (vecsssumabs n gdot) (/ kap * vecsssumabs n gdot) ->
    km_updateH hs k' n [h] (kap * dt) (sc (/ kap) gdot) = km_updateH hs k n [h] dt gdot.
  Proof.
    intros HT. assert (K : 0 < / kap) by now apply Rinv_0_lt_compat.
    pose proof HK as (W & P1 & Q1 & SS & NV & MU & TA & PP & QQ & GR & GW & C1 & WD & GO & SS' & TM & TN & XN & XNN & K1 & K2 & NI & G0 & HM).
    unfold km_updateH. rewrite HM. set (l := nlog _). unfold updateH1.
    match goal with |- context[h1_computeRJ ?a l (kap * dt)] => set (S' := a) end.
    match goal with |- context[h1_computeRJ ?a l dt] => set (S := a) end.
    assert (ES : forall y, S' y = (/ kap * fst (S y), / kap * snd (S y))).
    { intros y. unfold S', S, km_getSdot1, km_getEvolVals. rewrite sumabs_sc by lra. set (shr := vecsssumabs n gdot) in *. rewrite (side_ltb _ _ HT), K1, K2, NI, G0.
      replace (ndiv (/ kap * km_gamma_o k) (/ kap * shr)) with (ndiv (km_gamma_o k) shr) by (rops; symmetry; now apply ratio_scal).
      cbn [fst snd]. apply f_equal2; rops; ring. }
    assert (ER : h1_computeRJ S' l (kap * dt) = h1_computeRJ S l dt).
    { apply functional_extensionality. intros x. unfold h1_computeRJ. rewrite ES. destruct (S _) as [s ds]. cbn [fst snd].
      apply f_equal2; (apply f_equal2; [|reflexivity]); rops; field_simplify_eq; try lra; unfold h1_res_scale; rops. all: try ring. }
    rewrite ER. reflexivity.
  Qed.
End KM.
