(** Change of units: from the parameters of a model to its material. *)
From Coq Require Import List ZArith Bool Lia PeanoNat Reals Lra FunctionalExtensionality.
From Verif Require Import Num Arr NumR Util SlipGeom Eos Hard KinVoce KinKMBalD Elast Evptn MatModel Cases SpecApi SpecKin SpecKinApi SpecStep
  P_Demo P_Hist P_Call SpecUnits P_Units P_Units2.
Import ListNotations.
Local Open Scope R_scope.

Section Mat.
  Variables (lam kap : R).
  Hypothesis Hl : 0 < lam.
  Hypothesis Hk : 0 < kap.

  (** what is needed of the kinetics; [hd] is the factor of the strength *)
  Definition kin_ok (hd : R) (st : bool) (n : nat) (k k' : Kinetics R) : Prop :=
    k_nslip k' = k_nslip k /\ k_nH k' = k_nH k /\
    (forall h q tK q', k_valsOk k q tK [h] = true -> k_valsOk k' q' tK [hd * h] = true /\
       kin_units lam kap k k' (fst (k_getVals k q tK [h])) (fst (k_getVals k' q' tK [hd * h])) /\
       snd (k_getVals k' q' tK [hd * h]) = lam * snd (k_getVals k q tK [h]) /\
       k_getFixedRefRate k' (fst (k_getVals k' q' tK [hd * h])) = / kap * k_getFixedRefRate k (fst (k_getVals k q tK [h]))) /\
    (forall h dt gdot, (st = true -> lam = 1 \/ 1 <= h /\ 1 <= lam * h) -> same_side2 (vecsssumabs n gdot) (/ kap * vecsssumabs n gdot) ->
       k_updateH k' [hd * h] (kap * dt) (sc (/ kap) gdot) = option_map (fun r => (sc hd (fst r), snd r)) (k_updateH k [h] dt gdot)) /\
    (forall h dt gdot r, k_updateH k h dt gdot = Some r -> exists x, fst r = [x]).

  Lemma voce_ok hs nl n P P' : (forall k, get P' k = nth k (voce_dims lam kap nl) 1 * get P k) ->
    kin_ok lam true n (voce_kinetics hs (voce_setParams nl P) n) (voce_kinetics hs (voce_setParams nl P') n).
  Proof.
    intros E.
    assert (HV : P_Units2.voce_units lam kap (voce_setParams nl P) (voce_setParams nl P')).
    { unfold voce_setParams, P_Units2.voce_units. cbn [v_nonlinear v_gam_w v_t_max v_t_min v_xn v_xnn v_h0 v_tausi v_taus0 v_xms v_gamss0 v_xmprime v_xmprime1].
      assert (E1 : get P' 1 = get P 1) by (rewrite E; cbn; ring). rewrite E1.
      destruct nl; repeat split; rewrite ?E; cbn; rops; ring. }
    split; [reflexivity|]. split; [reflexivity|]. split; [|split].
    - intros h q tK q' HO. cbn [voce_kinetics k_valsOk k_getVals k_getFixedRefRate] in *. unfold voce_valsOk, voce_getVals, voce_getFixedRefRate in *. cbn [fst snd] in *.
      change (Rltb 0 h = true) in HO. apply Rltb_true in HO.
      split; [change (Rltb 0 (lam * h) = true); apply Rltb_true; nra|]. split; [|split; [reflexivity|apply HV]].
      change (get [h] 0) with h. change (get [lam * h] 0) with (lam * h). now apply voce_kin_u.
    - intros h dt gdot H1 H2. cbn [voce_kinetics k_updateH]. apply voce_hard_u; auto.
    - intros h dt gdot r. cbn [voce_kinetics k_updateH]. unfold voce_updateH. destruct updateH1 as [[x nn]|]; [|discriminate]. intros X. apply some_inj in X. subst r. exists x. reflexivity.
  Qed.

  Lemma km_ok hs ga p1 q1 ss nv n P P' : List.length P = (13 + 3 * nv)%nat -> List.length P' = (13 + 3 * nv)%nat ->
    (if (ss : bool) then n <= nv else 0 < nv)%nat ->
    (forall k, get P' k = nth k (km_dims lam kap nv) 1 * get P k) ->
    km_paramsOk (km_setParams ga p1 q1 ss nv P') = km_paramsOk (km_setParams ga p1 q1 ss nv P) /\
    kin_ok 1 false n (km_kinetics hs (km_setParams ga p1 q1 ss nv P) n) (km_kinetics hs (km_setParams ga p1 q1 ss nv P') n).
  Proof.
    intros L L' Hn E.
    set (D := km_dims lam kap nv) in *.
    assert (D0 : nth 0 D 1 = lam) by reflexivity. assert (D1 : nth 1 D 1 = 1) by reflexivity.
    assert (Dc : forall i, (i < nv)%nat -> nth (2 + i) D 1 = / lam).
    { intros i Hi. change (nth (2 + i) D 1) with (nth i (repeat (/ lam) nv ++ [lam; 1; 1; / kap; / kap; lam] ++ repeat lam nv ++ repeat lam nv ++ [1; 1; 1; / kap; 1]) 1).
      rewrite app_nth1 by (rewrite repeat_length; exact Hi). rewrite (nth_indep _ _ (/ lam)) by (rewrite repeat_length; exact Hi). apply nth_repeat. }
    assert (Dm : forall i, (i < 6)%nat -> nth (2 + nv + i) D 1 = nth i [lam; 1; 1; / kap; / kap; lam] 1).
    { intros i Hi. change (nth (2 + nv + i) D 1) with (nth (nv + i) (repeat (/ lam) nv ++ [lam; 1; 1; / kap; / kap; lam] ++ repeat lam nv ++ repeat lam nv ++ [1; 1; 1; / kap; 1]) 1).
      rewrite app_nth2 by (rewrite repeat_length; lia). rewrite repeat_length. replace (nv + i - nv)%nat with i by lia. apply app_nth1. exact Hi. }
    assert (Dg : forall i, (i < nv + nv)%nat -> nth (2 + nv + 6 + i) D 1 = lam).
    { intros i Hi. change (nth (2 + nv + 6 + i) D 1) with (nth (nv + 6 + i) (repeat (/ lam) nv ++ [lam; 1; 1; / kap; / kap; lam] ++ repeat lam nv ++ repeat lam nv ++ [1; 1; 1; / kap; 1]) 1).
      rewrite app_nth2 by (rewrite repeat_length; lia). rewrite repeat_length. replace (nv + 6 + i - nv)%nat with (6 + i)%nat by lia.
      change (nth i (repeat lam nv ++ repeat lam nv ++ [1; 1; 1; / kap; 1]) 1 = lam). rewrite app_assoc, <- repeat_app.
      rewrite app_nth1 by (rewrite repeat_length; exact Hi). rewrite (nth_indep _ _ lam) by (rewrite repeat_length; exact Hi). apply nth_repeat. }
    assert (De : forall i, nth (2 + nv + 6 + nv + nv + i) D 1 = nth i [1; 1; 1; / kap; 1] 1).
    { intros i. change (nth (2 + nv + 6 + nv + nv + i) D 1) with (nth (nv + 6 + nv + nv + i) (repeat (/ lam) nv ++ [lam; 1; 1; / kap; / kap; lam] ++ repeat lam nv ++ repeat lam nv ++ [1; 1; 1; / kap; 1]) 1).
      rewrite app_nth2 by (rewrite repeat_length; lia). rewrite repeat_length. replace (nv + 6 + nv + nv + i - nv)%nat with (6 + (nv + nv + i))%nat by lia.
      change (nth (nv + nv + i) (repeat lam nv ++ repeat lam nv ++ [1; 1; 1; / kap; 1]) 1 = nth i [1; 1; 1; / kap; 1] 1).
      rewrite app_nth2, repeat_length by (rewrite repeat_length; lia). rewrite app_nth2, repeat_length by (rewrite repeat_length; lia). f_equal. lia. }
    assert (SB : forall a o, (forall i, (i < nv)%nat -> nth (o + i) D 1 = a) -> (o + nv <= 13 + 3 * nv)%nat -> sub P' o nv = sc a (sub P o nv)).
    { intros a o H Ho. apply list_get_ext; [rewrite sc_len, !sub_length by lia; reflexivity|]. intros i Hi. rewrite sub_length in Hi by lia.
      rewrite get_sc, !get_sub by lia. rewrite E, H by lia. reflexivity. }
    assert (X0 : get P' 0 = lam * get P 0) by (rewrite E, D0; reflexivity).
    assert (X1 : get P' 1 = get P 1) by (rewrite E, D1; ring).
    assert (XC : sub P' 2 nv = sc (/ lam) (sub P 2 nv)) by (apply SB; [exact Dc|lia]).
    assert (Xp : get P' (2 + nv + 1) = get P (2 + nv + 1)) by (rewrite E, (Dm 1%nat) by lia; cbn [nth]; ring).
    assert (Xq : get P' (2 + nv + 2) = get P (2 + nv + 2)) by (rewrite E, (Dm 2%nat) by lia; cbn [nth]; ring).
    assert (Xa : get P' (2 + nv) = lam * get P (2 + nv)).
    { rewrite E. f_equal. replace (2 + nv)%nat with (2 + nv + 0)%nat by lia. now rewrite (Dm 0%nat) by lia. }
    assert (Xw : get P' (2 + nv + 3) = / kap * get P (2 + nv + 3)) by (rewrite E, (Dm 3%nat) by lia; reflexivity).
    assert (Xr : get P' (2 + nv + 4) = / kap * get P (2 + nv + 4)) by (rewrite E, (Dm 4%nat) by lia; reflexivity).
    assert (XD : get P' (2 + nv + 5) = lam * get P (2 + nv + 5)) by (rewrite E, (Dm 5%nat) by lia; reflexivity).
    assert (XG : sub P' (2 + nv + 6) nv = sc lam (sub P (2 + nv + 6) nv)) by (apply SB; [intros; apply Dg; lia|lia]).
    assert (XS : sub P' (2 + nv + 6 + nv) nv = sc lam (sub P (2 + nv + 6 + nv) nv)).
    { apply SB; [|lia]. intros i Hi. replace (2 + nv + 6 + nv + i)%nat with (2 + nv + 6 + (nv + i))%nat by lia. apply Dg. lia. }
    assert (Xk : get P' (2 + nv + 6 + nv + nv) = get P (2 + nv + 6 + nv + nv)).
    { rewrite E. replace (nth (2 + nv + 6 + nv + nv) D 1) with 1; [ring|]. replace (2 + nv + 6 + nv + nv)%nat with (2 + nv + 6 + nv + nv + 0)%nat by lia. now rewrite De. }
    assert (Xk2 : get P' (2 + nv + 6 + nv + nv + 1) = get P (2 + nv + 6 + nv + nv + 1)) by (rewrite E, De; cbn [nth]; ring).
    assert (Xn : get P' (2 + nv + 6 + nv + nv + 2) = get P (2 + nv + 6 + nv + nv + 2)) by (rewrite E, De; cbn [nth]; ring).
    assert (Xg : get P' (2 + nv + 6 + nv + nv + 3) = / kap * get P (2 + nv + 6 + nv + nv + 3)) by (rewrite E, De; reflexivity).
    assert (Xh : get P' (2 + nv + 6 + nv + nv + 4) = get P (2 + nv + 6 + nv + nv + 4)) by (rewrite E, De; cbn [nth]; ring).
    set (k := km_setParams ga p1 q1 ss nv P). set (k' := km_setParams ga p1 q1 ss nv P').
    assert (HU : P_Units2.km_units lam kap k k').
    { unfold k, k', km_setParams, P_Units2.km_units. cbv zeta.
      cbn [km_withGAthermal km_pOne km_qOne km_perSS km_nVPer km_mu_ref km_tau_a km_p km_q km_gam_ro km_gam_wo km_c_1 km_wrD km_go km_s km_t_max km_t_min km_xn km_xnn km_k1 km_k2o km_ninv km_gamma_o km_hdn_min].
      rewrite X0, X1, XC, Xp, Xq, Xa, Xw, Xr, XD, XG, XS, Xk, Xk2, Xn, Xg, Xh.
      assert (XM : forall i, nmul (nmul (nmul (ndiv (get (sc (/ lam) (sub P 2 nv)) i) (get P 1)) (lam * get P 0)) (get P (2 + nv + 1))) (get P (2 + nv + 2)) =
                     nmul (nmul (nmul (ndiv (get (sub P 2 nv) i) (get P 1)) (get P 0)) (get P (2 + nv + 1))) (get P (2 + nv + 2))).
      { intros i. rewrite get_sc. rops. f_equal. f_equal. unfold Rdiv. transitivity (lam * / lam * (get (sub P 2 nv) i * / get P 1 * get P 0)); [ring|]. rewrite Rinv_r by lra. ring. }
      repeat split; try reflexivity; try (apply tab_ext; intros i Hi; rewrite XM; reflexivity). }
    split.
    { unfold km_paramsOk. pose proof HU as (_ & U1 & U2 & _ & _ & _ & _ & U3 & U4 & _). rewrite U1, U2, U3, U4. reflexivity. }
    assert (NV : km_nVPer k = nv) by reflexivity. assert (SS : km_perSS k = ss) by reflexivity.
    split; [reflexivity|]. split; [reflexivity|]. split; [|split].
    - intros h q tK q' HO. rewrite Rmult_1_l. cbn [km_kinetics k_valsOk k_getVals k_getFixedRefRate] in *.
      destruct (km_vals_u lam kap k k' HU q q' tK h) as [V1 V2].
      split; [|split; [|split]].
      + unfold km_valsOk in *. pose proof HU as (U1 & _ & _ & _ & U2 & _ & U3 & _). rewrite U1, U2, U3. destruct (km_withGAthermal k).
        * change (Rltb 0 (lam * km_tau_a k) = true). change (Rltb 0 (km_tau_a k) = true) in HO. apply Rltb_true in HO. apply Rltb_true. nra.
        * rewrite forallb_forall in HO |- *. intros i Hi. pose proof (HO i Hi) as HO'. apply in_seq in Hi. destruct V1 as (_ & _ & V1 & _). destruct (V1 i) as [V|V]; [|lia].
          rewrite V. change (Rltb 0 (get (fst (km_getVals k q tK [h])) (2 + i)) = true) in HO'. apply Rltb_true in HO'. match goal with |- ?g = true => change (Rltb 0 (lam * get (fst (km_getVals k q tK [h])) (2 + i)) = true) end. apply Rltb_true. nra.
      + apply km_kin_u; trivial.
      + exact V2.
      + unfold km_getFixedRefRate. destruct V1 as (A & B & _). rewrite A, B. rops. ring.
    - intros h dt gdot _ H2. rewrite Rmult_1_l. cbn [km_kinetics k_updateH]. rewrite (km_hard_u lam kap k k' Hk HU hs n h dt gdot H2).
      destruct (km_updateH hs k n [h] dt gdot) as [[r nn]|]; [|reflexivity]. cbn [option_map fst snd]. repeat f_equal. unfold sc. symmetry. rewrite <- (map_id r) at 2. apply map_ext. intros; ring.
    - intros h dt gdot r. cbn [km_kinetics k_updateH]. unfold km_updateH. destruct updateH1 as [[x nn]|]; [|discriminate]. intros X. apply some_inj in X. subst r. exists (nexp x). reflexivity.
  Qed.

  Lemma get_over (l : list R) k : (List.length l <= k)%nat -> get l k = 0. Proof. intros H. unfold get. now rewrite nth_overflow. Qed.
  Lemma get_nth (l : list R) k : get l k = nth k l 0. Proof. reflexivity. Qed.

  Definition hfac (c : MClass R) : R := if strength_is_stress c then lam else 1.

  (** the parts of the material *)
  Lemma class_units hs c pars pars' sg kin hi : builtin hs c -> List.length pars = mm_nParams c -> new_units lam kap c pars pars' ->
    c_sgSet c (sub pars 3 (c_sgNP c)) = Some sg -> c_kinSet c (sub pars (3 + c_sgNP c + c_elNP c) (c_kinNP c)) = Some (kin, hi) ->
    c_sgSet c (sub pars' 3 (c_sgNP c)) = Some sg /\
    (exists kin' hi', c_kinSet c (sub pars' (3 + c_sgNP c + c_elNP c) (c_kinNP c)) = Some (kin', hi') /\ kin_ok (hfac c) (strength_is_stress c) (c_nslip c) kin kin') /\
    el_units lam (el_of c pars) (el_of c pars') /\
    p_bulk c pars' = lam * p_bulk c pars /\ p_cv pars' = lam * p_cv pars /\ p_gamma c pars' = p_gamma c pars /\ p_ec0 c pars' = lam * p_ec0 c pars /\
    nth 2 pars' 0 = nth 2 pars 0.
  Proof.
    intros HB HL [HL' HN] E1 E2.
    assert (A2 : p_cv pars' = lam * p_cv pars) by (unfold p_cv; now rewrite HN).
    assert (A5 : nth 2 pars' 0 = nth 2 pars 0) by (rewrite HN; cbn [nth par_dims app]; ring).
    assert (CU : forall P P', (forall k, (k < 3)%nat -> get P' k = lam * get P k) -> el_units lam (cubic_setParams P) (cubic_setParams P')).
    { intros P P' H. unfold el_units, cubic_setParams. cbn [el_hex el_K_diag el_K_sdax3 el_g_vecd2 el_K_gmod]. rewrite !H by lia.
      split; [reflexivity|]. split; [unfold sc; cbn [map]; repeat (apply (f_equal2 cons); [rops; ring|]); reflexivity|]. repeat split; rops; unfold Rdiv; ring. }
    assert (VK : forall nl e cc, c = cc -> c_nslip cc = 12%nat -> c_elNP cc = 3%nat -> c_sgNP cc = 0%nat -> c_elSet cc = cubic_setParams ->
      c_kinNP cc = voce_nParams nl -> c_kinSet cc = kinVoce hs nl 12 -> c_sgSet cc = (fun _ => e) -> mm_nParams cc = (8 + voce_nParams nl)%nat ->
      c_sgSet c (sub pars' 3 (c_sgNP c)) = Some sg /\
      (exists kin' hi', c_kinSet c (sub pars' (3 + c_sgNP c + c_elNP c) (c_kinNP c)) = Some (kin', hi') /\ kin_ok (hfac c) (strength_is_stress c) (c_nslip c) kin kin') /\
      el_units lam (el_of c pars) (el_of c pars') /\ p_bulk c pars' = lam * p_bulk c pars /\ p_gamma c pars' = p_gamma c pars /\ p_ec0 c pars' = lam * p_ec0 c pars).
    { intros nl e cc EC K1 K2 K3 K4 K5 K6 K7 K8. rewrite EC in *. clear EC.
      assert (PD : par_dims lam kap cc = [lam * kap * kap; lam; 1; lam; lam; lam] ++ voce_dims lam kap nl ++ [1; lam]).
      { unfold par_dims, hexagonal, strength_is_stress. rewrite K2, K5. destruct nl; reflexivity. }
      rewrite PD in HN. rewrite K7 in *. rewrite K3, K2, K5, K6 in *. cbn [Nat.add] in *.
      split; [exact E1|]. split; [|split; [|split; [|split]]].
      - set (P := sub pars 6 (voce_nParams nl)) in *. set (P' := sub pars' 6 (voce_nParams nl)).
        exists (voce_kinetics hs (voce_setParams nl P') 12), (voce_histInfo (voce_setParams nl P')). split; [reflexivity|].
        assert (EK : kin = voce_kinetics hs (voce_setParams nl P) 12).
        { unfold kinVoce in E2. apply (f_equal (option_map fst)) in E2. cbn [option_map fst] in E2. apply some_inj in E2. symmetry. exact E2. }
        rewrite EK, K1. unfold hfac, strength_is_stress. rewrite K5.
        replace (Nat.leb (voce_nParams nl) 10) with true by (destruct nl; reflexivity).
        apply voce_ok. intros k. unfold P, P'. rewrite K8 in HL.
        destruct (Nat.lt_ge_cases k (voce_nParams nl)) as [Hk'|Hk'].
        + rewrite !get_sub by assumption. rewrite !get_nth, HN. f_equal.
          change (nth k (voce_dims lam kap nl ++ [1; lam]) 1 = nth k (voce_dims lam kap nl) 1). apply app_nth1. destruct nl; cbn in *; lia.
        + rewrite !get_over by (rewrite sub_length by lia; exact Hk'). ring.
      - unfold el_of. rewrite K4, K3, K2. apply CU. intros k Hk'. rewrite !get_sub by assumption. rewrite !get_nth, HN. f_equal. destruct k as [|[|[|]]]; [reflexivity..|lia].
      - unfold p_bulk, hexagonal. rewrite K2. cbn [Nat.eqb]. rewrite !HN. cbn [nth app]. lra.
      - unfold p_gamma. rewrite K8, HN. replace (8 + voce_nParams nl - 2)%nat with (6 + voce_nParams nl)%nat by lia. destruct nl; cbn; ring.
      - unfold p_ec0. rewrite K8, HN. replace (8 + voce_nParams nl - 1)%nat with (7 + voce_nParams nl)%nat by lia. destruct nl; cbn; ring. }
    assert (MK : forall ga e cc, c = cc -> c_nslip cc = 12%nat -> c_elNP cc = 3%nat -> c_sgNP cc = 0%nat -> c_elSet cc = cubic_setParams ->
      c_kinNP cc = km_nParams 1 -> c_kinSet cc = kinKM hs ga false false false 1 12 -> c_sgSet cc = (fun _ => e) -> mm_nParams cc = 24%nat ->
      c_sgSet c (sub pars' 3 (c_sgNP c)) = Some sg /\
      (exists kin' hi', c_kinSet c (sub pars' (3 + c_sgNP c + c_elNP c) (c_kinNP c)) = Some (kin', hi') /\ kin_ok (hfac c) (strength_is_stress c) (c_nslip c) kin kin') /\
      el_units lam (el_of c pars) (el_of c pars') /\ p_bulk c pars' = lam * p_bulk c pars /\ p_gamma c pars' = p_gamma c pars /\ p_ec0 c pars' = lam * p_ec0 c pars).
    { intros ga e cc EC K1 K2 K3 K4 K5 K6 K7 K8. rewrite EC in *. clear EC.
      assert (PD : par_dims lam kap cc = [lam * kap * kap; lam; 1; lam; lam; lam] ++ km_dims lam kap 1 ++ [1; lam]).
      { unfold par_dims, hexagonal, strength_is_stress, km_groups, hexagonal. rewrite K2, K5. reflexivity. }
      rewrite PD in HN. rewrite K7 in *. rewrite K3, K2, K5, K6 in *. cbn [Nat.add] in *.
      split; [exact E1|]. split; [|split; [|split; [|split]]].
      - change (km_nParams 1) with 16%nat in *. set (P := sub pars 6 16) in *. set (P' := sub pars' 6 16). rewrite K8 in HL.
        assert (LP : List.length P = 16%nat) by (unfold P; apply sub_length; lia). assert (LP' : List.length P' = 16%nat) by (unfold P'; apply sub_length; lia).
        destruct (km_ok hs ga false false false 1 12 P P' LP LP' Nat.lt_0_1) as [B1 B2].
        { intros k. destruct (Nat.lt_ge_cases k 16) as [Hk'|Hk'].
          + unfold P, P'. rewrite !get_sub by assumption. rewrite !get_nth, HN. f_equal.
            change (nth k (km_dims lam kap 1 ++ [1; lam]) 1 = nth k (km_dims lam kap 1) 1). apply app_nth1. exact Hk'.
          + rewrite !get_over by (rewrite ?LP, ?LP'; exact Hk'). ring. }
        unfold kinKM in E2 |- *. destruct (km_ctorOk false 1 12 && km_paramsOk (km_setParams ga false false false 1 P)) eqn:EO; [|discriminate E2].
        rewrite B1, EO. exists (km_kinetics hs (km_setParams ga false false false 1 P') 12), (km_histInfo (km_setParams ga false false false 1 P')). split; [reflexivity|].
        apply (f_equal (option_map fst)) in E2. cbn [option_map fst] in E2. apply some_inj in E2. rewrite <- E2, K1. unfold hfac, strength_is_stress. rewrite K5. exact B2.
      - unfold el_of. rewrite K4, K3, K2. apply CU. intros k Hk'. rewrite !get_sub by assumption. rewrite !get_nth, HN. f_equal. destruct k as [|[|[|]]]; [reflexivity..|lia].
      - unfold p_bulk, hexagonal. rewrite K2. cbn [Nat.eqb]. rewrite !HN. cbn [nth app]. lra.
      - unfold p_gamma. rewrite K8, HN. cbn. ring.
      - unfold p_ec0. rewrite K8, HN. cbn. ring. }
    assert (CL : c_sgSet c (sub pars' 3 (c_sgNP c)) = Some sg /\
      (exists kin' hi', c_kinSet c (sub pars' (3 + c_sgNP c + c_elNP c) (c_kinNP c)) = Some (kin', hi') /\ kin_ok (hfac c) (strength_is_stress c) (c_nslip c) kin kin') /\
      el_units lam (el_of c pars) (el_of c pars') /\ p_bulk c pars' = lam * p_bulk c pars /\ p_gamma c pars' = p_gamma c pars /\ p_ec0 c pars' = lam * p_ec0 c pars).
    { destruct HB as [ H | [ H | [ H | [ H | [ H | [ H | H ]]]]]].
      - exact (VK false slipGeomFCC _ H eq_refl eq_refl eq_refl eq_refl eq_refl eq_refl eq_refl eq_refl).
      - exact (VK true slipGeomFCC _ H eq_refl eq_refl eq_refl eq_refl eq_refl eq_refl eq_refl eq_refl).
      - exact (MK false slipGeomFCC _ H eq_refl eq_refl eq_refl eq_refl eq_refl eq_refl eq_refl eq_refl).
      - exact (MK true (slipGeomBCC 12) _ H eq_refl eq_refl eq_refl eq_refl eq_refl eq_refl eq_refl eq_refl).
      - exact (VK false (slipGeomBCC 12) _ H eq_refl eq_refl eq_refl eq_refl eq_refl eq_refl eq_refl eq_refl).
      - exact (VK true (slipGeomBCC 12) _ H eq_refl eq_refl eq_refl eq_refl eq_refl eq_refl eq_refl eq_refl).
      - clear VK MK. assert (PD : par_dims lam kap c = [lam * kap * kap; lam; 1; 1; lam; lam; lam; lam; lam; 1] ++ km_dims lam kap 24 ++ [1; lam]) by (rewrite H; reflexivity).
        rewrite PD in HN. assert (K8 : mm_nParams c = 97%nat) by (rewrite H; reflexivity). rewrite K8 in HL.
        assert (G3 : get pars' 3 = get pars 3) by (rewrite !get_nth, HN; cbn [nth app]; ring).
        split; [|split; [|split; [|split; [|split]]]].
        + rewrite <- E1. rewrite H. cbn [cls_HCP_A c_sgSet c_sgNP]. rewrite !get_sub by lia. cbn [Nat.add]. now rewrite G3.
        + rewrite H in E2 |- *. cbn [cls_HCP_A c_sgNP c_elNP c_kinNP c_kinSet c_nslip hexag_nParams Nat.add] in E2 |- *. change (km_nParams 24) with 85%nat in *. change (S (S (S (S hexag_nParams)))) with 10%nat in *.
          set (P := sub pars 10 85) in *. set (P' := sub pars' 10 85).
          assert (LP : List.length P = 85%nat) by (unfold P; apply sub_length; lia). assert (LP' : List.length P' = 85%nat) by (unfold P'; apply sub_length; lia).
          destruct (km_ok hs true true true true 24 24 P P' LP LP' (le_n 24)) as [B1 B2].
          { intros k. destruct (Nat.lt_ge_cases k 85) as [Hk'|Hk'].
            + unfold P, P'. rewrite !get_sub by assumption. rewrite !get_nth, HN. f_equal.
              change (nth k (km_dims lam kap 24 ++ [1; lam]) 1 = nth k (km_dims lam kap 24) 1). apply app_nth1. exact Hk'.
            + rewrite !get_over by (rewrite ?LP, ?LP'; exact Hk'). ring. }
          unfold kinKM in E2 |- *. destruct (km_ctorOk true 24 24 && km_paramsOk (km_setParams true true true true 24 P)) eqn:EO; [|discriminate E2].
          rewrite B1, EO. exists (km_kinetics hs (km_setParams true true true true 24 P') 24), (km_histInfo (km_setParams true true true true 24 P')). split; [reflexivity|].
          apply (f_equal (option_map fst)) in E2. cbn [option_map fst] in E2. apply some_inj in E2. rewrite <- E2. exact B2.
        + unfold el_of. rewrite H. cbn [cls_HCP_A c_sgNP c_elNP c_elSet hexag_nParams Nat.add]. change hexag_nParams with 6%nat. set (P := sub pars 4 6). set (P' := sub pars' 4 6).
          assert (HE : forall k, (k < 5)%nat -> get P' k = lam * get P k).
          { intros k Hk'. unfold P, P'. rewrite !get_sub by lia. rewrite !get_nth, HN. f_equal. destruct k as [|[|[|[|[|]]]]]; [reflexivity..|lia]. }
          assert (HG : get P' 5 = get P 5) by (unfold P, P'; rewrite !get_sub by lia; rewrite !get_nth, HN; cbn [nth app Nat.add]; ring).
          unfold el_units, hexag_setParams. cbn [el_hex el_K_diag el_K_sdax3 el_g_vecd2 el_K_gmod]. rewrite ?HG, (HE 0%nat), (HE 1%nat), (HE 2%nat), (HE 3%nat), (HE 4%nat) by lia.
          split; [reflexivity|]. split; [unfold sc; cbn [map]; repeat (apply (f_equal2 cons); [rops; unfold Rdiv; ring|]); reflexivity|]. split; [rops; unfold Rdiv; ring|]. split; [reflexivity|].
          unfold vecsssum, sum. cbn [seq fold_left get nth]. rops. unfold Rdiv. ring.
        + unfold p_bulk. rewrite H. cbn [hexagonal cls_HCP_A c_elNP hexag_nParams Nat.eqb]. rewrite !HN. cbn [nth app]. lra.
        + unfold p_gamma. rewrite K8, HN. cbn. ring.
        + unfold p_ec0. rewrite K8, HN. cbn. ring. }
    destruct CL as (C1 & C2 & C3 & C4 & C5 & C6). exact (conj C1 (conj C2 (conj C3 (conj C4 (conj A2 (conj C5 (conj C6 A5))))))).
  Qed.
End Mat.
