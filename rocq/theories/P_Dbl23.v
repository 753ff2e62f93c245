(** Doubles: error bounds of the stress in the crystal frame, and of the stored deviatoric stress of a call. *)
From Coq Require Import List ZArith Bool Lia PeanoNat Reals Lra.
From Flocq Require Import Core IEEE754.BinarySingleNaN.
From Verif Require Import Num Arr NumR Util SlipGeom Eos Hard Elast Evptn MatModel Cases Const SpecConst P_Const Prop_Const
  P_Sngl P_Batch P_Batch2 P_Batch3 P_Api P_Builtin SpecTensor SpecElast SpecStep SpecApi P_Tensor P_Stress P_Gen NumD P_Dbl P_Dbl2 P_Dbl3 P_Dbl4 P_Dbl5 P_Dbl7 P_Dbl8 P_Dbl9 P_Dbl10
  SpecDbl SpecDblFin SpecDblAcc SpecDblStress P_Dbl13 P_Dbl14 P_Dbl15 P_Dbl16 P_Dbl17 P_Dbl19 P_Dbl20 P_Dbl21 P_Dbl22.
Import ListNotations.
Local Open Scope R_scope.

(** components of the law in the crystal frame *)
Definition law5 (c : MClass dbl) (p : nat -> R) (v cr g : R) (e : nat -> R) : M3 :=
  add3 (scal3 (/ v) (dhooke c p (add3 (scal3 (/ cr) (ten5 [e 0%nat; e 1%nat; e 2%nat; e 3%nat; e 4%nat])) (scal3 (ln v / 3) I3)))) (scal3 (- g) (basis 1)).
Lemma law_cubic c p v cr g e : is_hex c = false -> v <> 0 -> cr <> 0 ->
  vec5 (law5 c p v cr g e) = [(p 3%nat - p 4%nat) * e 0%nat / (v * cr); (p 3%nat - p 4%nat) * e 1%nat / (v * cr) - g; 2 * p 5%nat * e 2%nat / (v * cr); 2 * p 5%nat * e 3%nat / (v * cr); 2 * p 5%nat * e 4%nat / (v * cr)].
Proof.
  intros H HV HC. unfold law5, dhooke. rewrite H. unfold hooke_cubic. set (l := ln v). clearbody l. specR. meq; field_s; auto.
Qed.
Lemma law_hex c p v cr g e : is_hex c = true -> v <> 0 -> cr <> 0 ->
  vec5 (law5 c p v cr g e) = [(p 4%nat - p 5%nat) * e 0%nat / (v * cr);
    (p 4%nat + p 5%nat - 4 * p 6%nat + 2 * p 7%nat) / 3 * e 1%nat / (v * cr) + sqrt 2 * (p 6%nat + p 7%nat - p 4%nat - p 5%nat) / 3 * (sqrt 3 * (ln v / 3)) / v - g;
    (p 4%nat - p 5%nat) * e 2%nat / (v * cr); 2 * p 8%nat * e 3%nat / (v * cr); 2 * p 8%nat * e 4%nat / (v * cr)].
Proof.
  intros H HV HC. unfold law5, dhooke. rewrite H. unfold hooke_hex. set (l := ln v). clearbody l. change (sqrt 2) with s2. change (sqrt 3) with s3. specR. meq; field_s; auto.
Qed.

Section L.
  Variable L : Libm.
  Let DN : Num dbl := DNum L.
  #[local] Existing Instance DN.
  Hypothesis TR : trig_ok L.
  Hypothesis LM : libm_ok L.

  Lemma lat_ac hs c pars (p : Prob dbl) e v EN EA : builtin hs c -> moderate_params c pars -> pb_el p = gel_of c pars ->
    fin v -> bpow radix2 (- (10)) <= B2R v <= bpow radix2 10 -> pb_a_V p = npow v onethird -> pb_a_V_ri p = (nZ 1 / npow v onethird)%num -> pb_detV_ri p = (nZ 1 / v)%num ->
    ac (pb_eVref p) EN EA 5 205 (-950) -> length e = 5%nat -> (forall k, (k < 5)%nat -> mag (get e k) 335) ->
    let ev := fun k => B2R (get e k) in let cr := Rpower (B2R v) (/ 3) in
    exists Av : nat -> R, (forall j, (j < 5)%nat -> ac (get (elastNEtoC p e) j) (nth j (vec5 (law5 c (rpar pars) (B2R v) cr (dghex c (rpar pars) * EN) ev)) 0) (Av j) 700 690 (-300)) /\
      Av 0%nat + Av 1%nat + Av 2%nat + Av 3%nat + Av 4%nat <=
      dstiff c (rpar pars) * ((Rabs (ev 0%nat) + Rabs (ev 1%nat) + Rabs (ev 2%nat) + Rabs (ev 3%nat) + Rabs (ev 4%nat)) / Rpower (B2R v) (4 / 3) + (if is_hex c then (1 + Rabs (ln (B2R v))) / B2R v else 0))
      + Rabs (dghex c (rpar pars)) * EA.
  Proof.
    intros HB (_ & ME & _) EL FV BV EA' EAR EDR HV HLe HE. cbv zeta. pose proof (bpow_gt_0 radix2 (- (10))) as P10.
    assert (PV : 0 < B2R v) by lra.
    destruct (vol_back L LM v FV BV) as [FJ EJ]. destruct (cube_root L LM v FV BV) as [FA EAc]. destruct (third_log L LM v FV BV) as [FL ELg]. pose proof (c_lo v BV) as [CL CH].
    pose proof (ln_x v BV) as LX.
    assert (AJ : ac (lm_exp L (Bmult mode_NE (dconst lit_SQRT3) (Bmult mode_NE (dconst lit_SQRT3) (lm_log L (lm_pow L v onethird))))) (B2R v) (B2R v) 430 10 (-1075)).
    { split; [exact FJ|]. pose proof (bpow_gt_0 radix2 (-1075)). split; [apply Rle_trans with (1 := EJ); lra|]. split; [rewrite Rabs_pos_eq; lra|lra]. }
    assert (ALg : ac (lm_log L (lm_pow L v onethird)) (ln (B2R v) / 3) (1 + Rabs (ln (B2R v))) 90 4 (-1075)).
    { split; [exact FL|]. pose proof (Rabs_pos (ln (B2R v))) as P. pose proof (bpow_gt_0 radix2 (-1075)) as P1. assert (UU : 0 < uu) by (unfold uu; lra).
      split; [|split; [unfold Rdiv; rewrite Rabs_mult, (Rabs_pos_eq (/ 3)) by lra; lra|change (bpow radix2 4) with 16; lra]].
      apply Rle_trans with (1 := ELg). assert (0 <= uu * Rabs (ln (B2R v))) by (apply Rmult_le_pos; lra). lra. }
    pose proof (ac_inv _ _ 18 (-1075) 10 FA CL EAc ltac:(unfold okm; lia) ltac:(unfold okk'; lia) ltac:(lia)) as AI. clear FJ EJ EAc FL ELg.
    pose proof (inv_ac v FV (proj1 BV)) as IV.
    destruct C37_roots as (C2 & C3 & _).
    pose proof (sqrt_sqrt 3 ltac:(lra)) as S3. pose proof (sqrt_lt_R0 3 ltac:(lra)) as P3. assert (B3 : 1.7 <= sqrt 3 <= 1.7321) by nra.
    pose proof (sqrt_sqrt 2 ltac:(lra)) as S2. pose proof (sqrt_lt_R0 2 ltac:(lra)) as P2. assert (B2 : 1.4 <= sqrt 2 <= 1.4143) by nra.
    pose proof (ac_const _ _ C2 ltac:(lra)) as A2. pose proof (ac_const _ _ C3 ltac:(lra)) as A3.
    assert (R43 : Rpower (B2R v) (4 / 3) = B2R v * Rpower (B2R v) (/ 3)).
    { rewrite <- (Rpower_1 (B2R v) PV) at 2. rewrite <- Rpower_plus. f_equal. lra. }
    set (cr := Rpower (B2R v) (/ 3)) in *. assert (PC : 0 < cr) by apply exp_pos. rewrite R43.
    assert (NV : B2R v <> 0) by (apply Rgt_not_eq; lra). assert (NC : cr <> 0) by (apply Rgt_not_eq; lra).
    assert (EC : forall j, (j < 5)%nat -> get (elastNEtoC p e) j = Bmult mode_NE (pb_detV_ri p) (get (elastNEtoT p e) j)).
    { intros j Hj. do 5 (destruct j as [|j]; [reflexivity|]). lia. }
    pose proof (ac_in _ _ (HE 0%nat ltac:(lia))) as D0. pose proof (ac_in _ _ (HE 1%nat ltac:(lia))) as D1. pose proof (ac_in _ _ (HE 2%nat ltac:(lia))) as D2. pose proof (ac_in _ _ (HE 3%nat ltac:(lia))) as D3. pose proof (ac_in _ _ (HE 4%nat ltac:(lia))) as D4.
    clear HE.
    assert (ET : elastNEtoT p e = el_eval (gel_of c pars) [Bmult mode_NE (Bdiv mode_NE (Z2D 1) (lm_pow L v onethird)) (get e 0); Bmult mode_NE (Bdiv mode_NE (Z2D 1) (lm_pow L v onethird)) (get e 1); Bmult mode_NE (Bdiv mode_NE (Z2D 1) (lm_pow L v onethird)) (get e 2); Bmult mode_NE (Bdiv mode_NE (Z2D 1) (lm_pow L v onethird)) (get e 3); Bmult mode_NE (Bdiv mode_NE (Z2D 1) (lm_pow L v onethird)) (get e 4); Bmult mode_NE (dconst lit_SQRT3) (lm_log L (lm_pow L v onethird))] (pb_p_EOS p) (pb_eVref p)).
    { unfold elastNEtoT. rewrite EL, EA', EAR. reflexivity. }
    set (ia := Bdiv mode_NE (Z2D 1) (lm_pow L v onethird)) in *. set (lg := lm_log L (lm_pow L v onethird)) in *. set (c3 := dconst lit_SQRT3) in *.
    change (lm_exp L (Bmult mode_NE c3 (Bmult mode_NE c3 lg))) with (nexp (Bmult mode_NE c3 (Bmult mode_NE c3 lg)) : dbl) in AJ.
    rewrite EDR in EC. unfold el_eval in ET. cbv zeta in ET. unfold iSvecS, iTvecHex in ET. cbn [get nth] in ET.
    change (nmul sqr3 (Bmult mode_NE c3 lg)) with (Bmult mode_NE c3 (Bmult mode_NE c3 lg)) in ET.
    set (J := nexp _) in *. cbn [ndiv nZ DN DNum] in EC. set (iv := Bdiv mode_NE (Z2D 1) v) in *. clearbody J ia iv lg. set (eV := pb_eVref p) in *. set (pe := pb_p_EOS p) in *. clearbody eV pe.
    set (lv := ln (B2R v)) in *. set (e0 := get e 0) in *. set (e1 := get e 1) in *. set (e2 := get e 2) in *. set (e3 := get e 3) in *. set (e4 := get e 4) in *.
    pose proof (Rinv_0_lt_compat _ PV) as PIV. pose proof (Rinv_0_lt_compat _ PC) as PIC. pose proof (ac_A _ _ _ _ _ _ HV) as PEA.
    clear C2 C3 EA' EAR EDR CL CH FA TR LM EL R43 LX.
    assert (NN : forall x, 0 <= Rabs x) by apply Rabs_pos.
    destruct (el_kind L hs c HB) as [[E1 E2]|[E1 E2]].
    - assert (IH : is_hex c = false) by (unfold is_hex; rewrite E2; reflexivity).
      assert (S0 : c_sgNP c = 0%nat).
      { destruct HB as [E | [E | [E | [E | [E | [E | E]]]]]]; rewrite E in *; try reflexivity. discriminate E2. }
      rewrite law_cubic by assumption. cbv beta. fold e0 e1 e2 e3 e4. unfold dstiff, dghex. rewrite IH. unfold gel_of in ET. rewrite E1, E2, S0 in *. cbn [Nat.add] in *.
      pose proof (ac_in _ _ (moderate_mag _ (ME 0%nat ltac:(lia)))) as M0. pose proof (ac_in _ _ (moderate_mag _ (ME 1%nat ltac:(lia)))) as M1. pose proof (ac_in _ _ (moderate_mag _ (ME 2%nat ltac:(lia)))) as M2.
      cbn [Nat.add] in M0, M1, M2. clear ME HB. pose proof (ac_Z 2 ltac:(lia)) as Z2.
      unfold cubic_setParams in ET. cbn [el_hex el_K_diag] in ET. unfold vecsVAdiagB, tab in ET. cbn [map seq app get nth] in ET. rewrite !get_sub in ET by lia. cbn [Nat.add] in ET.
      change (get pars 3) with (dpar pars 3) in ET. change (get pars 4) with (dpar pars 4) in ET. change (get pars 5) with (dpar pars 5) in ET.
      unfold two in ET. cbn [nadd nsub nmul nZ DN DNum] in ET. unfold rpar.
      set (a := dpar pars 3) in *. set (b := dpar pars 4) in *. set (d := dpar pars 5) in *. set (t := Z2D 2) in *. clearbody a b d t e0 e1 e2 e3 e4.
      rewrite ET in EC. clear ET. cbn [app get nth] in EC.
      exists (fun j => nth j [(Rabs (B2R a) + Rabs (B2R b)) * Rabs (B2R e0) / (B2R v * cr); (Rabs (B2R a) + Rabs (B2R b)) * Rabs (B2R e1) / (B2R v * cr);
        2 * Rabs (B2R d) * Rabs (B2R e2) / (B2R v * cr); 2 * Rabs (B2R d) * Rabs (B2R e3) / (B2R v * cr); 2 * Rabs (B2R d) * Rabs (B2R e4) / (B2R v * cr)] 0).
      split.
      + intros j Hj. rewrite EC by exact Hj. clear EC. unfold get. 
        do 5 (destruct j as [|j]; [cbn [nth]; eapply ac_fin; [acc|field; auto|field; auto|cbn; lia..]|]). lia.
      + cbn [nth]. set (w := / (B2R v * cr)). assert (PW : 0 <= w) by (left; apply Rinv_0_lt_compat; now apply Rmult_lt_0_compat).
        unfold Rdiv. fold w. rewrite Rabs_R0, Rmult_0_l, !Rplus_0_r.
        pose proof (NN (B2R a)) as Pa. pose proof (NN (B2R b)) as Pb. pose proof (NN (B2R d)) as Pd. pose proof (NN (B2R e0)) as Q0. pose proof (NN (B2R e1)) as Q1. pose proof (NN (B2R e2)) as Q2. pose proof (NN (B2R e3)) as Q3. pose proof (NN (B2R e4)) as Q4.
        set (ra := Rabs (B2R a)) in *. set (rb := Rabs (B2R b)) in *. set (rd := Rabs (B2R d)) in *. set (r0 := Rabs (B2R e0)) in *. set (r1 := Rabs (B2R e1)) in *. set (r2 := Rabs (B2R e2)) in *. set (r3 := Rabs (B2R e3)) in *. set (r4 := Rabs (B2R e4)) in *.
        clearbody ra rb rd r0 r1 r2 r3 r4 w.
        replace ((ra + rb) * r0 * w + (ra + rb) * r1 * w + 2 * rd * r2 * w + 2 * rd * r3 * w + 2 * rd * r4 * w) with (((ra + rb) * r0 + (ra + rb) * r1 + 2 * rd * r2 + 2 * rd * r3 + 2 * rd * r4) * w) by ring.
        rewrite <- Rmult_assoc. apply Rmult_le_compat_r; [exact PW|].
        assert (G : forall x, 0 <= x -> 0 <= ra * x /\ 0 <= rb * x /\ 0 <= rd * x) by (intros x Hx; split; [|split]; now apply Rmult_le_pos).
        pose proof (G r0 Q0). pose proof (G r1 Q1). pose proof (G r2 Q2). pose proof (G r3 Q3). pose proof (G r4 Q4). lra.
    - assert (IH : is_hex c = true) by (unfold is_hex; rewrite E2; reflexivity).
      assert (S1 : c_sgNP c = 1%nat).
      { destruct HB as [E | [E | [E | [E | [E | [E | E]]]]]]; rewrite E in *; try discriminate E2; reflexivity. }
      rewrite law_hex by assumption. cbv beta. fold e0 e1 e2 e3 e4 lv. unfold dstiff, dghex. rewrite IH. unfold gel_of in ET. rewrite E1, E2, S1 in *. cbn [Nat.add] in *.
      pose proof (ac_in _ _ (moderate_mag _ (ME 0%nat ltac:(lia)))) as M0. pose proof (ac_in _ _ (moderate_mag _ (ME 1%nat ltac:(lia)))) as M1. pose proof (ac_in _ _ (moderate_mag _ (ME 2%nat ltac:(lia)))) as M2.
      pose proof (ac_in _ _ (moderate_mag _ (ME 3%nat ltac:(lia)))) as M3. pose proof (ac_in _ _ (moderate_mag _ (ME 4%nat ltac:(lia)))) as M4. pose proof (ac_in _ _ (moderate_mag _ (ME 5%nat ltac:(lia)))) as M5.
      cbn [Nat.add] in M0, M1, M2, M3, M4, M5. clear ME HB. pose proof (ac_Z 2 ltac:(lia)) as Z2.
      pose proof (ac_third 1 ltac:(lia)) as T1. pose proof (ac_third 2 ltac:(lia)) as T2. pose proof (ac_third 4 ltac:(lia)) as T4.
      unfold hexag_setParams in ET. cbn [el_hex el_K_diag el_K_sdax3 el_g_vecd2] in ET. unfold vecsVAdiagB, tab in ET. cbn [map seq app upd get nth] in ET. rewrite !get_sub in ET by lia. cbn [Nat.add] in ET.
      change (get pars 4) with (dpar pars 4) in ET. change (get pars 5) with (dpar pars 5) in ET. change (get pars 6) with (dpar pars 6) in ET. change (get pars 7) with (dpar pars 7) in ET. change (get pars 8) with (dpar pars 8) in ET. change (get pars 9) with (dpar pars 9) in ET.
      unfold two, onethird, twothird, fourthirds, one, two, three in ET. cbn [nadd nsub nmul nopp ndiv nZ sqr2 DN DNum] in ET. unfold rpar.
      set (a := dpar pars 4) in *. set (b := dpar pars 5) in *. set (d := dpar pars 6) in *. set (f := dpar pars 7) in *. set (h := dpar pars 8) in *. set (g := dpar pars 9) in *.
      set (th := Bdiv mode_NE (Z2D 1) (Z2D 3)) in *. set (th2 := Bdiv mode_NE (Z2D 2) (Z2D 3)) in *. 
      set (th4 := Bdiv mode_NE (Z2D 4) (Z2D 3)) in *. set (t := Z2D 2) in *. set (c2 := dconst lit_SQRT2) in *. clearbody a b d f h g th th2 th4 t c2 c3 e0 e1 e2 e3 e4.
      rewrite ET in EC. clear ET. cbn [app get nth] in EC.
      set (C3 := Rabs (B2R a) + Rabs (B2R b) + Rabs (B2R d) + Rabs (B2R f)).
      exists (fun j => nth j [(Rabs (B2R a) + Rabs (B2R b)) * Rabs (B2R e0) / (B2R v * cr);
        (Rabs (B2R a) + Rabs (B2R b) + 4 * Rabs (B2R d) + 2 * Rabs (B2R f)) / 3 * Rabs (B2R e1) / (B2R v * cr) + sqrt 2 * C3 / 3 * (sqrt 3 * (1 + Rabs lv)) / B2R v + Rabs (B2R g) * EA;
        (Rabs (B2R a) + Rabs (B2R b)) * Rabs (B2R e2) / (B2R v * cr); 2 * Rabs (B2R h) * Rabs (B2R e3) / (B2R v * cr); 2 * Rabs (B2R h) * Rabs (B2R e4) / (B2R v * cr)] 0).
      split.
      + intros j Hj. rewrite EC by exact Hj. clear EC. unfold get. 
        do 5 (destruct j as [|j]; [cbn [nth]; eapply ac_fin; [acc|field; auto|unfold C3; field; auto|cbn; lia..]|]). lia.
      + cbn [nth]. set (w := / (B2R v * cr)). assert (PW : 0 <= w) by (left; apply Rinv_0_lt_compat; now apply Rmult_lt_0_compat).
        unfold Rdiv. fold w. 
        pose proof (NN (B2R a)) as Pa. pose proof (NN (B2R b)) as Pb. pose proof (NN (B2R d)) as Pd. pose proof (NN (B2R f)) as Pf. pose proof (NN (B2R h)) as Ph. pose proof (NN (B2R e0)) as Q0. pose proof (NN (B2R e1)) as Q1. pose proof (NN (B2R e2)) as Q2. pose proof (NN (B2R e3)) as Q3. pose proof (NN (B2R e4)) as Q4.
        pose proof (NN lv) as Ql. unfold C3. set (ge := Rabs (B2R g) * EA).
        set (ra := Rabs (B2R a)) in *. set (rb := Rabs (B2R b)) in *. set (rd := Rabs (B2R d)) in *. set (rf := Rabs (B2R f)) in *. set (rh := Rabs (B2R h)) in *. set (r0 := Rabs (B2R e0)) in *. set (r1 := Rabs (B2R e1)) in *. set (r2 := Rabs (B2R e2)) in *. set (r3 := Rabs (B2R e3)) in *. set (r4 := Rabs (B2R e4)) in *.
        set (rl := Rabs lv) in *. set (z := / B2R v) in *. set (x := sqrt 2) in *. set (y := sqrt 3) in *. clearbody ra rb rd rf rh r0 r1 r2 r3 r4 w rl z x y ge.
        assert (XY : x * (ra + rb + rd + rf) * / 3 * (y * (1 + rl)) * z <= 2 * (ra + rb + rd + rf + rh) * ((1 + rl) * z)).
        { replace (x * (ra + rb + rd + rf) * / 3 * (y * (1 + rl)) * z) with (x * y / 3 * (ra + rb + rd + rf) * ((1 + rl) * z)) by field.
          apply Rmult_le_compat_r; [apply Rmult_le_pos; lra|]. apply Rmult_le_compat; [apply Rmult_le_pos; [apply Rmult_le_pos; lra|lra]|lra|nra|lra]. }
        assert (YY : ((ra + rb) * r0 + (ra + rb + 4 * rd + 2 * rf) * / 3 * r1 + (ra + rb) * r2 + 2 * rh * r3 + 2 * rh * r4) * w <= 2 * (ra + rb + rd + rf + rh) * (r0 + r1 + r2 + r3 + r4) * w).
        { apply Rmult_le_compat_r; [exact PW|].
          assert (G : forall x, 0 <= x -> 0 <= ra * x /\ 0 <= rb * x /\ 0 <= rd * x /\ 0 <= rf * x /\ 0 <= rh * x) by (intros x' Hx; repeat apply conj; now apply Rmult_le_pos).
          pose proof (G r0 Q0). pose proof (G r1 Q1). pose proof (G r2 Q2). pose proof (G r3 Q3). pose proof (G r4 Q4). lra. }
        lra.
  Qed.

  Lemma law_turn (u : list R) (A : M3) k : length u = 4%nat -> SpecTensor.norm2 u = 1 -> is_sym A -> (k < 6)%nat ->
    nth k (@stress_out R RNum u (vec5 A ++ [0])) 0 = nth k (voigt (cong (rotq u) (dev3 A))) 0.
  Proof.
    intros Lu Nu HA Hk. rewrite stress_out_law by (assumption || reflexivity).
    assert (E : ten6 (vec5 A ++ [0]) = dev3 A).
    { rewrite <- (ten5_vec5 A HA). unfold ten6. replace (nth 5 (vec5 A ++ [0]) 0) with 0 by reflexivity.
      replace (ten5 (vec5 A ++ [0])) with (ten5 (vec5 A)) by reflexivity. set (B := ten5 (vec5 A)). clearbody B. destruct B. spec. meq; ring. }
    rewrite E. pose proof (rotq_rot u Lu Nu) as [HO _].
    assert (T : trace (cong (rotq u) (dev3 A)) = 0). { rewrite cong_trace by exact HO. clear. destruct A. unfold dev3. spec. field. }
    unfold svecP. rewrite T. set (B := cong (rotq u) (dev3 A)). clearbody B. unfold voigt.
    do 6 (destruct k as [|k]; [cbn [nth]; try reflexivity; field|]). lia.
  Qed.
  Lemma law5_sym c p v cr g e : is_sym (law5 c p v cr g e).
  Proof.
    unfold law5.
    assert (S1 : is_sym (basis 1)) by (unfold is_sym; spec; meq; ring).
    set (E := add3 (scal3 (/ cr) _) _). assert (HE : is_sym E).
    { unfold E. set (l := [_; _; _; _; _]). destruct (ten5_dev l) as [S _]. set (B := ten5 l) in *. clearbody B. unfold is_sym in *. destruct B. unfold tr3 in *. cbn in *. injection S as ? ? ? ? ? ?. subst. reflexivity. }
    clearbody E. assert (HH : is_sym (dhooke c p E)).
    { unfold dhooke. destruct (is_hex c); unfold hooke_cubic, hooke_hex, is_sym in *; destruct E; unfold tr3 in *; cbn in *; injection HE as ? ? ? ? ? ?; subst; reflexivity. }
    set (D := dhooke c p E) in *. set (B1 := basis 1) in *. clearbody D B1. clear - HH S1. unfold is_sym in *. destruct D, B1. unfold tr3 in *. cbn in *. injection HH as ? ? ? ? ? ?. injection S1 as ? ? ? ? ? ?. subst. reflexivity.
  Qed.

  Section C.
    Variables (hs : Solver dbl) (c : MClass dbl) (b : DCall) (i : nat) (pars : list dbl).
    Hypothesis G : dgood L hs c b.
    Hypothesis Hi : (i < d_n b)%nat.
    Hypothesis HU : in_use c (d_s b) pars.
    Hypothesis MP : moderate_params c pars.
    Hypothesis MI : moderate_point b i.
    Hypothesis HA : moderate_answers (d_solver b).

    Lemma call_dstress W k : rotates (dunit b i) W -> (k < 6)%nat ->
      within12 (rout b AS i k) (nth k (voigt (cong W (dev3 (dlatStress c pars b i)))) 0) (dstress_mag c pars b i).
    Proof.
      intros HW Hk.
      destruct (dcall_mag L TR LM hs c b i pars G Hi HU MP MI HA) as (OS & _ & _ & _ & _ & OH & _).
      pose proof (dcall_quat_fin L TR hs c b i G Hi HA) as QF. cbv zeta in QF. destruct (mp_q _ _ MI) as [Qf Qn]. apply range_200 in Qn.
      destruct (QF Qf Qn) as [QF' QN']. clear QF Qf Qn.
      destruct (din_use_eos L hs c (d_s b) pars (proj1 G) HU) as (bulk & sg & kin & tol' & EB & HM').
      destruct (dres L hs c b i G Hi) as (mat & tol & h_u & p & r & v & nf & gm & HM & _ & HP & HR & Rs).
      rewrite HM' in HM. apply (f_equal (fun o => match o with Some (x, _) => x | None => mat end)) in HM. cbn beta iota in HM.
      assert (EQ : bulk = el_K_bulkMod (gel_of c pars)). { unfold el_getBulkMod in EB. destruct nleb; congruence. }
      pose proof (bulk_ac L hs c pars (proj1 G) MP) as BK. change (DNum L) with DN in BK. rewrite <- EQ in BK.
      assert (EO : m_eos mat = eos_setParams (c_iso c) ([get pars 0; bulk; get pars 1] ++ sub pars (3 + c_sgNP c + c_elNP c + c_kinNP c) 2)) by (rewrite <- HM; reflexivity).
      assert (EE : m_el mat = gel_of c pars) by (rewrite <- HM; reflexivity). clear HM HM' EB EQ.
      pose proof (dquat_out L hs c b i G Hi) as QO. 
      set (ptn := pt_of c (d_s b) (d_mtan b) (d_m b) i) in *. set (pto := pt_of c (d_s b) (d_mtan b) (d_m1 b) i) in *.
      set (cD := cell_of c (d_s b) (d_mtan b) (d_m b) AD i) in *. set (cW := cell_of c (d_s b) (d_mtan b) (d_m b) AW i) in *. set (cV := cell_of c (d_s b) (d_mtan b) (d_m b) AV i) in *.
      pose proof (g_stress _ _ _ _ _ _ _ _ _ _ _ _ _ _ Rs) as GS. pose proof (g_E _ _ _ _ _ _ _ _ _ _ _ _ _ _ Rs) as GH. pose proof (g_Q _ _ _ _ _ _ _ _ _ _ _ _ _ _ Rs) as GQ. clear Rs.
      pose proof (fun a k => dv_in L hs c b i G Hi a k) as VI. pose proof (fun a k => dv_out L hs c b i G Hi a k) as VO. cbv beta in VI, VO.
      assert (IV : forall k, (k < 4)%nat -> get cV k = dval (d_s b) (d_m b) AV i k) by (intros k' Hk'; apply (VI AV); cbn; lia).
      assert (IE : get (pt_eInt ptn) 0 = dval (d_s b) (d_m b) AE i 0) by (apply (VI AE); cbn; lia).
      assert (IS : forall k, (k < 7)%nat -> get (pt_stress ptn) k = dval (d_s b) (d_m b) AS i k) by (intros k' Hk'; apply (VI AS); cbn; lia).
      assert (XS : forall k, (k < 7)%nat -> get (pt_stress pto) k = dval (d_s b) (d_m1 b) AS i k) by (intros k' Hk'; apply (VO AS); cbn; lia).
      assert (XH : forall k, (k < 5)%nat -> get (fst (stateFromX p (so_x r))) k = dval (d_s b) (d_m1 b) AH i (4 + k)).
      { intros j Hj. assert (E : get (sub (pt_hist pto) iHistLbE 5) j = get (fst (stateFromX p (so_x r))) j) by (rewrite GH; reflexivity).
        rewrite <- E. rewrite get_sub by lia. apply (dhist_out L hs c b i G Hi). unfold iHistLbE. lia. }
      destruct (mp_v _ _ MI 1%nat ltac:(lia)) as [Fv1 Bv1]. apply vol_range in Bv1.
      pose proof (moderate_mag _ (mp_dv _ _ MI)) as MD. pose proof (moderate_mag _ (mp_e _ _ MI)) as ME. pose proof (moderate_mag _ (mp_s _ _ MI 6%nat ltac:(lia))) as MS.
      destruct MP as (MC & MEL & MX). pose proof (moderate_mag _ (MX 0%nat ltac:(lia))) as MG.
      rewrite Nat.add_0_r in MG. rewrite (iso_false L hs c (proj1 G)) in EO.
      assert (EOB : eos_bulk (m_eos mat) = bulk) by (rewrite EO; reflexivity).
      assert (EOG : eos_gamma (m_eos mat) = dpar pars (i_gamma c)).
      { rewrite EO. unfold eos_setParams. cbv zeta. cbn [eos_gamma app]. change (get (sub pars (3 + c_sgNP c + c_elNP c + c_kinNP c) 2) 0 = dpar pars (i_gamma c)). rewrite get_sub by lia. rewrite Nat.add_0_r. reflexivity. }
      assert (EOI : eos_iso (m_eos mat) = false) by (rewrite EO; reflexivity). clear EO.
      change (dpar pars (3 + c_sgNP c + c_elNP c + c_kinNP c)) with (dpar pars (i_gamma c)) in MG. rewrite <- EOG in MG. rewrite <- EOB in BK.
      rewrite <- IV in Fv1, Bv1, MD by lia. rewrite <- IE in ME. rewrite <- IS in MS by lia.
      destruct (eos_ac L _ _ (m_eos mat) (get cV 1) (get cV 3) (get (pt_eInt ptn) 0) (get (pt_stress ptn) 6) EOI BK MG Fv1 Bv1 MD ME MS) as (UE & _).
      change (DNum L) with DN in UE. 
      change (updateSimple (m_eos mat) (get cV 1) (get cV 3) (get (pt_eInt ptn) 0) (get (pt_stress ptn) 6)) with (snglUpd mat cV (pt_eInt ptn) (pt_stress ptn)) in UE.
      assert (PE : pb_el p = gel_of c pars) by (rewrite HP; exact EE).
      assert (PV : pb_eVref p = u_eNew (snglUpd mat cV (pt_eInt ptn) (pt_stress ptn))) by (rewrite HP; reflexivity).
      rewrite <- PV in UE.
      assert (PA : pb_a_V p = npow (get cV 1) onethird) by (rewrite HP; reflexivity).
      assert (PR : pb_a_V_ri p = (nZ 1 / npow (get cV 1) onethird)%num) by (rewrite HP; reflexivity).
      assert (PD : pb_detV_ri p = (nZ 1 / get cV 1)%num) by (rewrite HP; reflexivity).
      destruct (gstateFromX_length p (so_x r)) as [L5 L4].
      set (qu := snd (stateFromX p (so_x r))) in *. set (e := fst (stateFromX p (so_x r))) in *. clearbody qu e.
      assert (HE : forall j, (j < 5)%nat -> mag (get e j) 335) by (intros j Hj; rewrite XH by exact Hj; apply OH; exact Hj).
      destruct (lat_ac hs c pars p e (get cV 1) _ _ (proj1 G) (conj MC (conj MEL MX)) PE Fv1 Bv1 PA PR PD UE L5 HE) as (Av & HAv & SAv). cbv zeta in HAv, SAv.
      (* the orientation used and the one stored differ at most by sign *)
      assert (QQ : dquat (d_s b) (d_m1 b) i = qu \/ dquat (d_s b) (d_m1 b) i = map Bopp qu).
      { rewrite <- QO. unfold iHistLbQ in GQ. rewrite GQ. unfold gquat_final. destruct (nltb _ _); [right|left]; reflexivity. }
      assert (QU : finite qu /\ Rabs (SpecDbl.norm2 qu - 1) <= / 10 ^ 13).
      { destruct QQ as [E|E]; rewrite E in QF', QN'; [split; assumption|].
        assert (IN : map Bopp (map Bopp qu) = qu) by (rewrite map_map; rewrite <- (map_id qu) at 2; apply map_ext; intros x; apply Bopp_involutive).
        destruct (opp_list (map Bopp qu)) as (N1 & N2 & _). rewrite IN in N1, N2. rewrite N1. split; [apply N2; exact QF'|exact QN']. }
      destruct QU as [QUF QUN].
      assert (L4' : list4 qu). { destruct qu as [|? [|? [|? [|? [|]]]]]; try discriminate L4. do 4 eexists. reflexivity. }
      assert (DU : dunit b i = map (fun x => x / sqrt (SpecDbl.norm2 qu)) (map B2R qu) \/ dunit b i = map Ropp (map (fun x => x / sqrt (SpecDbl.norm2 qu)) (map B2R qu))).
      { assert (N2 : forall l, SpecTensor.norm2 (map B2R l) = SpecDbl.norm2 l) by (induction l as [|x l IH]; [reflexivity|cbn; unfold SpecTensor.norm2, SpecDbl.norm2 in IH; rewrite IH; reflexivity]).
        unfold dunit, unit4. rewrite N2. destruct QQ as [E|E]; rewrite E; [left; reflexivity|right].
        rewrite (proj1 (opp_list qu)). rewrite !map_map. apply map_ext. intros x. rewrite B2R_Bopp. unfold Rdiv. ring. }
      destruct (unit_ac qu L4' QUF QUN) as (u0 & u1 & u2 & u3 & U1 & UL & UA). rewrite UL in DU.
      assert (NU : SpecTensor.norm2 [u0; u1; u2; u3] = 1) by (cbn; lra).
      assert (EW : W = rotq [u0; u1; u2; u3]).
      { apply rotates_rotq; [reflexivity|]. apply rotates_sign; [reflexivity|]. destruct DU as [E|E]; rewrite E in HW; [left|right]; exact HW. }
      pose proof (srot_ac L qu u0 u1 u2 u3 U1 (UA 0%nat ltac:(lia)) (UA 1%nat ltac:(lia)) (UA 2%nat ltac:(lia)) (UA 3%nat ltac:(lia)) (elastNEtoC p e) _ Av HAv k Hk) as FIN.
      set (LW := law5 c (rpar pars) (B2R (get cV 1)) (Rpower (B2R (get cV 1)) (/ 3)) _ (fun k => B2R (get e k))) in *.
      assert (ES : [nth 0 (vec5 LW) 0; nth 1 (vec5 LW) 0; nth 2 (vec5 LW) 0; nth 3 (vec5 LW) 0; nth 4 (vec5 LW) 0] = vec5 LW) by reflexivity.
      cbv beta in FIN. rewrite ES in FIN. rewrite law_turn in FIN by (assumption || reflexivity || apply law5_sym).
      assert (EL : LW = dlatStress c pars b i).
      { unfold LW, law5, dlatStress, dlatStrain, rin, rout. cbn [map]. cbv zeta beta. rewrite <- IE, <- (IS 6%nat), <- (IV 1%nat), <- (IV 3%nat) by lia.
        rewrite !XH by lia. reflexivity. }
      assert (EM : Av 0%nat + Av 1%nat + Av 2%nat + Av 3%nat + Av 4%nat <= dstress_mag c pars b i).
      { apply Rle_trans with (1 := SAv). right. unfold dstress_mag, rin, rout. cbv zeta. rewrite <- IE, <- (IS 6%nat), <- (IV 1%nat), <- (IV 3%nat) by lia. rewrite !XH by lia. reflexivity. }
      rewrite EL, <- EW in FIN. unfold rout. rewrite <- XS, GS by lia. destruct FIN as (_ & FIN & _). unfold within12. apply Rle_trans with (1 := FIN).
      pose proof (fun j Hj => ac_A _ _ _ _ _ _ (HAv j Hj)) as NA. pose proof (NA 0%nat ltac:(lia)). pose proof (NA 1%nat ltac:(lia)). pose proof (NA 2%nat ltac:(lia)). pose proof (NA 3%nat ltac:(lia)). pose proof (NA 4%nat ltac:(lia)).
      set (sa := Av 0%nat + Av 1%nat + Av 2%nat + Av 3%nat + Av 4%nat) in *. assert (PS : 0 <= sa) by (unfold sa; lra). apply Rplus_le_compat.
      - apply Rle_trans with (/ 10 ^ 12 * sa); [|apply Rmult_le_compat_l; [left; apply Rinv_0_lt_compat; apply pow_lt; lra|exact EM]].
        rewrite <- Rmult_assoc. apply Rmult_le_compat_r; [exact PS|]. unfold uu. cbn [pow]. lra.
      - apply Rle_trans with (bpow radix2 (-133)); [now apply bp_le|]. change (bpow radix2 (-133)) with (/ IZR (2 ^ 133)). apply Rinv_le_contravar; [apply pow_lt; lra|].
        rewrite (pow_IZR 10 40). apply IZR_le. vm_compute. discriminate.
    Qed.
  End C.
End L.
