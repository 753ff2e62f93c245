(** Doubles: error bounds of energy, pressure, temperature and bulk modulus of a call. *)
From Coq Require Import List ZArith Bool Lia PeanoNat Reals Lra.
From Flocq Require Import Core IEEE754.BinarySingleNaN.
From Verif Require Import Num Arr NumR Util SlipGeom Eos Hard Elast Evptn MatModel Cases Const SpecConst P_Const Prop_Const
  P_Sngl P_Batch P_Batch2 P_Batch3 P_Api P_Builtin SpecTensor SpecApi P_Gen NumD P_Dbl P_Dbl2 P_Dbl3 P_Dbl4 P_Dbl5 P_Dbl7 P_Dbl8 P_Dbl9 P_Dbl10 SpecDbl SpecDblFin SpecDblAcc
  P_Dbl13 P_Dbl14 P_Dbl15 P_Dbl16 P_Dbl17 P_Dbl19 P_Dbl20.
Import ListNotations.
Local Open Scope R_scope.

Lemma ac_fin x X A m k z X' A' m' k' z' : ac x X A m k z -> X = X' -> A = A' -> (0 <= m)%Z -> (m <= m')%Z -> (k <= k')%Z -> (z <= z')%Z -> ac x X' A' m' k' z'.
Proof.
  intros H <- <- M0 HM HK HZ. eapply ac_weak; [exact H|exact M0|exact HM|lra| |exact HZ]. destruct H as (_ & _ & _ & H). apply Rle_trans with (1 := H). now apply bp_le.
Qed.
Lemma ac_Z z : (0 < z <= 8)%Z -> ac (Z2D z) (IZR z) (IZR z) 0 3 (-1075).
Proof.
  intros H. destruct (Z2D_ok z ltac:(lia)) as [F V]. pose proof (ac_in _ _ (mag_Z2D z ltac:(lia))) as A. rewrite V in A. rewrite Rabs_pos_eq in A; [exact A|]. apply IZR_le. lia.
Qed.
Lemma ac_lit m p k : (0 < m)%Z -> (m <= 2 * 10 ^ Z.pos p)%Z -> (1 <= k <= 1000)%Z -> ac (R2D (Rlit m (Zneg p))) (Rlit m (Zneg p)) (Rlit m (Zneg p)) 1 k (-1075).
Proof.
  intros M0 M1 K. rewrite rlit_neg. assert (P : 0 < IZR (10 ^ Z.pos p)) by (apply IZR_lt; apply Z.pow_pos_nonneg; lia).
  apply IZR_lt in M0. apply IZR_le in M1. rewrite mult_IZR in M1. set (d := IZR (10 ^ Z.pos p)) in *. clearbody d.
  assert (X0 : 0 < IZR m / d) by now apply Rdiv_lt_0_compat.
  assert (X2 : IZR m / d <= 2). { apply Rmult_le_reg_r with d; [exact P|]. unfold Rdiv. rewrite Rmult_assoc, Rinv_l by lra. lra. }
  set (x := IZR m / d) in *. clearbody x. assert (B2 : 2 <= bpow radix2 k) by (apply (bp_le 1 k); lia).
  destruct (R2D_ok x) as [F V]. { rewrite Rabs_pos_eq by lra. pose proof big_10. lra. }
  split; [exact F|]. rewrite V. pose proof (rnd_err x) as E. rewrite (Rabs_pos_eq x) in E by lra. split; [|split; [rewrite Rabs_pos_eq; lra|lra]]. unfold eta in E. lra.
Qed.
Lemma ac_third z : (0 < z <= 4)%Z -> ac (Bdiv mode_NE (Z2D z) (Z2D 3)) (IZR z / 3) (IZR z / 3) 1 1 (-1075).
Proof.
  intros H. destruct (Z2D_ok z ltac:(lia)) as [F1 V1], (Z2D_ok 3 ltac:(lia)) as [F3 V3]. destruct H as [H0 H4]. apply IZR_lt in H0. apply IZR_le in H4.
  destruct (div_ok (Z2D z) (Z2D 3) F1) as [F V]; [rewrite V3; lra|rewrite V1, V3, Rabs_pos_eq by lra; pose proof big_10; lra|].
  split; [exact F|]. rewrite V, V1, V3. change (bpow radix2 1) with 2. pose proof (rnd_err (IZR z / 3)) as E. rewrite (Rabs_pos_eq (IZR z / 3)) in E by lra. unfold eta in E.
  split; [lra|]. rewrite Rabs_pos_eq; lra.
Qed.
Lemma ac_const l x : close l x -> 0.1 <= x <= 4 -> ac (dconst l) x x 2 2 (-1075).
Proof.
  intros HC Hx. destruct (nb_const _ _ HC Hx) as (F & E & _). split; [exact F|]. change (bpow radix2 2) with 4. pose proof (bpow_gt_0 radix2 (-1075)).
  rewrite (Rabs_pos_eq x) by lra. lra.
Qed.
Lemma within_ac x X A m k z : ac x X A m k z -> okm m -> (m <= 900)%Z -> (z <= -133)%Z -> within (B2R x) X A.
Proof.
  intros H M HM HZ. pose proof (ac_A _ _ _ _ _ _ H) as PA. destruct H as (_ & H & _). unfold within. apply Rle_trans with (1 := H). apply Rplus_le_compat.
  - apply Rmult_le_compat_r; [exact PA|]. apply IZR_le in HM. apply Rle_trans with (uu * 900); [apply Rmult_le_compat_l; [unfold uu; lra|lra]|]. unfold uu. cbn [pow]. lra.
  - apply Rle_trans with (bpow radix2 (-133)); [now apply bp_le|]. change (bpow radix2 (-133)) with (/ IZR (2 ^ 133)). apply Rinv_le_contravar; [apply pow_lt; lra|].
    rewrite (pow_IZR 10 40). apply IZR_le. vm_compute. discriminate.
Qed.
Lemma within_mono x r m m' : within x r m -> m <= m' -> within x r m'.
Proof. unfold within. intros H HM. apply Rle_trans with (1 := H). apply Rplus_le_compat_r. apply Rmult_le_compat_l; [|exact HM]. left. apply Rinv_0_lt_compat. apply pow_lt. lra. Qed.
Lemma power_ext s s' d d' : (forall k, (k < 6)%nat -> s k = s' k) -> (forall k, (k < 6)%nat -> d k = d' k) -> power s d = power s' d'.
Proof.
  intros HS HD. unfold power, inner, sym6. cbn [a00 a01 a02 a10 a11 a12 a20 a21 a22].
  rewrite !HS, !HD by lia. reflexivity.
Qed.

Section L.
  Variable L : Libm.
  Let DN : Num dbl := DNum L.
  #[local] Existing Instance DN.
  Hypothesis TR : trig_ok L.
  Hypothesis LM : libm_ok L.

  (** the bulk modulus computed from the parameters *)
  Lemma bulk_ac hs c pars : builtin hs c -> moderate_params c pars ->
    ac (el_K_bulkMod (gel_of c pars)) (bulk_of c (rpar pars)) (bulk_of c (mag_of (rpar pars))) 20 115 (-900).
  Proof.
    intros HB (_ & ME & _). unfold gel_of, bulk_of, is_hex. destruct (el_kind L hs c HB) as [[E1 E2]|[E1 E2]].
    - assert (S0 : c_sgNP c = 0%nat).
      { destruct HB as [E | [E | [E | [E | [E | [E | E]]]]]]; rewrite E in *; try reflexivity. discriminate E2. }
      rewrite E1, E2, S0 in *. cbn [Nat.eqb Nat.add].
      pose proof (ac_in _ _ (moderate_mag _ (ME 0%nat ltac:(lia)))) as A0. pose proof (ac_in _ _ (moderate_mag _ (ME 1%nat ltac:(lia)))) as A1. cbn [Nat.add] in A0, A1.
      unfold cubic_setParams. cbn [el_K_bulkMod]. rewrite !get_sub by lia. cbn [Nat.add]. change (get pars 3) with (dpar pars 3). change (get pars 4) with (dpar pars 4).
      unfold onethird, one, two, three. cbn [nadd nmul ndiv nZ DN DNum]. pose proof (ac_third 1 ltac:(lia)) as T1. pose proof (ac_Z 2 ltac:(lia)) as Z2. clear ME.
      unfold rpar, mag_of. set (a := dpar pars 3) in *. set (b := dpar pars 4) in *. set (th := Bdiv mode_NE (Z2D 1) (Z2D 3)) in *. clearbody a b th.
      eapply ac_fin; [acc|lra|unfold mag_of, rpar; lra|cbn; lia|cbn; lia|cbn; lia|cbn; lia].
    - assert (S1 : c_sgNP c = 1%nat).
      { destruct HB as [E | [E | [E | [E | [E | [E | E]]]]]]; rewrite E in *; try discriminate E2; reflexivity. }
      rewrite E1, E2, S1 in *. cbn [Nat.eqb Nat.add].
      pose proof (ac_in _ _ (moderate_mag _ (ME 0%nat ltac:(lia)))) as A0. pose proof (ac_in _ _ (moderate_mag _ (ME 1%nat ltac:(lia)))) as A1.
      pose proof (ac_in _ _ (moderate_mag _ (ME 2%nat ltac:(lia)))) as A2. pose proof (ac_in _ _ (moderate_mag _ (ME 3%nat ltac:(lia)))) as A3. cbn [Nat.add] in A0, A1, A2, A3.
      unfold hexag_setParams. cbn [el_K_bulkMod]. rewrite !get_sub by lia. cbn [Nat.add].
      change (get pars 4) with (dpar pars 4). change (get pars 5) with (dpar pars 5). change (get pars 6) with (dpar pars 6). change (get pars 7) with (dpar pars 7).
      unfold onethird, twothird, fourthirds, one, two, three. cbn [nadd nmul ndiv nZ DN DNum].
      pose proof (ac_third 1 ltac:(lia)) as T1. pose proof (ac_third 2 ltac:(lia)) as T2. pose proof (ac_third 4 ltac:(lia)) as T4. clear ME.
      unfold rpar, mag_of. set (a := dpar pars 4) in *. set (b := dpar pars 5) in *. set (d := dpar pars 6) in *. set (e := dpar pars 7) in *.
      set (th := Bdiv mode_NE (Z2D 1) (Z2D 3)) in *. set (th2 := Bdiv mode_NE (Z2D 2) (Z2D 3)) in *. set (th4 := Bdiv mode_NE (Z2D 4) (Z2D 3)) in *. clearbody a b d e th th2 th4.
      eapply ac_fin; [acc|unfold rpar; lra|unfold mag_of, rpar; lra|cbn; lia|cbn; lia|cbn; lia|cbn; lia].
  Qed.
  Lemma iso_false hs (c : MClass dbl) : builtin hs c -> c_iso c = false.
  Proof. intros HB. destruct HB as [E | [E | [E | [E | [E | [E | E]]]]]]; rewrite E; reflexivity. Qed.

  (** 1/v *)
  Lemma inv_ac v : fin v -> bpow radix2 (- (10)) <= B2R v -> ac (Bdiv mode_NE (Z2D 1) v) (/ B2R v) (/ B2R v) 3 10 (-1075).
  Proof. intros F B. apply (ac_inv v (B2R v) 0); [exact F|exact B| |unfold okm; lia|unfold okk'; lia|lia]. rewrite Rminus_diag_eq, Rabs_R0 by reflexivity. pose proof (bpow_gt_0 radix2 (- (10))). unfold uu. lra. Qed.

  (** energy after the volume work, pressure, bulk modulus *)
  Lemma eos_ac K Ka eos v dv e p : eos_iso eos = false -> ac (eos_bulk eos) K Ka 20 115 (-900) -> mag (eos_gamma eos) 100 ->
    fin v -> bpow radix2 (- (10)) <= B2R v <= bpow radix2 10 -> mag dv 100 -> mag e 100 -> mag p 100 ->
    let u := updateSimple eos v dv e p in let g := B2R (eos_gamma eos) in
    ac (u_eNew u) (B2R e - B2R dv * B2R p) (Rabs (B2R e) + Rabs (B2R dv) * Rabs (B2R p)) 5 205 (-950) /\
    ac (u_press u) (K * (/ B2R v - 1) + g * (B2R e - B2R dv * B2R p))
      (Ka * (/ B2R v + 1) + Rabs g * (Rabs (B2R e) + Rabs (B2R dv) * Rabs (B2R p))) 32 310 (-750) /\
    ac (u_bulkNew u) (Rmax (/ 100000 * K) (K / B2R v + g * B2R p * B2R v)) (/ 100000 * Ka + (Ka / B2R v + Rabs g * Rabs (B2R p) * B2R v)) 32 310 (-750).
  Proof.
    intros EI BK MG FV BV MD ME MP. cbv zeta. unfold updateSimple, evalPTDiff, getBulkRef. cbv zeta. rewrite EI. cbn [u_eNew u_press u_bulkNew ptd_p ptd_bulk ptd_dpde].
    pose proof (inv_ac v FV (proj1 BV)) as IV. pose proof (bpow_gt_0 radix2 (- (10))) as P10.
    assert (VM : mag v 10) by (split; [exact FV|]; rewrite Rabs_pos_eq; lra).
    pose proof (ac_in _ _ VM) as AV'. rewrite (Rabs_pos_eq (B2R v)) in AV' by lra.
    pose proof (ac_in _ _ MD) as AD'. pose proof (ac_in _ _ ME) as AE'. pose proof (ac_in _ _ MP) as AP'. pose proof (ac_in _ _ MG) as AG'. pose proof (ac_Z 1 ltac:(lia)) as A1.
    assert (LS : ac (R2D (Rlit 1 (-5))) (/ 100000) (/ 100000) 1 1 (-1075)).
    { eapply ac_fin; [apply (ac_lit 1 5 1); lia| | |lia..]; rewrite rlit_neg; change (10 ^ 5)%Z with 100000%Z; lra. }
    assert (EN : ac (e - dv * p)%num (B2R e - B2R dv * B2R p) (Rabs (B2R e) + Rabs (B2R dv) * Rabs (B2R p)) 5 205 (-950)).
    { cbn [nsub nmul DN DNum]. eapply ac_fin; [acc|reflexivity|reflexivity|cbn; lia..]. }
    split; [exact EN|]. set (en := (e - dv * p)%num) in *. clearbody en. unfold one. cbn [nadd nsub nmul ndiv nZ nlit nmax DN DNum].
    set (iv := Bdiv mode_NE (Z2D 1) v) in *. set (lf := R2D (Rlit 1 (-5))) in *. set (o := Z2D 1) in *. clearbody iv lf o.
    set (bk := eos_bulk eos) in *. set (gm := eos_gamma eos) in *. clearbody bk gm.
    split; (eapply ac_fin; [acc| | |cbn; lia..]); unfold Rdiv; ring.
  Qed.

  Lemma inv_any x l : fin x -> bpow radix2 (- l) <= Rabs (B2R x) -> okk' l -> ac (Bdiv mode_NE (Z2D 1) x) (/ B2R x) (/ Rabs (B2R x)) 1 l (-1075).
  Proof.
    intros F B K. pose proof (bpow_gt_0 radix2 (- l)) as P. assert (NZ : B2R x <> 0) by (intros E; rewrite E, Rabs_R0 in B; lra).
    destruct (Z2D_ok 1 ltac:(lia)) as [F1 V1].
    assert (IL : / Rabs (B2R x) <= bpow radix2 l). { replace l with (- - l)%Z by lia. rewrite (bpow_opp radix2 (- l)). now apply Rinv_le. }
    assert (AI : Rabs (/ B2R x) = / Rabs (B2R x)) by apply Rabs_inv.
    assert (Q : B2R (Z2D 1) / B2R x = / B2R x) by (rewrite V1; unfold Rdiv; ring).
    destruct (div_ok (Z2D 1) x F1 NZ) as [FD VD]. { rewrite Q, AI. pose proof (bp_big l K). pose proof (bpow_gt_0 radix2 l). lra. }
    split; [exact FD|]. rewrite VD, Q. pose proof (rnd_err (/ B2R x)) as E. rewrite AI in E. unfold eta in E. split; [lra|]. split; [rewrite AI; lra|exact IL].
  Qed.
  Lemma temp_ac eos cv ec0 e v : eos_iso eos = false -> eos_dtde eos = Bdiv mode_NE (Z2D 1) cv -> eos_tK0 eos = Bmult mode_NE (Bopp ec0) (Bdiv mode_NE (Z2D 1) cv) ->
    fin cv -> bpow radix2 (- (100)) <= Rabs (B2R cv) -> mag ec0 100 -> mag e 100 ->
    ac (snd (evalPT eos v e)) ((B2R e - B2R ec0) / B2R cv) ((Rabs (B2R e) + Rabs (B2R ec0)) / Rabs (B2R cv)) 10 300 (-800).
  Proof.
    intros EI ED ET FC BC M0 ME. unfold evalPT. cbv zeta. rewrite EI, ED, ET. cbn [snd nadd nmul DN DNum].
    pose proof (inv_any cv 100 FC BC ltac:(unfold okk'; lia)) as IC. pose proof (ac_in _ _ M0) as A0. pose proof (ac_in _ _ ME) as AE'.
    set (ic := Bdiv mode_NE (Z2D 1) cv) in *. clearbody ic. eapply ac_fin; [acc| | |cbn; lia..]; unfold Rdiv; ring.
  Qed.

  (** from the pressure of the equation of state to the stored one: through exp (3 log (v^(1/3))) *)
  Lemma stored_press hs c pars (p : Prob dbl) e q v P Pa : builtin hs c -> moderate_params c pars -> pb_el p = gel_of c pars ->
    fin v -> bpow radix2 (- (10)) <= B2R v <= bpow radix2 10 -> pb_a_V p = npow v onethird -> pb_a_V_ri p = (nZ 1 / npow v onethird)%num -> pb_detV_ri p = (nZ 1 / v)%num ->
    ac (pb_p_EOS p) P Pa 32 310 (-750) -> (1 < length e)%nat -> mag (get e 1) 335 ->
    ac (get (stress_out q (elastNEtoC p e)) 6) (P - sqrt 6 / 9 * coupling_of c (rpar pars) * B2R (get e 1) / Rpower (B2R v) (4 / 3))
      (Pa + sqrt 6 / 9 * coupling_mag c (rpar pars) * Rabs (B2R (get e 1)) / Rpower (B2R v) (4 / 3)) 600 700 (-300).
  Proof.
    intros HB (_ & ME & _) EL FV BV EA EAR EDR HP HLe HE. pose proof (bpow_gt_0 radix2 (- (10))) as P10.
    assert (PV : 0 < B2R v) by lra.
    destruct (vol_back L LM v FV BV) as [FJ EJ]. destruct (cube_root L LM v FV BV) as [FA EAc]. pose proof (c_lo v BV) as [CL CH].
    assert (AJ : ac (lm_exp L (Bmult mode_NE (dconst lit_SQRT3) (Bmult mode_NE (dconst lit_SQRT3) (lm_log L (lm_pow L v onethird))))) (B2R v) (B2R v) 430 10 (-1075)).
    { split; [exact FJ|]. pose proof (bpow_gt_0 radix2 (-1075)). split; [apply Rle_trans with (1 := EJ); lra|]. split; [rewrite Rabs_pos_eq; lra|lra]. }
    pose proof (ac_inv _ _ 18 (-1075) 10 FA CL EAc ltac:(unfold okm; lia) ltac:(unfold okk'; lia) ltac:(lia)) as AI. clear FJ EJ EAc.
    pose proof (inv_ac v FV (proj1 BV)) as IV.
    destruct C37_roots as (C2 & C3 & _ & _ & _ & _ & C3i & _).
    pose proof (sqrt_sqrt 3 ltac:(lra)) as S3. pose proof (sqrt_lt_R0 3 ltac:(lra)) as P3. assert (B3 : 1.7 <= sqrt 3 <= 2) by nra.
    pose proof (sqrt_sqrt 2 ltac:(lra)) as S2. pose proof (sqrt_lt_R0 2 ltac:(lra)) as P2. assert (B2 : 1.4 <= sqrt 2 <= 2) by nra.
    assert (B3i : 0.1 <= 1 / sqrt 3 <= 4). { split; [apply Rmult_le_reg_r with (sqrt 3); [lra|]; replace (1 / sqrt 3 * sqrt 3) with 1 by (field; lra); lra | apply Rmult_le_reg_r with (sqrt 3); [lra|]; replace (1 / sqrt 3 * sqrt 3) with 1 by (field; lra); lra]. }
    pose proof (ac_const _ _ C2 ltac:(lra)) as A2. pose proof (ac_const _ _ C3 ltac:(lra)) as A3. pose proof (ac_const _ _ C3i B3i) as A3i.
    pose proof (ac_in _ _ HE) as AE'.
    assert (R6 : sqrt 6 = sqrt 2 * sqrt 3). { rewrite <- sqrt_mult by lra. f_equal; lra. }
    assert (R43 : Rpower (B2R v) (4 / 3) = B2R v * Rpower (B2R v) (/ 3)).
    { rewrite <- (Rpower_1 (B2R v) PV) at 2. rewrite <- Rpower_plus. f_equal. lra. }
    set (cr := Rpower (B2R v) (/ 3)) in *. assert (PC : 0 < cr) by apply exp_pos. 
    assert (E6 : get (stress_out q (elastNEtoC p e)) 6 = Bmult mode_NE (Bopp (dconst lit_SQRT3I)) (Bmult mode_NE (pb_detV_ri p) (get (elastNEtoT p e) 5))).
    { reflexivity. }
    rewrite E6, EDR. unfold elastNEtoT, el_eval. cbv zeta. unfold iSvecS, iTvecHex.
    assert (EE5 : get (vecsVxa 5 (pb_a_V_ri p) e ++ [(sqr3 * nlog (pb_a_V p))%num]) 5 = Bmult mode_NE (dconst lit_SQRT3) (lm_log L (lm_pow L v onethird))) by (rewrite EA; reflexivity).
    assert (EE1 : get (vecsVxa 5 (pb_a_V_ri p) e ++ [(sqr3 * nlog (pb_a_V p))%num]) 1 = Bmult mode_NE (Bdiv mode_NE (Z2D 1) (lm_pow L v onethird)) (get e 1)) by (rewrite EAR; reflexivity).
    set (Ee := vecsVxa 5 (pb_a_V_ri p) e ++ [(sqr3 * nlog (pb_a_V p))%num]) in *. clearbody Ee. rewrite EE5, EE1. clear EE5 EE1 E6.
    rewrite EL. unfold vecsVAdiagB, tab. cbn [map seq app upd get nth]. cbn [nadd nsub nmul nopp nexp sqr3 nZ ndiv DN DNum].
    set (J := lm_exp L _) in *. set (ia := Bdiv mode_NE (Z2D 1) (lm_pow L v onethird)) in *. set (iv := Bdiv mode_NE (Z2D 1) v) in *. clearbody J ia iv.
    set (pe := pb_p_EOS p) in *. clearbody pe. set (c3 := dconst lit_SQRT3) in *. set (c3i := dconst lit_SQRT3I) in *.
    clear C2 C3 C3i EA EAR EDR CL CH FA LM TR.
    assert (N3 : sqrt 3 <> 0) by (apply Rgt_not_eq; lra). assert (NV : B2R v <> 0) by (apply Rgt_not_eq; lra). assert (NC : cr <> 0) by (apply Rgt_not_eq; lra).
    assert (R69 : sqrt 6 / 9 = sqrt 2 / (3 * sqrt 3)). { rewrite R6. replace 9 with (3 * (sqrt 3 * sqrt 3)) by lra. field. exact N3. }
    unfold gel_of, coupling_of, coupling_mag, is_hex. destruct (el_kind L hs c HB) as [[E1 E2]|[E1 E2]].
    - rewrite E1, E2. cbn [cubic_setParams el_hex Nat.eqb nth get]. clearbody c3 c3i.
      eapply ac_fin; [acc| | |cbn; lia..]; rewrite R43; field; auto.
    - assert (S1 : c_sgNP c = 1%nat).
      { destruct HB as [E | [E | [E | [E | [E | [E | E]]]]]]; rewrite E in *; try discriminate E2; reflexivity. }
      rewrite E1, E2, S1 in *. cbn [Nat.eqb Nat.add].
      pose proof (ac_in _ _ (moderate_mag _ (ME 0%nat ltac:(lia)))) as D0. pose proof (ac_in _ _ (moderate_mag _ (ME 1%nat ltac:(lia)))) as D1.
      pose proof (ac_in _ _ (moderate_mag _ (ME 2%nat ltac:(lia)))) as D2. pose proof (ac_in _ _ (moderate_mag _ (ME 3%nat ltac:(lia)))) as D3. cbn [Nat.add] in D0, D1, D2, D3. clear ME.
      unfold hexag_setParams. cbn [el_hex el_K_sdax3 upd nth get]. rewrite !get_sub by lia. cbn [Nat.add].
      change (get pars 4) with (dpar pars 4). change (get pars 5) with (dpar pars 5). change (get pars 6) with (dpar pars 6). change (get pars 7) with (dpar pars 7).
      unfold onethird, one, three. cbn [nadd nsub nmul nopp ndiv nZ sqr2 DN DNum]. pose proof (ac_third 1 ltac:(lia)) as T1. unfold rpar.
      set (a := dpar pars 4) in *. set (b := dpar pars 5) in *. set (d := dpar pars 6) in *. set (f := dpar pars 7) in *.
      set (th := Bdiv mode_NE (Z2D 1) (Z2D 3)) in *. set (c2 := dconst lit_SQRT2) in *. set (x := get e 1) in *. clearbody a b d f th c2 c3 c3i x.
      eapply ac_fin; [acc| | |cbn; lia..]; rewrite R43, R69; field; auto.
  Qed.

  (** deviatoric stress power *)
  Lemma power_ac s d k : (0 <= k <= 700)%Z -> (forall i, (i < 6)%nat -> mag (get s i) k) -> (forall i, (i < 6)%nat -> mag (get d i) 100) ->
    ac (vecsInnerSvecDev s d) (power (fun i => B2R (get s i)) (fun i => B2R (get d i))) (power (fun i => Rabs (B2R (get s i))) (fun i => Rabs (B2R (get d i)))) 20 (k + 120) (k - 900).
  Proof.
    intros K HS HD. unfold vecsInnerSvecDev, two. cbn [nadd nmul nZ DN DNum]. pose proof (ac_Z 2 ltac:(lia)) as Z2.
    assert (MM : forall i, (i < 6)%nat -> ac (Bmult mode_NE (get s i) (get d i)) (B2R (get s i) * B2R (get d i)) (Rabs (B2R (get s i)) * Rabs (B2R (get d i))) 3 (k + 100) (k - 960)).
    { intros i Hi. pose proof (ac_in _ _ (HS i Hi)) as A. pose proof (ac_in _ _ (HD i Hi)) as B.
      eapply ac_fin; [eapply ac_mul; [exact A|exact B|unfold okm, okt, okk'; lia..]|reflexivity|reflexivity|lia..]. }
    assert (AD : forall x y X Y A B m a z, ac x X A m (k + a) (k - z) -> ac y Y B m (k + a) (k - z) -> okm m -> (0 <= a <= 120)%Z -> (900 <= z <= 1000)%Z ->
      ac (Bplus mode_NE x y) (X + Y) (A + B) (m + 2) (k + (a + 1)) (k - (z - 3))).
    { intros x y X Y A B m a z H1 H2 Hm Ha Hz. eapply ac_fin; [eapply ac_add; [exact H1|exact H2|unfold okm, okt, okk' in *; lia..]|reflexivity|reflexivity|unfold okm in *; lia..]. }
    assert (WK : forall x X A m a z m' a' z', ac x X A m (k + a) (k - z) -> (0 <= m <= m')%Z -> (a <= a')%Z -> (z' <= z)%Z -> ac x X A m' (k + a') (k - z')).
    { intros. eapply ac_fin; [eassumption|reflexivity|reflexivity|lia..]. }
    pose proof (MM 0%nat ltac:(lia)) as M0. pose proof (MM 1%nat ltac:(lia)) as M1. pose proof (MM 2%nat ltac:(lia)) as M2.
    pose proof (MM 3%nat ltac:(lia)) as M3. pose proof (MM 4%nat ltac:(lia)) as M4. pose proof (MM 5%nat ltac:(lia)) as M5. clear MM.
    pose proof (AD _ _ _ _ _ _ _ _ _ M0 M1 ltac:(unfold okm; lia) ltac:(lia) ltac:(lia)) as S01.
    pose proof (AD _ _ _ _ _ _ _ _ _ S01 (WK _ _ _ _ _ _ 5%Z 101%Z 957%Z M2 ltac:(lia) ltac:(lia) ltac:(lia)) ltac:(unfold okm; lia) ltac:(lia) ltac:(lia)) as S012.
    pose proof (AD _ _ _ _ _ _ _ _ _ M3 M4 ltac:(unfold okm; lia) ltac:(lia) ltac:(lia)) as S34.
    pose proof (AD _ _ _ _ _ _ _ _ _ S34 (WK _ _ _ _ _ _ 5%Z 101%Z 957%Z M5 ltac:(lia) ltac:(lia) ltac:(lia)) ltac:(unfold okm; lia) ltac:(lia) ltac:(lia)) as S345.
    assert (T : ac (Bmult mode_NE (Z2D 2) (Bplus mode_NE (Bplus mode_NE (Bmult mode_NE (get s 3) (get d 3)) (Bmult mode_NE (get s 4) (get d 4))) (Bmult mode_NE (get s 5) (get d 5))))
      (2 * (B2R (get s 3) * B2R (get d 3) + B2R (get s 4) * B2R (get d 4) + B2R (get s 5) * B2R (get d 5)))
      (2 * (Rabs (B2R (get s 3)) * Rabs (B2R (get d 3)) + Rabs (B2R (get s 4)) * Rabs (B2R (get d 4)) + Rabs (B2R (get s 5)) * Rabs (B2R (get d 5)))) 12 (k + 110) (k - 930)).
    { eapply ac_fin; [eapply ac_mul; [exact Z2|exact S345|unfold okm, okt, okk'; lia..]|reflexivity|reflexivity|lia..]. }
    pose proof (AD _ _ _ _ _ _ _ _ _ (WK _ _ _ _ _ _ 12%Z 110%Z 930%Z S012 ltac:(lia) ltac:(lia) ltac:(lia)) T ltac:(unfold okm; lia) ltac:(lia) ltac:(lia)) as R.
    eapply ac_fin; [exact R| | |lia..]; unfold power, inner, sym6; cbn [a00 a01 a02 a10 a11 a12 a20 a21 a22]; ring.
  Qed.

  Section C.
    Variables (hs : Solver dbl) (c : MClass dbl) (b : DCall) (i : nat) (pars : list dbl).
    Hypothesis G : dgood L hs c b.
    Hypothesis Hi : (i < d_n b)%nat.
    Hypothesis HU : in_use c (d_s b) pars.
    Hypothesis MP : moderate_params c pars.
    Hypothesis MI : moderate_point b i.
    Hypothesis HA : moderate_answers (d_solver b).

    Lemma call_acc :
      within (rout b AE i 0) (rin b AE i 0 + dwork b i) (Rabs (rin b AE i 0) + dwork_mag b i) /\
      within (rout b AS i 6) (dpress c pars b i) (dpress_mag c pars b i) /\
      within (rout b AT i 0) (dtemp c pars (rin b AE i 0)) (dtemp_mag c pars (rin b AE i 0)) /\
      within (rout b AB i 0) (dbulk c pars b i) (dbulk_mag c pars b i).
    Proof.
      destruct (dcall_mag L TR LM hs c b i pars G Hi HU MP MI HA) as (OS & _ & _ & _ & _ & OH & _).
      destruct (din_use_eos L hs c (d_s b) pars (proj1 G) HU) as (bulk & sg & kin & tol' & EB & HM').
      destruct (dres L hs c b i G Hi) as (mat & tol & h_u & p & r & v & nf & gm & HM & _ & HP & HR & Rs).
      rewrite HM' in HM. apply (f_equal (fun o => match o with Some (x, _) => x | None => mat end)) in HM. cbn beta iota in HM.
      assert (EQ : bulk = el_K_bulkMod (gel_of c pars)). { unfold el_getBulkMod in EB. destruct nleb; congruence. }
      pose proof (bulk_ac hs c pars (proj1 G) MP) as BK. rewrite <- EQ in BK.
      assert (EO : m_eos mat = eos_setParams (c_iso c) ([get pars 0; bulk; get pars 1] ++ sub pars (3 + c_sgNP c + c_elNP c + c_kinNP c) 2)) by (rewrite <- HM; reflexivity).
      assert (EE : m_el mat = gel_of c pars) by (rewrite <- HM; reflexivity). clear HM HM' EB EQ.
      set (ptn := pt_of c (d_s b) (d_mtan b) (d_m b) i) in *. set (pto := pt_of c (d_s b) (d_mtan b) (d_m1 b) i) in *.
      set (cD := cell_of c (d_s b) (d_mtan b) (d_m b) AD i) in *. set (cW := cell_of c (d_s b) (d_mtan b) (d_m b) AW i) in *. set (cV := cell_of c (d_s b) (d_mtan b) (d_m b) AV i) in *.
      pose proof (g_stress _ _ _ _ _ _ _ _ _ _ _ _ _ _ Rs) as GS.
      pose proof (g_eInt _ _ _ _ _ _ _ _ _ _ _ _ _ _ Rs) as GE. pose proof (g_tkelv _ _ _ _ _ _ _ _ _ _ _ _ _ _ Rs) as GT.
      pose proof (g_sdd _ _ _ _ _ _ _ _ _ _ _ _ _ _ Rs) as GB. pose proof (g_E _ _ _ _ _ _ _ _ _ _ _ _ _ _ Rs) as GH. clear Rs.
      pose proof (fun a k => dv_in L hs c b i G Hi a k) as VI. pose proof (fun a k => dv_out L hs c b i G Hi a k) as VO. cbv beta in VI, VO.
      assert (ID : forall k, (k < 6)%nat -> get cD k = dval (d_s b) (d_m b) AD i k) by (intros k Hk; apply (VI AD); cbn; lia).
      assert (IV : forall k, (k < 4)%nat -> get cV k = dval (d_s b) (d_m b) AV i k) by (intros k Hk; apply (VI AV); cbn; lia).
      assert (IE : get (pt_eInt ptn) 0 = dval (d_s b) (d_m b) AE i 0) by (apply (VI AE); cbn; lia).
      assert (IS : forall k, (k < 7)%nat -> get (pt_stress ptn) k = dval (d_s b) (d_m b) AS i k) by (intros k Hk; apply (VI AS); cbn; lia).
      assert (XE : get (pt_eInt pto) 0 = dval (d_s b) (d_m1 b) AE i 0) by (apply (VO AE); cbn; lia).
      assert (XS : forall k, (k < 7)%nat -> get (pt_stress pto) k = dval (d_s b) (d_m1 b) AS i k) by (intros k Hk; apply (VO AS); cbn; lia).
      assert (XT : pt_tkelv pto = dval (d_s b) (d_m1 b) AT i 0) by (apply (VO AT 0%nat); cbn; lia).
      assert (XB : get (pt_sdd pto) 0 = dval (d_s b) (d_m1 b) AB i 0) by (apply (VO AB); cbn; lia).
      assert (XH : get (fst (stateFromX p (so_x r))) 1 = dval (d_s b) (d_m1 b) AH i 5).
      { assert (E : get (sub (pt_hist pto) iHistLbE 5) 1 = get (fst (stateFromX p (so_x r))) 1) by (rewrite GH; reflexivity).
        rewrite <- E. rewrite get_sub by lia. apply (dhist_out L hs c b i G Hi). unfold iHistLbE. lia. }
      destruct (mp_v _ _ MI 1%nat ltac:(lia)) as [Fv1 Bv1]. destruct (mp_v _ _ MI 0%nat ltac:(lia)) as [Fv0 Bv0]. apply vol_range in Bv1, Bv0.
      pose proof (moderate_mag _ (mp_dv _ _ MI)) as MD. pose proof (moderate_mag _ (mp_e _ _ MI)) as ME. pose proof (moderate_mag _ (mp_s _ _ MI 6%nat ltac:(lia))) as MS.
      destruct MP as (MC & MEL & MX). pose proof (moderate_mag _ (MX 0%nat ltac:(lia))) as MG. pose proof (moderate_mag _ (MX 1%nat ltac:(lia))) as M0.
      rewrite Nat.add_0_r in MG. rewrite (iso_false hs c (proj1 G)) in EO.
      assert (EOB : eos_bulk (m_eos mat) = bulk) by (rewrite EO; reflexivity).
      assert (EOG : eos_gamma (m_eos mat) = dpar pars (i_gamma c)).
      { rewrite EO. unfold eos_setParams. cbv zeta. cbn [eos_gamma app]. change (get (sub pars (3 + c_sgNP c + c_elNP c + c_kinNP c) 2) 0 = dpar pars (i_gamma c)). rewrite get_sub by lia. rewrite Nat.add_0_r. reflexivity. }
      assert (EOC : get ([get pars 0; bulk; get pars 1] ++ sub pars (3 + c_sgNP c + c_elNP c + c_kinNP c) 2) 4 = dpar pars (i_ec0 c)).
      { cbn [app]. change (get (sub pars (3 + c_sgNP c + c_elNP c + c_kinNP c) 2) 1 = dpar pars (i_ec0 c)). rewrite get_sub by lia. unfold i_ec0, i_gamma. rewrite Nat.add_1_r. reflexivity. }
      assert (EOD : eos_dtde (m_eos mat) = Bdiv mode_NE (Z2D 1) (dpar pars 1)) by (rewrite EO; reflexivity).
      assert (EOT : eos_tK0 (m_eos mat) = Bmult mode_NE (Bopp (dpar pars (i_ec0 c))) (Bdiv mode_NE (Z2D 1) (dpar pars 1))).
      { rewrite <- EOC, EO. reflexivity. }
      assert (EOI : eos_iso (m_eos mat) = false) by (rewrite EO; reflexivity). clear EO EOC.
      change (dpar pars (3 + c_sgNP c + c_elNP c + c_kinNP c)) with (dpar pars (i_gamma c)) in MG. rewrite <- EOG in MG. rewrite <- EOB in BK.
      rewrite <- IV in Fv1, Bv1, Fv0, Bv0, MD by lia. rewrite <- IE in ME. rewrite <- IS in MS by lia.
      destruct (eos_ac _ _ (m_eos mat) (get cV 1) (get cV 3) (get (pt_eInt ptn) 0) (get (pt_stress ptn) 6) EOI BK MG Fv1 Bv1 MD ME MS) as (UE & UP & UB).
      cbv zeta in UE, UP, UB.
      change (updateSimple (m_eos mat) (get cV 1) (get cV 3) (get (pt_eInt ptn) 0) (get (pt_stress ptn) 6)) with (snglUpd mat cV (pt_eInt ptn) (pt_stress ptn)) in UE, UP, UB.
      rewrite EOG in UP, UB. clear MG.
        assert (V0 : mag (get cV 0) 10). { split; [exact Fv0|]. rewrite Rabs_pos_eq; [apply Bv0|]. pose proof (bpow_gt_0 radix2 (- (10))). lra. }
        assert (V1 : mag (get cV 1) 10). { split; [exact Fv1|]. rewrite Rabs_pos_eq; [apply Bv1|]. pose proof (bpow_gt_0 radix2 (- (10))). lra. }
        pose proof (ac_in _ _ V0) as A0. pose proof (ac_in _ _ V1) as A1. pose proof (bpow_gt_0 radix2 (- (10))) as P10.
        match type of A0 with ac _ _ (Rabs ?r) _ _ _ => rewrite (Rabs_pos_eq r) in A0 by lra end.
        match type of A1 with ac _ _ (Rabs ?r) _ _ _ => rewrite (Rabs_pos_eq r) in A1 by lra end. clear V0 V1.
        assert (PE : pb_el p = gel_of c pars) by (rewrite HP; exact EE).
        assert (PP : pb_p_EOS p = u_press (snglUpd mat cV (pt_eInt ptn) (pt_stress ptn))) by (rewrite HP; reflexivity).
        rewrite <- PP in UP.
        assert (PA : pb_a_V p = npow (get cV 1) onethird) by (rewrite HP; reflexivity).
        assert (PR : pb_a_V_ri p = (nZ 1 / npow (get cV 1) onethird)%num) by (rewrite HP; reflexivity).
        assert (PD : pb_detV_ri p = (nZ 1 / get cV 1)%num) by (rewrite HP; reflexivity).
        assert (CB : bpow radix2 (- (100)) <= Rabs (B2R (dpar pars 1))).
        { destruct MC as (_ & MC & _). refine (Rle_trans _ _ _ _ MC). change (bpow radix2 (- (100))) with (/ IZR (2 ^ 100)).
          apply Rinv_le_contravar; [apply pow_lt; lra|]. rewrite (pow_IZR 10 30). apply IZR_le. vm_compute. discriminate. }
        change (3 + c_sgNP c + c_elNP c + c_kinNP c + 1)%nat with (i_gamma c + 1)%nat in M0. rewrite Nat.add_1_r in M0.
        assert (TA : ac (pt_tkelv pto) ((B2R (dval (d_s b) (d_m b) AE i 0) - B2R (dpar pars (i_ec0 c))) / B2R (dpar pars 1)) ((Rabs (B2R (dval (d_s b) (d_m b) AE i 0)) + Rabs (B2R (dpar pars (i_ec0 c)))) / Rabs (B2R (dpar pars 1))) 10 300 (-800)).
        { rewrite GT, <- IE. exact (temp_ac (m_eos mat) (dpar pars 1) (dpar pars (i_ec0 c)) (get (pt_eInt ptn) 0) (get cV 0) EOI EOD EOT (proj1 MC) CB M0 ME). }
        pose proof (OH 1%nat ltac:(lia)) as ME1. cbn [Nat.add] in ME1. rewrite <- XH in ME1.
        assert (SP : ac (get (pt_stress pto) 6) (dpress c pars b i) (dpress_mag c pars b i) 600 700 (-300)).
        { rewrite GS. eapply ac_fin; [exact (stored_press hs c pars p (fst (stateFromX p (so_x r))) (snd (stateFromX p (so_x r))) (get cV 1) _ _ (proj1 G) (conj MC (conj MEL MX)) PE Fv1 Bv1 PA PR PD UP ltac:(cbn; lia) ME1)| | |lia..].
          - unfold dpress, rin, rout. cbv zeta. rewrite <- XH, <- IE, <- (IS 6%nat), <- (IV 1%nat), <- (IV 3%nat) by lia. reflexivity.
          - unfold dpress_mag, rin, rout. cbv zeta. rewrite <- XH, <- IE, <- (IS 6%nat), <- (IV 1%nat), <- (IV 3%nat) by lia. reflexivity. }
        assert (SB : within (B2R (get (pt_sdd pto) 0)) (dbulk c pars b i) (dbulk_mag c pars b i)).
        { rewrite GB. pose proof (within_ac _ _ _ _ _ _ UB ltac:(unfold okm; lia) ltac:(lia) ltac:(lia)) as W. pose proof (ac_A _ _ _ _ _ _ BK) as KP.
          refine (within_mono _ _ _ _ _ _).
          - unfold dbulk, rin. cbv zeta. rewrite <- (IS 6%nat), <- (IV 1%nat) by lia. exact W.
          - unfold dbulk_mag, rin. cbv zeta. rewrite <- (IS 6%nat), <- (IV 1%nat) by lia. unfold rpar in *. unfold Rdiv. lra. }
      unfold DN in *.
      split; [|split; [|split]].
      - (* energy *)
        unfold rout at 1. rewrite <- XE, GE, <- GS. 
        pose proof (power_ac (pt_stress ptn) cD 100 ltac:(lia) ltac:(intros k Hk; rewrite IS by lia; apply moderate_mag; apply (mp_s _ _ MI); lia) ltac:(intros k Hk; rewrite ID by lia; apply moderate_mag; now apply (mp_d _ _ MI))) as W1.
        pose proof (power_ac (pt_stress pto) cD 640 ltac:(lia) ltac:(intros k Hk; rewrite XS by lia; apply OS; lia) ltac:(intros k Hk; rewrite ID by lia; apply moderate_mag; now apply (mp_d _ _ MI))) as W2.
        set (w1 := vecsInnerSvecDev (pt_stress ptn) cD) in *. set (w2 := vecsInnerSvecDev (pt_stress pto) cD) in *. clearbody w1 w2.
        pose proof (ac_in _ _ (moderate_mag _ (mp_dt _ _ MI))) as DT.
        assert (LQ : ac (oneqrtr : dbl) (/ 4) (/ 4) 1 1 (-1075)).
        { unfold oneqrtr. cbn [nlit DN DNum]. eapply ac_fin; [apply (ac_lit 25 2 1); lia| | |lia..]; rewrite rlit_neg; change (10 ^ 2)%Z with 100%Z; lra. }
        set (en := u_eNew (snglUpd mat cV (pt_eInt ptn) (pt_stress ptn))) in *. clearbody en.
        unfold DN in *. set (oq := oneqrtr) in *. clearbody oq. cbn [nadd nmul DNum].
        apply (within_ac _ _ _ 900 1000 (-133)); [eapply ac_fin; [acc| | |cbn; lia..]|okn|lia|lia].
        + unfold dwork, work_on. rewrite IE, (IV 0%nat), (IV 1%nat), (IV 3%nat), (IS 6%nat) by lia.
          rewrite (power_ext (fun j => B2R (get (pt_stress ptn) j)) (rin b AS i) _ (rin b AD i)), (power_ext (fun j => B2R (get (pt_stress pto) j)) (rout b AS i) _ (rin b AD i));
            try (intros k Hk; rewrite ?IS, ?ID, ?XS by lia; reflexivity).
          unfold rin at 1 2 3 4 5 6 8 10. unfold rin. field.
        + unfold dwork_mag, work_on. rewrite IE, (IV 0%nat), (IV 1%nat), (IV 3%nat), (IS 6%nat) by lia.
          rewrite (power_ext (fun j => Rabs (B2R (get (pt_stress ptn) j))) (mag_of (rin b AS i)) _ (mag_of (rin b AD i))), (power_ext (fun j => Rabs (B2R (get (pt_stress pto) j))) (mag_of (rout b AS i)) _ (mag_of (rin b AD i)));
            try (intros k Hk; rewrite ?IS, ?ID, ?XS by lia; reflexivity).
          unfold rin at 1 2 3 4 5. unfold rin. field.
      - (* pressure *)
        unfold rout at 1. rewrite <- XS by lia.
        refine (within_ac _ _ _ _ _ _ SP _ _ _); [okn|lia|lia].
      - (* temperature *)
        unfold rout at 1. rewrite <- XT. refine (within_ac _ _ _ _ _ _ TA _ _ _); [okn|lia|lia].
      - (* bulk modulus *)
        unfold rout at 1. rewrite <- XB. exact SB.
    Qed.
  End C.

  Lemma energy_history hs c i l : forall b, echain L hs c (b :: l) -> Forall (mcall L c i) (b :: l) ->
    Rabs (efinal b l i - (rin b AE i 0 + over (fun x => dwork x i) (b :: l))) <=
    / 10 ^ 13 * over (fun x => escale x i) (b :: l) + / 10 ^ 40 * INR (length (b :: l)).
  Proof.
    induction l as [|b' l IH]; intros b HC HF.
    - destruct HC as (G & _). inversion_clear HF. destruct H as (Hi & MI & HA & pars & HU & MP).
      destruct (call_acc hs c b i pars G Hi HU MP MI HA) as [W _]. unfold within in W. unfold efinal, escale. cbn [last over fold_right length INR].
      rewrite !Rplus_0_r. rewrite Rmult_1_r. exact W.
    - destruct HC as (G & (ES & EN & EM) & HC). pose proof (Forall_inv HF) as HB. pose proof (Forall_inv_tail HF) as HF'. specialize (IH b' HC HF').
      destruct HB as (Hi & MI & HA & pars & HU & MP). destruct (call_acc hs c b i pars G Hi HU MP MI HA) as [W _]. unfold within in W.
      assert (EI : rin b' AE i 0 = rout b AE i 0). { unfold rin, rout. f_equal. unfold dval. rewrite ES, EM. reflexivity. }
      assert (EF : efinal b (b' :: l) i = efinal b' l i).
      { unfold efinal. f_equal. destruct l as [|x l]; [reflexivity|]. cbn [last]. clear. revert x. induction l as [|y l IH]; intros x; [reflexivity|]. apply (IH y). }
      rewrite EF. set (t := over (fun x => dwork x i) (b' :: l)) in *. set (u := over (fun x => escale x i) (b' :: l)) in *.
      change (over (fun x => dwork x i) (b :: b' :: l)) with (dwork b i + t). change (over (fun x => escale x i) (b :: b' :: l)) with (escale b i + u).
      change (length (b :: b' :: l)) with (S (length (b' :: l))). rewrite S_INR. rewrite EI in IH. fold (escale b i) in W.
      replace (efinal b' l i - (rin b AE i 0 + (dwork b i + t))) with ((efinal b' l i - (rout b AE i 0 + t)) + (rout b AE i 0 - (rin b AE i 0 + dwork b i))) by ring.
      apply Rle_trans with (1 := Rabs_triang _ _).
      replace (/ 10 ^ 13 * (escale b i + u) + / 10 ^ 40 * (INR (length (b' :: l)) + 1)) with ((/ 10 ^ 13 * u + / 10 ^ 40 * INR (length (b' :: l))) + (/ 10 ^ 13 * escale b i + / 10 ^ 40)) by ring.
      apply Rplus_le_compat; [exact IH|exact W].
  Qed.
End L.
