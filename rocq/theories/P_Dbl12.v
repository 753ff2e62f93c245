(** Doubles: which parameters the hexagonal model accepts. *)
From Coq Require Import List ZArith Bool Lia Reals Lra.
From Flocq Require Import Core IEEE754.BinarySingleNaN.
From Verif Require Import Num Arr SlipGeom Hard KinVoce KinKMBalD Elast MatModel Cases P_Batch3 P_Api P_Builtin SpecApi P_Api2 NumD P_Dbl P_Dbl2 SpecDbl P_Dbl3 P_Dbl5 P_Dbl6 P_Dbl7 P_Dbl8 SpecDblGeom P_Dbl9 P_Dbl10 P_Dbl11.
Import ListNotations.
Local Open Scope R_scope.

Lemma lo_280 : bpow radix2 (-950) <= / 10 ^ 280.
Proof.
  change (bpow radix2 (-950)) with (/ IZR (2 ^ 950)). apply Rinv_le_contravar; [apply pow_lt; lra|].
  rewrite (pow_IZR 10 280). apply IZR_le. vm_compute. discriminate.
Qed.
Section Sc.
  Variable m : R.
  Hypothesis M1 : / 10 ^ 280 <= m.
  Hypothesis M2 : m <= 10 ^ 300.
  Lemma m_lo : bpow radix2 (-950) <= m.
  Proof. exact (Rle_trans _ _ _ lo_280 M1). Qed.
  Lemma m_hi : m <= hh.
  Proof. pose proof hi_300 as H. fold hh in H. exact (Rle_trans _ _ _ M2 H). Qed.
  Lemma m_pos : 0 < m.
  Proof. pose proof m_lo. pose proof (bpow_gt_0 radix2 (-950)). lra. Qed.
  Lemma m_eta : eta <= / 1000 * (uu * m).
  Proof.
    apply Rle_trans with (/ 1000 * (uu * bpow radix2 (-950))).
    - rewrite uu_bpow, <- bpow_plus. unfold eta. apply Rle_trans with (bpow radix2 (-10) * bpow radix2 (-53 + -950)).
      + rewrite <- bpow_plus. apply bpow_le. lia.
      + apply Rmult_le_compat_r; [apply bpow_ge_0|]. cbn. lra.
    - apply Rmult_le_compat_l; [lra|]. apply Rmult_le_compat_l; [unfold uu; lra|exact m_lo].
  Qed.
  Definition sb (x : dbl) (X k : R) : Prop := fin x /\ Rabs (B2R x - X) <= k * (uu * m).
  Lemma sb_mul (a b t c : dbl) tau : B2R a * B2R b = B2R t * B2R c -> fin a -> fin b -> Rabs (B2R t - tau) <= 1.4 * uu -> Rabs tau <= 4 / 3 -> Rabs (B2R c) <= m ->
    sb (Bmult mode_NE a b) (tau * B2R c) (1.4 + Rabs tau + 0.01).
  Proof.
    intros E FA FB HT BT HC. set (x := B2R c) in *. set (y := B2R t) in *. pose proof m_pos as P. pose proof m_hi as H. pose proof m_eta as HE. pose proof hh_big as HB.
    assert (D : Rabs (y * x - tau * x) <= 1.4 * (uu * m)).
    { replace (y * x - tau * x) with ((y - tau) * x) by ring. rewrite Rabs_mult, <- Rmult_assoc. apply Rmult_le_compat; auto using Rabs_pos. }
    assert (TX : Rabs (tau * x) <= Rabs tau * m) by (rewrite Rabs_mult; apply Rmult_le_compat_l; [apply Rabs_pos|exact HC]).
    assert (TM : Rabs tau * m <= 4 / 3 * m) by (apply Rmult_le_compat_r; lra).
    assert (YX : Rabs (y * x) <= Rabs tau * m + 1.4 * (uu * m)).
    { pose proof (Rabs_triang (y * x - tau * x) (tau * x)) as T. replace (y * x - tau * x + tau * x) with (y * x) in T by ring. lra. }
    assert (UM : uu * m <= 0.001 * m) by (apply Rmult_le_compat_r; [lra|unfold uu; lra]).
    destruct (mul_ok a b FA FB) as [F V]; [rewrite E; fold x y; lra|]. split; [exact F|]. rewrite V, E. fold x y.
    pose proof (rnd_err (y * x)) as R. assert (uu * Rabs (y * x) <= uu * (Rabs tau * m + 1.4 * (uu * m))) by (apply Rmult_le_compat_l; [unfold uu; lra|exact YX]).
    replace (uu * (Rabs tau * m + 1.4 * (uu * m))) with (Rabs tau * (uu * m) + uu * 1.4 * (uu * m)) in H0 by ring.
    assert (U0 : 0 < uu * m) by (apply Rmult_lt_0_compat; [unfold uu; lra|exact P]).
    assert (uu * 1.4 * (uu * m) <= 0.001 * (uu * m)) by (apply Rmult_le_compat_r; [lra|unfold uu; lra]).
    set (U := uu * m) in *. apply abs_le in R, D. apply abs_le. lra.
  Qed.
  Lemma sb_add (x y : dbl) X Y k l q : sb x X k -> sb y Y l -> k + l <= 100 -> Rabs (X + Y) <= q * m -> q <= 4 ->
    sb (Bplus mode_NE x y) (X + Y) (k + l + q + 0.01).
  Proof.
    intros [FX EX] [FY EY] K Q q4. pose proof m_pos as P. pose proof m_hi as H. pose proof m_eta as HE. pose proof hh_big as HB.
    assert (U0 : 0 < uu * m) by (apply Rmult_lt_0_compat; [unfold uu; lra|exact P]).
    assert (UM : uu * m <= 0.001 * m) by (apply Rmult_le_compat_r; [lra|unfold uu; lra]).
    assert (D : Rabs (B2R x + B2R y - (X + Y)) <= (k + l) * (uu * m)) by (apply abs_le in EX, EY; apply abs_le; lra).
    assert (KU : (k + l) * (uu * m) <= 100 * (uu * m)) by (apply Rmult_le_compat_r; lra).
    assert (QM : q * m <= 4 * m) by (apply Rmult_le_compat_r; lra).
    set (s := B2R x + B2R y) in *. set (Z := X + Y) in *.
    assert (S1 : Rabs s <= q * m + 100 * (uu * m)).
    { pose proof (Rabs_triang (s - Z) Z) as T. replace (s - Z + Z) with s in T by ring. lra. }
    destruct (add_ok x y FX FY) as [F V]; [fold s; lra|]. split; [exact F|]. rewrite V. fold s.
    pose proof (rnd_err s) as R. assert (A : uu * Rabs s <= uu * (q * m + 100 * (uu * m))) by (apply Rmult_le_compat_l; [unfold uu; lra|exact S1]).
    replace (uu * (q * m + 100 * (uu * m))) with (q * (uu * m) + uu * 100 * (uu * m)) in A by ring.
    assert (uu * 100 * (uu * m) <= 0.001 * (uu * m)) by (apply Rmult_le_compat_r; [lra|unfold uu; lra]).
    set (U := uu * m) in *. apply abs_le in R, D. apply abs_le. lra.
  Qed.
  Lemma frac3 z : (1 <= z <= 4)%Z -> fin (Bdiv mode_NE (Z2D z) (Z2D 3)) /\ Rabs (B2R (Bdiv mode_NE (Z2D z) (Z2D 3)) - IZR z / 3) <= 1.4 * uu.
  Proof.
    intros Hz. destruct (Z2D_ok z ltac:(cbn; lia)) as [F1 V1]. destruct (Z2D_ok 3 ltac:(cbn; lia)) as [F3 V3].
    assert (Z3 : 1 <= IZR z <= 4) by (split; apply IZR_le; lia).
    destruct (div_ok (Z2D z) (Z2D 3) F1) as [F V]; [rewrite V3; lra|rewrite V1, V3, Rabs_pos_eq by lra; pose proof big_10; lra|].
    split; [exact F|]. rewrite V, V1, V3. pose proof (rnd_err (IZR z / 3)) as H. rewrite (Rabs_pos_eq (IZR z / 3)) in H by lra.
    assert (uu * (IZR z / 3) <= uu * (4 / 3)) by (apply Rmult_le_compat_l; [unfold uu|]; lra). pose proof nb_eta. unfold uu in *. lra.
  Qed.
  (** the bulk modulus of the hexagonal model has the sign of 2 c11 + 2 c12 + 4 c13 + c33 *)
  Lemma hex_sign (c11 c12 c13 c33 : dbl) : fin c11 -> fin c12 -> fin c13 -> fin c33 ->
    Rabs (B2R c11) <= m -> Rabs (B2R c12) <= m -> Rabs (B2R c13) <= m -> Rabs (B2R c33) <= m ->
    let t1 := Bdiv mode_NE (Z2D 1) (Z2D 3) in let t2 := Bdiv mode_NE (Z2D 2) (Z2D 3) in let t4 := Bdiv mode_NE (Z2D 4) (Z2D 3) in
    let K := Bmult mode_NE t1 (Bplus mode_NE (Bplus mode_NE (Bplus mode_NE (Bmult mode_NE t2 c11) (Bmult mode_NE t2 c12)) (Bmult mode_NE t4 c13)) (Bmult mode_NE c33 t1)) in
    let S := 2 * B2R c11 + 2 * B2R c12 + 4 * B2R c13 + B2R c33 in
    (S <= - (/ 10 ^ 14 * m) -> Bleb K (Z2D 0) = true) /\ (/ 10 ^ 14 * m <= S -> Bleb K (Z2D 0) = false).
  Proof.
    intros F1 F2 F3 F4 H1 H2 H3 H4. cbv zeta. pose proof m_pos as P. pose proof m_hi as H. pose proof hh_big as HB. pose proof m_lo as ML.
    destruct (frac3 1 ltac:(lia)) as [G1 E1]. destruct (frac3 2 ltac:(lia)) as [G2 E2]. destruct (frac3 4 ltac:(lia)) as [G4 E4]. destruct third_val as [_ VT].
    set (t1 := Bdiv mode_NE (Z2D 1) (Z2D 3)) in *. set (t2 := Bdiv mode_NE (Z2D 2) (Z2D 3)) in *. set (t4 := Bdiv mode_NE (Z2D 4) (Z2D 3)) in *.
    clearbody t1 t2 t4.
    pose proof (sb_mul t2 c11 t2 c11 (2 / 3) eq_refl G2 F1 E2 ltac:(rewrite Rabs_pos_eq; lra) H1) as p1. rewrite Rabs_pos_eq in p1 by lra.
    pose proof (sb_mul t2 c12 t2 c12 (2 / 3) eq_refl G2 F2 E2 ltac:(rewrite Rabs_pos_eq; lra) H2) as p2. rewrite Rabs_pos_eq in p2 by lra.
    pose proof (sb_mul t4 c13 t4 c13 (4 / 3) eq_refl G4 F3 E4 ltac:(rewrite Rabs_pos_eq; lra) H3) as p3. rewrite Rabs_pos_eq in p3 by lra.
    pose proof (sb_mul c33 t1 t1 c33 (1 / 3) (Rmult_comm _ _) F4 G1 E1 ltac:(rewrite Rabs_pos_eq; lra) H4) as p4. rewrite Rabs_pos_eq in p4 by lra.
    set (x1 := B2R c11) in *. set (x2 := B2R c12) in *. set (x3 := B2R c13) in *. set (x4 := B2R c33) in *.
    apply abs_le in H1, H2, H3, H4.
    pose proof (sb_add _ _ _ _ _ _ (4 / 3) p1 p2 ltac:(lra) ltac:(apply abs_le; lra) ltac:(lra)) as s1.
    pose proof (sb_add _ _ _ _ _ _ (8 / 3) s1 p3 ltac:(lra) ltac:(apply abs_le; lra) ltac:(lra)) as s2.
    pose proof (sb_add _ _ _ _ _ _ 3 s2 p4 ltac:(lra) ltac:(apply abs_le; lra) ltac:(lra)) as s3.
    set (Kv := Bplus mode_NE (Bplus mode_NE (Bplus mode_NE (Bmult mode_NE t2 c11) (Bmult mode_NE t2 c12)) (Bmult mode_NE t4 c13)) (Bmult mode_NE c33 t1)) in *.
    clear s1 s2 p1 p2 p3 p4. destruct s3 as [FK EK]. clearbody Kv. apply abs_le in EK.
    assert (U0 : 0 < uu * m) by (apply Rmult_lt_0_compat; [unfold uu; lra|exact P]).
    assert (UM : uu * m <= / 9007199254740000 * m) by (apply Rmult_le_compat_r; [lra|unfold uu; lra]).
    assert (TEN : / 10 ^ 14 = / 100000000000000) by (f_equal; ring).
    rewrite TEN. set (y := B2R Kv) in *. set (t := B2R t1) in *.
    assert (AB : Rabs (t * y) <= 4 * hh).
    { rewrite Rabs_mult, (Rabs_pos_eq t) by lra. apply Rle_trans with (1 * (4 * m)); [|lra]. apply Rmult_le_compat; [lra|apply Rabs_pos|lra|]. apply abs_le. lra. }
    destruct (mul_ok t1 Kv G1 FK) as [FM VM]; [fold t y; lra|]. fold t y in VM.
    rewrite Bleb_correct by (exact FM || reflexivity). rewrite VM. change (B2R (Z2D 0)) with 0. split; intros HS.
    - apply Rle_bool_true. rewrite <- rnd_0. apply rnd_le. assert (y <= 0) by lra. assert (0 <= t * (- y)) by (apply Rmult_le_pos; lra). lra.
    - apply Rle_bool_false. assert (LY : / 1000000000000000 * m <= y) by lra.
      assert (LP : bpow radix2 (-1010) <= t * y).
      { apply Rle_trans with (/ 3.1 * (/ 1000000000000000 * bpow radix2 (-950))).
        - change (-1010)%Z with (-60 + -950)%Z. rewrite bpow_plus, <- Rmult_assoc. apply Rmult_le_compat_r; [apply bpow_ge_0|].
          change (bpow radix2 (-60)) with (/ 1152921504606846976). lra.
        - apply Rmult_le_compat; [lra|apply Rmult_le_pos; [lra|apply bpow_ge_0]|lra|]. apply Rle_trans with (2 := LY). apply Rmult_le_compat_l; lra. }
      apply Rlt_le_trans with (bpow radix2 (-1010)); [apply bpow_gt_0|].
      rewrite <- (round_generic radix2 dfexp ZnearestE (bpow radix2 (-1010))); [now apply rnd_le|].
      apply generic_format_bpow. rewrite dfexp_FLT. unfold FLT_exp. lia.
  Qed.
End Sc.

Lemma eqb_1 (x : dbl) : Beqb x (Z2D 1) = true <-> B2R x = 1.
Proof.
  destruct (Z2D_ok 1 ltac:(cbn; lia)) as [F V]. destruct (is_finite x) eqn:FX.
  - rewrite Beqb_correct by assumption. rewrite V. case Req_bool_spec; intros H; split; intros; try assumption; try reflexivity; try discriminate. contradiction.
  - split; [|intros H; destruct x; try discriminate FX; cbn in H; lra]. destruct x as [|[]| |]; try discriminate FX; intros H; vm_compute in H; discriminate.
Qed.
Section Acc.
  Variable L : Libm.
  Let DN := DNum L.
  #[local] Existing Instance DN.
  Lemma hex_kin hs pars : let c := cls_HCP_A hs in
    let ok := Beqb (nth 37 pars B754_nan) (Z2D 1) && Beqb (nth 38 pars B754_nan) (Z2D 1) in
    exists k h, List.length (mm_histInfo c h) = mm_numHist c /\ c_kinSet c (sub pars (3 + c_sgNP c + c_elNP c) (c_kinNP c)) = if ok then Some (k, h) else None.
  Proof.
    cbv zeta. set (p := sub pars 10 (km_nParams 24)). set (km := km_setParams true true true true 24 p).
    exists (km_kinetics hs km 24), (km_histInfo km). split; [reflexivity|].
    change (c_kinSet (cls_HCP_A hs) _) with (if km_ctorOk true 24 24 && km_paramsOk km then Some (km_kinetics hs km 24, km_histInfo km) else None).
    assert (E : km_paramsOk km = Beqb (nth 37 pars B754_nan) (Z2D 1) && Beqb (nth 38 pars B754_nan) (Z2D 1)).
    { change (km_paramsOk km) with (Beqb (get p 27) (Z2D 1) && Beqb (get p 28) (Z2D 1)). unfold p. rewrite !get_sub by (unfold km_nParams; lia). reflexivity. }
    rewrite E. reflexivity.
  Qed.
  Lemma dhex_accepts hs s opts pars strs : let c := cls_HCP_A hs in let ca := nth 3 pars B754_nan in fin ca -> / 2 <= B2R ca <= 3 ->
    (exists s', mm_init c s opts pars strs = (Done, s')) <-> counts_ok c opts pars strs /\ Beqb (nth 37 pars B754_nan) (Z2D 1) = true /\ Beqb (nth 38 pars B754_nan) (Z2D 1) = true /\ Bleb (el_K_bulkMod (gel_of c pars)) (Z2D 0) = false.
  Proof.
    cbv zeta. set (c := cls_HCP_A hs). intros FC RC. split.
    - intros [s' H]. destruct (init_done _ _ _ _ _ _ H) as (HC & a & (P1 & P2 & P3 & P4) & _). split; [assumption|].
      change (pa_el a = gel_of c pars) in P2. rewrite P2 in P4. unfold el_getBulkMod in P4. cbn [nleb nZ DN DNum] in P4.
      destruct (hex_kin hs pars) as (k & h & _ & KK). fold c in KK. rewrite KK in P3. clear KK.
      revert P3. destruct (Beqb (nth 37 pars B754_nan) (Z2D 1)); [|discriminate]. destruct (Beqb (nth 38 pars B754_nan) (Z2D 1)); [|discriminate].
      intros _. split; [reflexivity|]. split; [reflexivity|]. destruct Bleb; [discriminate|reflexivity].
    - intros (HC & Q1 & Q2 & PB).
      assert (EB : el_getBulkMod (gel_of c pars) = Some (el_K_bulkMod (gel_of c pars))).
      { unfold el_getBulkMod. cbn [nleb nZ DN DNum]. now rewrite PB. }
      destruct (dgeom_hcp L (nth 3 pars B754_nan) FC RC) as (g & Hg & _).
      destruct (hex_kin hs pars) as (k & h & LK & KK). fold c in LK, KK. rewrite Q1, Q2 in KK. cbn [andb] in KK.
      apply (init_done_conv c s opts pars strs {| pa_sg := g; pa_el := gel_of c pars; pa_kin := k; pa_hist := h; pa_bulk := el_K_bulkMod (gel_of c pars) |}); [assumption| |assumption].
      refine (conj _ (conj eq_refl (conj KK EB))). cbn [pa_sg]. change (c_sgSet c (sub pars 3 (c_sgNP c))) with (slipGeomHCP (get (sub pars 3 1) 0)).
      rewrite get_sub by lia. exact Hg.
  Qed.
  Lemma hex_bulk hs pars : el_K_bulkMod (gel_of (cls_HCP_A hs) pars) =
    (let t1 := Bdiv mode_NE (Z2D 1) (Z2D 3) in let t2 := Bdiv mode_NE (Z2D 2) (Z2D 3) in let t4 := Bdiv mode_NE (Z2D 4) (Z2D 3) in
     Bmult mode_NE t1 (Bplus mode_NE (Bplus mode_NE (Bplus mode_NE (Bmult mode_NE t2 (nth 4 pars B754_nan)) (Bmult mode_NE t2 (nth 5 pars B754_nan))) (Bmult mode_NE t4 (nth 6 pars B754_nan))) (Bmult mode_NE (nth 7 pars B754_nan) t1))).
  Proof.
    change (gel_of (cls_HCP_A hs) pars) with (hexag_setParams (sub pars 4 6)). unfold hexag_setParams. cbn [el_K_bulkMod]. rewrite !get_sub by lia. reflexivity.
  Qed.
  Lemma dhex_params hs s opts pars strs m : let c := cls_HCP_A hs in
    let ca := nth 3 pars B754_nan in let c11 := nth 4 pars B754_nan in let c12 := nth 5 pars B754_nan in let c13 := nth 6 pars B754_nan in let c33 := nth 7 pars B754_nan in
    let p := nth 37 pars B754_nan in let q := nth 38 pars B754_nan in
    fin ca -> / 2 <= B2R ca <= 3 -> / 10 ^ 280 <= m <= 10 ^ 300 ->
    (forall x, In x [c11; c12; c13; c33] -> fin x /\ Rabs (B2R x) <= m) ->
    let S := 2 * B2R c11 + 2 * B2R c12 + 4 * B2R c13 + B2R c33 in
    (counts_ok c opts pars strs -> B2R p = 1 -> B2R q = 1 -> / 10 ^ 14 * m <= S -> exists s', mm_init c s opts pars strs = (Done, s')) /\
    ((exists s', mm_init c s opts pars strs = (Done, s')) -> counts_ok c opts pars strs /\ B2R p = 1 /\ B2R q = 1 /\ - (/ 10 ^ 14 * m) < S).
  Proof.
    cbv zeta. intros FC RC [MA MB] HX.
    destruct (HX (nth 4 pars B754_nan)) as [F1 B1]; [now left|]. destruct (HX (nth 5 pars B754_nan)) as [F2 B2]; [right; now left|].
    destruct (HX (nth 6 pars B754_nan)) as [F3 B3]; [right; right; now left|]. destruct (HX (nth 7 pars B754_nan)) as [F4 B4]; [right; right; right; now left|].
    destruct (hex_sign m MA MB _ _ _ _ F1 F2 F3 F4 B1 B2 B3 B4) as [S1 S2].
    pose proof (dhex_accepts hs s opts pars strs FC RC) as A. rewrite hex_bulk in A. cbv zeta in A. split.
    - intros CO Hp Hq HS. apply A. split; [exact CO|]. split; [exact (proj2 (eqb_1 _) Hp)|]. split; [exact (proj2 (eqb_1 _) Hq)|]. now apply S2.
    - intros HD. apply A in HD. destruct HD as (CO & Hp & Hq & HD). split; [exact CO|]. split; [exact (proj1 (eqb_1 _) Hp)|]. split; [exact (proj1 (eqb_1 _) Hq)|].
      apply Rnot_le_lt. intros Hx. rewrite (S1 Hx) in HD. discriminate.
  Qed.
End Acc.
