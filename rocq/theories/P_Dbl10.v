(** Doubles: ranges of the theorems in decimal. *)
From Coq Require Import List ZArith Bool Lia Reals Lra.
From Flocq Require Import Core Mult_error IEEE754.BinarySingleNaN.
From Verif Require Import Num Arr SlipGeom Hard KinVoce KinKMBalD Elast MatModel Cases P_Batch3 P_Api P_Builtin SpecApi P_Api2 NumD P_Dbl P_Dbl2 SpecDbl P_Dbl3 P_Dbl5 P_Dbl6 P_Dbl7 P_Dbl8 SpecDblGeom P_Dbl9.
Import ListNotations.
Local Open Scope R_scope.

Lemma lo_200 : bpow radix2 (-900) <= / 10 ^ 200.
Proof.
  change (bpow radix2 (-900)) with (/ IZR (2 ^ 900)). apply Rinv_le_contravar; [apply pow_lt; lra|].
  rewrite (pow_IZR 10 200). apply IZR_le. vm_compute. discriminate.
Qed.
Lemma hi_200 : 10 ^ 200 <= bpow radix2 1000.
Proof.
  change (bpow radix2 1000) with (IZR (2 ^ 1000)). rewrite (pow_IZR 10 200). apply IZR_le. vm_compute. discriminate.
Qed.
Lemma hi_300 : 10 ^ 300 <= bpow radix2 1000.
Proof.
  change (bpow radix2 1000) with (IZR (2 ^ 1000)). rewrite (pow_IZR 10 300). apply IZR_le. vm_compute. discriminate.
Qed.
Lemma range_200 x : / 10 ^ 200 <= x <= 10 ^ 200 -> bpow radix2 (-900) <= x <= bpow radix2 1000.
Proof. intros [A B]. split; [exact (Rle_trans _ _ _ lo_200 A)|exact (Rle_trans _ _ _ B hi_200)]. Qed.
Lemma bnd_300 x : is_finite x = true -> Rabs (B2R x) <= 10 ^ 300 -> bnd x 1.
Proof. intros F H. split; [exact F|]. rewrite Rmult_1_l. exact (Rle_trans _ _ _ H hi_300). Qed.

Section L.
  Variable L : Libm.
  Hypothesis TR : trig_ok L.
  Lemma unit_all hs c i l b0 : dchain L hs c (b0 :: l) -> (i < d_n b0)%nat ->
    (let q := dquat (d_s b0) (d_m b0) i in all_nan q \/ finite q /\ / 10 ^ 200 <= norm2 q <= 10 ^ 200) ->
    forall b, In b (b0 :: l) -> let q := dquat (d_s b) (d_m1 b) i in all_nan q \/ finite q /\ Rabs (norm2 q - 1) <= / 10 ^ 13.
  Proof.
    intros HC Hi HQ. apply (dchain_quat L TR hs c i l b0 HC Hi). cbv zeta in *. destruct HQ as [HQ|[F HQ]]; [now left|].
    right. split; [exact F|]. now apply range_200.
  Qed.
  Lemma unit_fin hs c i l b0 : dchain L hs c (b0 :: l) -> (i < d_n b0)%nat ->
    (forall b, In b (b0 :: l) -> moderate_answers (d_solver b)) ->
    (let q := dquat (d_s b0) (d_m b0) i in finite q /\ / 10 ^ 200 <= norm2 q <= 10 ^ 200) ->
    forall b, In b (b0 :: l) -> let q := dquat (d_s b) (d_m1 b) i in finite q /\ Rabs (norm2 q - 1) <= / 10 ^ 13.
  Proof.
    intros HC Hi HM HQ. apply (dchain_quat_fin L TR hs c i l b0 HC Hi HM). cbv zeta in *. destruct HQ as [F HQ].
    split; [exact F|]. now apply range_200.
  Qed.
End L.
Lemma moduli_300 L hs c b i pars : dgood L hs c b -> (i < d_n b)%nat -> @in_use dbl (DNum L) c (d_s b) pars ->
  (forall k, (k < c_elNP c)%nat -> let x := nth (3 + c_sgNP c + k) pars B754_nan in is_finite x = true /\ Rabs (B2R x) <= 10 ^ 300) ->
  let K := dval (d_s b) (d_m1 b) AB i 0 in let g := dval (d_s b) (d_m1 b) AB i 1 in
  is_nan K = false /\ Bleb (B754_zero false) K = true /\ is_nan g = false /\ Bltb (B754_zero false) g = true.
Proof. intros G Hi U H. apply (dcall_moduli L hs c b i pars G Hi U). intros k Hk. destruct (H k Hk) as [F B]. now apply bnd_300. Qed.

(** ** Which parameters the cubic models accept *)
Section Acc.
  Variable L : Libm.
  Let DN := DNum L.
  #[local] Existing Instance DN.
  Lemma dcubic_accepts hs (c : MClass dbl) s opts pars strs : builtin hs c -> c_sgNP c = 0%nat ->
    (exists s', mm_init c s opts pars strs = (Done, s')) <-> counts_ok c opts pars strs /\ Bleb (el_K_bulkMod (gel_of c pars)) (Z2D 0) = false.
  Proof.
    intros HB H0. split.
    - intros [s' H]. destruct (init_done _ _ _ _ _ _ H) as (HC & a & (P1 & P2 & P3 & P4) & _). split; [assumption|].
      change (pa_el a = gel_of c pars) in P2. rewrite P2 in P4. unfold el_getBulkMod in P4. cbn [nleb nZ DN DNum] in P4.
      destruct Bleb; [discriminate|reflexivity].
    - intros [HC PB].
      assert (EB : el_getBulkMod (gel_of c pars) = Some (el_K_bulkMod (gel_of c pars))).
      { unfold el_getBulkMod. cbn [nleb nZ DN DNum]. now rewrite PB. }
      assert (SG : exists g, c_sgSet c (sub pars 3 (c_sgNP c)) = Some g).
      { destruct (dgeom_fcc L) as (g & Hg & _). destruct (dgeom_bcc L 12 (or_introl eq_refl)) as (g' & Hg' & _).
        destruct HB as [E | [E | [E | [E | [E | [E | E]]]]]]; rewrite E in H0 |- *;
          [exists g; exact Hg|exists g; exact Hg|exists g; exact Hg|exists g'; exact Hg'|exists g'; exact Hg'|exists g'; exact Hg'|discriminate H0]. }
      destruct SG as [g SG].
      assert (KK : exists k h, c_kinSet c (sub pars (3 + c_sgNP c + c_elNP c) (c_kinNP c)) = Some (k, h) /\ List.length (mm_histInfo c h) = mm_numHist c).
      { destruct HB as [E | [E | [E | [E | [E | [E | E]]]]]]; rewrite E in H0 |- *; try (eexists; eexists; split; reflexivity). discriminate H0. }
      destruct KK as (k & h & KK & LK).
      apply (init_done_conv c s opts pars strs {| pa_sg := g; pa_el := gel_of c pars; pa_kin := k; pa_hist := h; pa_bulk := el_K_bulkMod (gel_of c pars) |}); [assumption| |assumption].
      exact (conj SG (conj eq_refl (conj KK EB))).
  Qed.
  (** the bulk modulus of a cubic model *)
  Lemma cubic_bulk hs (c : MClass dbl) pars : builtin hs c -> c_sgNP c = 0%nat ->
    el_K_bulkMod (gel_of c pars) = Bmult mode_NE (Bdiv mode_NE (Z2D 1) (Z2D 3)) (Bplus mode_NE (nth 3 pars B754_nan) (Bmult mode_NE (Z2D 2) (nth 4 pars B754_nan))).
  Proof.
    intros HB H0. unfold gel_of. rewrite H0.
    assert (E : c_elSet c = cubic_setParams /\ c_elNP c = 3%nat).
    { destruct HB as [E | [E | [E | [E | [E | [E | E]]]]]]; rewrite E in H0 |- *; try (split; reflexivity). discriminate H0. }
    destruct E as [-> ->]. unfold cubic_setParams. cbn [el_K_bulkMod]. rewrite !get_sub by lia. reflexivity.
  Qed.
  Lemma third_val : fin (Bdiv mode_NE (Z2D 1) (Z2D 3)) /\ 0.33 <= B2R (Bdiv mode_NE (Z2D 1) (Z2D 3)) <= 0.34.
  Proof.
    destruct (Z2D_ok 1 ltac:(cbn; lia)) as [F1 V1]. destruct (Z2D_ok 3 ltac:(cbn; lia)) as [F3 V3].
    destruct (div_ok (Z2D 1) (Z2D 3) F1) as [F V]; [rewrite V3; lra|rewrite V1, V3, Rabs_pos_eq by lra; pose proof big_10; lra|].
    split; [exact F|]. rewrite V, V1, V3. pose proof (rnd_err (1 / 3)) as H. rewrite (Rabs_pos_eq (1 / 3)) in H by lra. apply abs_le in H.
    pose proof eta_uu. unfold uu in *. lra.
  Qed.
  Lemma bulk_sign (a b : dbl) : fin a -> fin b -> Rabs (B2R a) <= 10 ^ 300 -> Rabs (B2R b) <= 10 ^ 300 ->
    let K := Bmult mode_NE (Bdiv mode_NE (Z2D 1) (Z2D 3)) (Bplus mode_NE a (Bmult mode_NE (Z2D 2) b)) in
    (B2R a + 2 * B2R b <= 0 -> Bleb K (Z2D 0) = true) /\ (/ 10 ^ 300 <= B2R a + 2 * B2R b -> Bleb K (Z2D 0) = false).
  Proof.
    intros FA FB HA HB. cbv zeta. pose proof hi_300 as H3. fold hh in H3. pose proof hh_big as HH. pose proof hh_1 as H1.
    assert (HA' : Rabs (B2R a) <= hh) by exact (Rle_trans _ _ _ HA H3). assert (HB' : Rabs (B2R b) <= hh) by exact (Rle_trans _ _ _ HB H3). clear HA HB.
    destruct (Z2D_ok 2 ltac:(cbn; lia)) as [F2 V2].
    assert (B2 : Rabs (2 * B2R b) <= 2 * hh) by (rewrite Rabs_mult, (Rabs_pos_eq 2) by lra; lra).
    destruct (mul_ok (Z2D 2) b F2 FB) as [FM VM]. { rewrite V2. lra. }
    rewrite V2 in VM. assert (X2 : rnd (2 * B2R b) = 2 * B2R b).
    { apply round_generic; auto with typeclass_instances. rewrite Rmult_comm. change 2 with (bpow radix2 1).
      apply mult_bpow_pos_exact_FLT; [|lia]. replace (FLT_exp (-1074) 53) with dfexp by reflexivity. apply generic_format_B2R. }
    rewrite X2 in VM. set (b2 := Bmult mode_NE (Z2D 2) b) in *. clearbody b2.
    assert (BS : Rabs (B2R a + B2R b2) <= 3 * hh). { rewrite VM. apply Rle_trans with (1 := Rabs_triang _ _). lra. }
    destruct (add_ok a b2 FA FM) as [FS VS]; [lra|]. set (S := Bplus mode_NE a b2) in *. clearbody S. rewrite VM in VS, BS.
    destruct third_val as [FT VT]. set (t := Bdiv mode_NE (Z2D 1) (Z2D 3)) in *. clearbody t.
    set (x := B2R a + 2 * B2R b) in *. clearbody x.
    assert (BS2 : Rabs (B2R S) <= 4 * hh). { rewrite VS. pose proof (rnd_abs x). pose proof eta_uu. unfold uu in *. lra. }
    assert (BT : Rabs (B2R t * B2R S) <= 4 * hh).
    { rewrite Rabs_mult, (Rabs_pos_eq (B2R t)) by lra. pose proof (Rabs_pos (B2R S)).
      apply Rle_trans with (1 * Rabs (B2R S)); [apply Rmult_le_compat_r; lra|lra]. }
    destruct (mul_ok t S FT FS) as [FK VK]; [lra|].
    rewrite Bleb_correct by (exact FK || reflexivity). rewrite VK. change (B2R (Z2D 0)) with 0. split; intros Hx.
    - apply Rle_bool_true. rewrite <- rnd_0. apply rnd_le. assert (B2R S <= 0) by (rewrite VS, <- rnd_0; now apply rnd_le). 
      assert (0 <= B2R t * (- B2R S)) by (apply Rmult_le_pos; lra). lra.
    - apply Rle_bool_false. assert (LO : bpow radix2 (-1000) <= / 10 ^ 300).
      { change (bpow radix2 (-1000)) with (/ IZR (2 ^ 1000)). apply Rinv_le_contravar; [apply pow_lt; lra|].
        rewrite (pow_IZR 10 300). apply IZR_le. vm_compute. discriminate. }
      assert (LX : bpow radix2 (-1000) <= x) by exact (Rle_trans _ _ _ LO Hx). clear LO Hx.
      assert (LS : bpow radix2 (-1000) <= B2R S).
      { rewrite VS. rewrite <- (round_generic radix2 dfexp ZnearestE (bpow radix2 (-1000))); [now apply rnd_le|].
        apply generic_format_bpow. rewrite dfexp_FLT. unfold FLT_exp. lia. }
      assert (LP : bpow radix2 (-1002) <= B2R t * B2R S).
      { replace (bpow radix2 (-1002)) with (/ 4 * bpow radix2 (-1000)) by (change (-1002)%Z with (-2 + -1000)%Z; rewrite bpow_plus; reflexivity).
        apply Rmult_le_compat; [lra|apply bpow_ge_0|lra|exact LS]. }
      apply Rlt_le_trans with (bpow radix2 (-1002)); [apply bpow_gt_0|].
      rewrite <- (round_generic radix2 dfexp ZnearestE (bpow radix2 (-1002))); [now apply rnd_le|].
      apply generic_format_bpow. rewrite dfexp_FLT. unfold FLT_exp. lia.
  Qed.
  Lemma dcubic_params hs (c : MClass dbl) s opts pars strs : builtin hs c -> c_sgNP c = 0%nat ->
    let c11 := nth 3 pars B754_nan in let c12 := nth 4 pars B754_nan in
    fin c11 -> fin c12 -> Rabs (B2R c11) <= 10 ^ 300 -> Rabs (B2R c12) <= 10 ^ 300 ->
    (counts_ok c opts pars strs -> / 10 ^ 300 <= B2R c11 + 2 * B2R c12 -> exists s', mm_init c s opts pars strs = (Done, s')) /\
    ((exists s', mm_init c s opts pars strs = (Done, s')) -> counts_ok c opts pars strs /\ 0 < B2R c11 + 2 * B2R c12).
  Proof.
    intros HB H0. cbv zeta. intros FA FB HA HC. destruct (bulk_sign _ _ FA FB HA HC) as [S1 S2].
    pose proof (dcubic_accepts hs c s opts pars strs HB H0) as A. rewrite (cubic_bulk hs c pars HB H0) in A. split.
    - intros CO Hp. apply A. split; [exact CO|]. now apply S2.
    - intros HD. apply A in HD. destruct HD as [CO HD]. split; [exact CO|]. apply Rnot_le_lt. intros Hx. rewrite (S1 Hx) in HD. discriminate.
  Qed.
  Lemma dcubic_nan hs (c : MClass dbl) s opts pars strs : builtin hs c -> c_sgNP c = 0%nat -> counts_ok c opts pars strs ->
    is_nan (nth 3 pars B754_nan) = true \/ is_nan (nth 4 pars B754_nan) = true -> exists s', mm_init c s opts pars strs = (Done, s').
  Proof.
    intros HB H0 HC HN. apply (dcubic_accepts hs c s opts pars strs HB H0). split; [exact HC|]. rewrite (cubic_bulk hs c pars HB H0).
    assert (X : is_nan (Bmult mode_NE (Bdiv mode_NE (Z2D 1) (Z2D 3)) (Bplus mode_NE (nth 3 pars B754_nan) (Bmult mode_NE (Z2D 2) (nth 4 pars B754_nan)))) = true).
    { apply mul_nan. right. apply add_nan. destruct HN as [HN|HN]; [now left|right]. apply mul_nan. now right. }
    apply nan_eq in X. rewrite X. reflexivity.
  Qed.
End Acc.
