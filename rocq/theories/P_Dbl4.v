(** Doubles: the incremental rotation, and the orientation after one update. *)
From Coq Require Import List ZArith Bool Lia Reals Lra Psatz.
From Flocq Require Import Core IEEE754.BinarySingleNaN.
From Verif Require Import Num Arr NumR Util NumD P_Dbl P_Dbl2 P_Dbl3 SpecDbl.
Import ListNotations.
Local Open Scope R_scope.

Lemma prod_err2 (a b : dbl) A B : fin a -> fin b -> Rabs A <= 1 -> Rabs B <= 1 ->
  Rabs (B2R a - A) <= 2 * uu -> Rabs (B2R b - B) <= 7.5 * uu -> near (Bmult mode_NE a b) (A * B) (12 * uu).
Proof.
  intros FA FB HA HB EA EB.
  set (da := B2R a - A) in *. set (db := B2R b - B) in *.
  assert (E : B2R a * B2R b - A * B = A * db + B * da + da * db) by (unfold da, db; ring).
  assert (X1 : Rabs (A * db) <= 7.5 * uu). { rewrite Rabs_mult, <- (Rmult_1_l (7.5 * uu)). apply Rmult_le_compat; auto using Rabs_pos. }
  assert (X2 : Rabs (B * da) <= 2 * uu). { rewrite Rabs_mult, <- (Rmult_1_l (2 * uu)). apply Rmult_le_compat; auto using Rabs_pos. }
  assert (X3 : Rabs (da * db) <= 2 * uu * (7.5 * uu)). { rewrite Rabs_mult. apply Rmult_le_compat; auto using Rabs_pos. }
  assert (X4 : Rabs (A * B) <= 1). { rewrite Rabs_mult, <- (Rmult_1_l 1). apply Rmult_le_compat; auto using Rabs_pos. }
  clearbody da db. set (ab := A * B) in *. clearbody ab.
  assert (M : Rabs (B2R a * B2R b - ab) <= 9.6 * uu).
  { rewrite E. apply abs_le in X1, X2, X3. apply abs_le. unfold uu in *. lra. }
  assert (M2 : Rabs (B2R a * B2R b) <= 1 + 10 * uu). { apply abs_le in M, X4. apply abs_le. unfold uu in *. lra. }
  destruct (mul_ok a b FA FB) as [F R]. { pose proof big_10. unfold uu in *. lra. }
  split; [exact F|]. rewrite R.
  pose proof (rnd_err (B2R a * B2R b)) as H. set (p := B2R a * B2R b) in *. clearbody p.
  pose proof eta_uu. apply abs_le in H, M. apply abs_le. unfold uu in *. lra.
Qed.

Lemma rnd_half : rnd (/ 2) = / 2.
Proof.
  unfold rnd. apply round_generic; [apply valid_rnd_N|].
  change (/ 2) with (bpow radix2 (-1)). apply generic_format_bpow. unfold dfexp. cbv. discriminate.
Qed.

Section L.
  Variable L : Libm.
  Let DN : Num dbl := DNum L.
  #[local] Existing Instance DN.
  Hypothesis TR : trig_ok L.

  Lemma half_ok : fin (nlit 5 (-1) : dbl) /\ B2R (nlit 5 (-1) : dbl) = / 2.
  Proof.
    cbn [nlit DN DNum]. assert (E : Rlit 5 (-1) = / 2) by (cbv [Rlit]; cbn; lra). rewrite E.
    destruct (R2D_ok (/ 2)) as [F V]. { rewrite Rabs_pos_eq by lra. pose proof big_10. lra. }
    split; [exact F|]. rewrite V. apply rnd_half.
  Qed.
  Lemma tiny_lo : fin (idp_tiny_sqrt : dbl) /\ bpow radix2 (-300) <= B2R (idp_tiny_sqrt : dbl).
  Proof.
    unfold idp_tiny_sqrt. cbn [nlit DN DNum].
    assert (B : bpow radix2 (-300) <= Rlit 1 (-90) <= 1).
    { unfold Rlit. cbn [Z.leb Z.compare Z.opp]. rewrite Rmult_1_l || idtac.
      assert (P : 0 < IZR (10 ^ 90)) by (apply IZR_lt; reflexivity).
      assert (P1 : 1 <= IZR (10 ^ 90)) by (apply IZR_le; vm_compute; discriminate).
      split.
      - change (-300)%Z with (- (300))%Z. rewrite bpow_opp.
        assert (X : IZR (10 ^ 90) <= bpow radix2 300).
        { rewrite <- (IZR_Zpower radix2) by lia. apply IZR_le. vm_compute. discriminate. }
        apply Rle_trans with (/ IZR (10 ^ 90)); [apply Rinv_le; assumption|]. set (h := IZR (10 ^ 90)) in *. clearbody h. unfold Rdiv. lra.
      - set (h := IZR (10 ^ 90)) in *. clearbody h. apply Rmult_le_reg_r with h; [exact P|]. unfold Rdiv. rewrite Rmult_assoc, Rinv_l by lra. lra. }
    destruct (R2D_ok (Rlit 1 (-90))) as [F V]. { rewrite Rabs_pos_eq; [pose proof big_10; lra|]. pose proof (bpow_gt_0 radix2 (-300)). lra. }
    split; [exact F|]. rewrite V.
    assert (E : rnd (bpow radix2 (-300)) = bpow radix2 (-300)).
    { unfold rnd. apply round_generic; [apply valid_rnd_N|]. apply generic_format_bpow. unfold dfexp. cbv. discriminate. }
    rewrite <- E. apply rnd_le. lra.
  Qed.

  Lemma list4_tab (g : nat -> dbl) : list4 (tab 4 g).
  Proof. exists (g 0%nat), (g 1%nat), (g 2%nat), (g 3%nat). reflexivity. Qed.

  (** incremental rotation: a NaN real part, or close to a unit quaternion *)
  Lemma emap_near xi : let A := emap_to_quat xi in
    (is_finite (vecNorm emapdim xi) = false /\ is_nan (get A 0) = true) \/
    exists B0 B1 B2 B3, unit4r B0 B1 B2 B3 /\ near (get A 0) B0 (12 * uu) /\ near (get A 1) B1 (12 * uu) /\ near (get A 2) B2 (12 * uu) /\ near (get A 3) B3 (12 * uu).
  Proof.
    cbv zeta. unfold emap_to_quat, inv_to_quat. cbv zeta.
    set (inv0 := vecNorm emapdim xi).
    set (ax := if nltb idp_tiny_sqrt inv0 then vecsVxa emapdim (nZ 1 / inv0)%num xi else [nZ 1; nZ 0; nZ 0]).
    assert (LA : length ax = 3%nat) by (unfold ax; destruct nltb; [apply tab_length|reflexivity]).
    assert (SU : sub (inv0 :: ax) 1 3 = ax).
    { destruct ax as [|a0 [|a1 [|a2 [|]]]]; try discriminate LA. reflexivity. }
    rewrite SU. change (get (inv0 :: ax) 0) with inv0.
    destruct half_ok as [FH VH]. set (a := (inv0 * nlit 5 (-1))%num).
    change (get (ncos a :: vecsVxa nwvec (nsin a) ax) 0) with (lm_cos L a).
    change (get (ncos a :: vecsVxa nwvec (nsin a) ax) 1) with (Bmult mode_NE (lm_sin L a) (get ax 0)).
    change (get (ncos a :: vecsVxa nwvec (nsin a) ax) 2) with (Bmult mode_NE (lm_sin L a) (get ax 1)).
    change (get (ncos a :: vecsVxa nwvec (nsin a) ax) 3) with (Bmult mode_NE (lm_sin L a) (get ax 2)).
    destruct (is_finite inv0) eqn:FI.
    2:{ left. split; [reflexivity|]. apply (proj2 (TR a)). destruct (is_finite a) eqn:FA; [|reflexivity].
        destruct (mul_fin _ _ FA) as (F & _). congruence. }
    right.
    assert (AX : exists z0 z1 z2, z0 * z0 + z1 * z1 + z2 * z2 = 1 /\
      near (get ax 0) z0 (7.5 * uu) /\ near (get ax 1) z1 (7.5 * uu) /\ near (get ax 2) z2 (7.5 * uu)).
    { destruct (nltb idp_tiny_sqrt inv0) eqn:LT.
      2:{ exists 1, 0, 0. split; [ring|]. destruct (z0_ok L) as [F0 V0]. destruct (z1_ok L) as [F1 V1]. unfold ax.
          assert (U : 0 <= 7.5 * uu) by (unfold uu; lra).
          split; [|split]; (split; [assumption|]);
            [change (get [nZ 1; nZ 0; nZ 0] 0) with (nZ 1 : dbl); unfold DN; rewrite V1
            |change (get [nZ 1; nZ 0; nZ 0] 1) with (nZ 0 : dbl); unfold DN; rewrite V0
            |change (get [nZ 1; nZ 0; nZ 0] 2) with (nZ 0 : dbl); unfold DN; rewrite V0];
            unfold Rminus; rewrite Rplus_opp_r, Rabs_R0; exact U. }
      unfold inv0, vecNorm in FI. cbn [nsqrt DN DNum] in FI.
      change (sum emapdim (fun i => (get xi i * get xi i)%num)) with (S_ L xi 3) in FI.
      assert (IE : inv0 = Bsqrt mode_NE (S_ L xi 3)) by reflexivity.
      destruct (sqrt_fin _ FI) as (FS & PS & VS). destruct (S_err L xi 3 ltac:(lia) FS) as [_ ES].
      destruct tiny_lo as [FT VT].
      assert (LO : bpow radix2 (-300) < B2R inv0).
      { cbn [nltb DN DNum] in LT. apply Rle_lt_trans with (1 := VT). rewrite IE in LT |- *.
        rewrite Bltb_correct in LT by assumption. apply Rlt_bool_true_iff in LT || (revert LT; case Rlt_bool_spec; [intros; assumption|discriminate]). }
      assert (RO : bpow radix2 (-301) <= sqrt (B2R (S_ L xi 3))).
      { rewrite IE, VS in LO. pose proof (rnd_err (sqrt (B2R (S_ L xi 3)))) as H.
        pose proof (sqrt_pos (B2R (S_ L xi 3))) as SP. rewrite (Rabs_pos_eq _ SP) in H.
        pose proof (eta_small (bpow radix2 (-301)) ltac:(apply bpow_le; lia)) as ET.
        assert (E2 : bpow radix2 (-300) = 2 * bpow radix2 (-301)).
        { change (-300)%Z with (1 + -301)%Z. rewrite bpow_plus. reflexivity. }
        apply abs_in in H. pose proof (bpow_gt_0 radix2 (-301)). unfold uu in *. lra. }
      assert (SO : bpow radix2 (-602) <= B2R (S_ L xi 3)).
      { rewrite <- (sqrt_sqrt _ PS). change (-602)%Z with (-301 + -301)%Z. rewrite bpow_plus.
        apply Rmult_le_compat; auto using bpow_ge_0. }
      assert (HN : bpow radix2 (-900) <= N_ L xi 3).
      { apply Rle_trans with (bpow radix2 (-603)); [apply bpow_le; lia|].
        assert (E2 : bpow radix2 (-602) = 2 * bpow radix2 (-603)).
        { change (-602)%Z with (1 + -603)%Z. rewrite bpow_plus. reflexivity. }
        pose proof (eta_small (bpow radix2 (-603)) ltac:(apply bpow_le; lia)) as ET.
        apply abs_in in ES. pose proof (bpow_gt_0 radix2 (-603)). pose proof (N_nonneg L xi 3). unfold uu in *. lra. }
      assert (FX : forall i, (i < 3)%nat -> fin (get xi i)).
      { intros i Hi. apply (sum_fin L (get xi) (get xi) 3 FS i Hi). }
      set (rho := sqrt (N_ L xi 3)).
      assert (RP : 0 < rho). { apply sqrt_lt_R0. apply Rlt_le_trans with (2 := HN). apply bpow_gt_0. }
      assert (RS : rho * rho = N_ L xi 3) by (apply sqrt_sqrt, N_nonneg).
      exists (B2R (get xi 0) / rho), (B2R (get xi 1) / rho), (B2R (get xi 2) / rho).
      assert (ENT : forall i, (i < 3)%nat -> near (get ax i) (B2R (get xi i) / rho) (7.5 * uu)).
      { intros i Hi. unfold ax, vecsVxa. rewrite get_tab by assumption. cbn [nmul ndiv nZ DN DNum]. rewrite IE.
        destruct (sd_ok L _ _ FS PS ES HN) as [FD _].
        destruct (dir_entry L _ _ FS PS ES HN (get xi i) (FX i Hi) (N_le L xi 3 i Hi)) as (_ & D2 & D3). fold rho in D3.
        rewrite Rmult_comm in D2.
        destruct (mul_ok _ (get xi i) FD (FX i Hi)) as [G1 G2]. { pose proof big_10. unfold DN in *. lra. }
        split; [exact G1|]. rewrite G2, Rmult_comm. exact D3. }
      split; [|repeat split; apply ENT; lia].
      unfold N_ in RS. cbn [sqs] in RS. unfold DN in *.
      set (x0 := B2R (get xi 0)) in *. set (x1 := B2R (get xi 1)) in *. set (x2 := B2R (get xi 2)) in *.
      clear - RS RP. clearbody x0 x1 x2 rho.
      apply Rmult_eq_reg_r with (rho * rho); [|nra]. rewrite Rmult_1_l. rewrite RS at 2. field. lra. }
    destruct AX as (z0 & z1 & z2 & UZ & [FZ0 EZ0] & [FZ1 EZ1] & [FZ2 EZ2]).
    assert (FA : fin a).
    { unfold a. cbn [nmul DN DNum]. apply mul_ok; [exact FI|exact FH|]. unfold DN in *. rewrite VH, Rabs_mult, (Rabs_pos_eq (/ 2)) by lra.
      pose proof (abs_B2R_lt_emax 53 1024 inv0) as H. unfold big.
      assert (E2 : bpow radix2 1024 = 2 * bpow radix2 1023).
      { change 1024%Z with (1 + 1023)%Z. rewrite bpow_plus. reflexivity. }
      rewrite E2 in H. lra. }
    destruct (proj1 (TR a) FA) as (FS & FC & ES & EC).
    assert (U2 : / 2 ^ 52 = 2 * uu) by (unfold uu; cbn [pow]; lra). rewrite U2 in ES, EC. clear U2.
    set (t := B2R a) in *.
    pose proof (sin2_cos2 t) as SC. unfold Rsqr in SC.
    assert (UB : unit4r (cos t) (sin t * z0) (sin t * z1) (sin t * z2)).
    { unfold unit4r. transitivity (cos t * cos t + sin t * sin t * (z0 * z0 + z1 * z1 + z2 * z2)); [ring|]. rewrite UZ. lra. }
    assert (Z1 : Rabs z0 <= 1 /\ Rabs z1 <= 1 /\ Rabs z2 <= 1) by (repeat split; apply abs_le; nra).
    destruct Z1 as (Z0 & Z1 & Z2). assert (SS : Rabs (sin t) <= 1) by (apply abs_le, SIN_bound).
    exists (cos t), (sin t * z0), (sin t * z1), (sin t * z2). split; [exact UB|].
    split; [split; [exact FC|unfold uu in *; lra]|].
    split; [|split]; apply prod_err2; assumption.
  Qed.

  Lemma nan_prod a b : is_nan (get b 0) = true -> all_nan (quat_prod a b).
  Proof.
    intros H. unfold quat_prod. cbv zeta. cbn [nadd nsub nmul DN DNum].
    repeat constructor; repeat (first [apply sub_nan | apply add_nan | apply mul_nan]);
      auto 8 using mul_nan, add_nan, sub_nan.
  Qed.
  Lemma nan_prod_l a b : is_nan (get a 0) = true -> all_nan (quat_prod a b).
  Proof.
    intros H. unfold quat_prod. cbv zeta. cbn [nadd nsub nmul DN DNum].
    repeat constructor; auto 12 using mul_nan, add_nan, sub_nan.
  Qed.
  Lemma nan_normalize q : list4 q -> all_nan q -> is_nan (get (vecsVNormalize 4 q) 0) = true.
  Proof.
    intros (a & b & c & d & ->) H. inversion H; subst. unfold vecsVNormalize, vecsVsa. cbv zeta. rewrite get_tab by lia.
    cbn [nmul DN DNum]. apply mul_nan. left. assumption.
  Qed.

  (** one update of the orientation *)
  Lemma quat_update q xi : list4 q -> let q' := get_c_quat (emap_to_quat xi) (vecsVNormalize 4 q) in
    (all_nan q -> all_nan q') /\
    (finite q -> bpow radix2 (-900) <= norm2 q <= bpow radix2 1000 ->
       (is_finite (vecNorm emapdim xi) = false /\ all_nan q') \/ finite q' /\ Rabs (norm2 q' - 1) <= / 10 ^ 13).
  Proof.
    intros L4. cbv zeta. unfold get_c_quat. split.
    - intros H. apply nan_prod_l. apply nan_normalize; assumption.
    - intros F B. destruct (normalize_near L q L4 F B) as (Z0 & Z1 & Z2 & Z3 & UZ & N0 & N1 & N2 & N3 & _).
      destruct (emap_near xi) as [[X Y] | (B0 & B1 & B2 & B3 & UB & M0 & M1 & M2 & M3)].
      + left. split; [exact X|]. apply nan_prod. exact Y.
      + right. apply (prod_near L _ _ Z0 Z1 Z2 Z3 B0 B1 B2 B3); assumption.
  Qed.

  (** moderate rotation increments do not overflow *)
  Lemma norm_fin xi : (forall i, (i < 3)%nat -> fin (get xi i) /\ Rabs (B2R (get xi i)) <= bpow radix2 400) -> is_finite (vecNorm emapdim xi) = true.
  Proof.
    intros H. unfold vecNorm. cbn [nsqrt DN DNum]. change (sum emapdim (fun i => (get xi i * get xi i)%num)) with (S_ L xi 3).
    assert (B : forall i, (i < 3)%nat -> B2R (get xi i) * B2R (get xi i) <= bpow radix2 800).
    { intros i Hi. destruct (H i Hi) as [_ A]. rewrite <- (Rabs_pos_eq (_ * _)) by apply Rle_0_sqr. rewrite Rabs_mult.
      change 800%Z with (400 + 400)%Z. rewrite bpow_plus. apply Rmult_le_compat; auto using Rabs_pos. }
    assert (F : fin (S_ L xi 3)).
    { apply S_fwd; [lia|intros i Hi; apply H; assumption|]. unfold N_. cbn [sqs].
      pose proof (B 0%nat ltac:(lia)). pose proof (B 1%nat ltac:(lia)). pose proof (B 2%nat ltac:(lia)).
      assert (X : bpow radix2 802 <= bpow radix2 1000) by (apply bpow_le; lia).
      assert (E2 : bpow radix2 802 = 4 * bpow radix2 800). { change 802%Z with (2 + 800)%Z. rewrite bpow_plus. reflexivity. }
      pose proof (bpow_gt_0 radix2 800). unfold DN in *. lra. }
    apply sqrt_ok; [exact F|]. apply (S_err L xi 3 ltac:(lia) F).
  Qed.
  Lemma scale_fin (x : list dbl) : (forall i, (i < 3)%nat -> fin (get x i) /\ Rabs (B2R (get x i)) <= bpow radix2 400) ->
    is_finite (vecNorm emapdim (vecsVxa 3 r_scale x)) = true.
  Proof.
    intros H. apply norm_fin. intros i Hi. destruct (H i Hi) as [F A]. unfold vecsVxa. rewrite get_tab by assumption.
    unfold r_scale. cbn [nmul nlit DN DNum].
    assert (E : Rlit 1 (-2) = / 100) by (cbv [Rlit]; cbn; lra). rewrite E.
    destruct (R2D_ok (/ 100)) as [FR VR]. { rewrite Rabs_pos_eq by lra. pose proof big_10. lra. }
    assert (R1 : Rabs (B2R (R2D (/ 100))) <= 1).
    { rewrite VR. pose proof (rnd_err (/ 100)) as K. rewrite (Rabs_pos_eq (/ 100)) in K by lra. pose proof eta_uu. apply abs_le in K. apply abs_le. unfold uu in *. lra. }
    assert (P : Rabs (B2R (R2D (/ 100)) * B2R (get x i)) <= bpow radix2 400).
    { rewrite Rabs_mult, <- (Rmult_1_l (bpow radix2 400)). apply Rmult_le_compat; auto using Rabs_pos. }
    assert (BB : bpow radix2 400 <= big) by (apply bpow_le; lia).
    destruct (mul_ok _ _ FR F) as [G1 G2]; [unfold DN in *; lra|]. split; [exact G1|]. rewrite G2. unfold rnd.
    apply abs_round_le_generic; [apply fexp_correct; apply dprec|apply valid_rnd_N| |exact P].
    apply generic_format_bpow. unfold dfexp. cbv. discriminate.
  Qed.
End L.
