(** Doubles: trace of the stress, moduli. *)
From Coq Require Import List ZArith Bool Lia PeanoNat Reals Lra Psatz.
From Flocq Require Import Core IEEE754.BinarySingleNaN.
From Verif Require Import Num Arr NumR Util SlipGeom Eos Hard KinVoce KinKMBalD Elast Evptn MatModel Cases Const
  P_Sngl P_Batch P_Batch2 P_Batch3 P_Api P_Builtin SpecApi P_Gen NumD P_Dbl P_Dbl2 P_Dbl3 P_Dbl4 P_Dbl5 P_Dbl6 P_Dbl7 SpecDbl.
Import ListNotations.
Local Open Scope R_scope.

Lemma rlit_neg m p : Rlit m (Zneg p) = IZR m / IZR (10 ^ Zpos p). Proof. reflexivity. Qed.
Lemma c6i_val : fin (dconst lit_SQRT6I) /\ Rabs (B2R (dconst lit_SQRT6I) - 0.408248290463863016366214012450) <= uu * 0.41.
Proof.
  unfold dconst. assert (E : Rlit (fst lit_SQRT6I) (snd lit_SQRT6I) = 0.408248290463863016366214012450).
  { cbn [fst snd lit_SQRT6I]. rewrite rlit_neg. replace (10 ^ 30)%Z with 1000000000000000000000000000000%Z by reflexivity. lra. }
  rewrite E. clear E. set (x := 0.408248290463863016366214012450).
  assert (X : 0.4082 <= x <= 0.4083) by (unfold x; lra).
  destruct (R2D_ok x) as [F V]. { rewrite Rabs_pos_eq by lra. pose proof big_10. lra. }
  split; [exact F|]. rewrite V. pose proof (rnd_err x) as H. rewrite (Rabs_pos_eq x) in H by lra. pose proof eta_uu. clearbody x. unfold uu in *. lra.
Qed.
Lemma cb3_val : fin (dconst lit_SQRT2B3) /\ Rabs (B2R (dconst lit_SQRT2B3) - 0.816496580927726032732428024904) <= uu * 0.82.
Proof.
  unfold dconst. assert (E : Rlit (fst lit_SQRT2B3) (snd lit_SQRT2B3) = 0.816496580927726032732428024904).
  { cbn [fst snd lit_SQRT2B3]. rewrite rlit_neg. replace (10 ^ 30)%Z with 1000000000000000000000000000000%Z by reflexivity. lra. }
  rewrite E. clear E. set (x := 0.816496580927726032732428024904).
  assert (X : 0.8164 <= x <= 0.8165) by (unfold x; lra).
  destruct (R2D_ok x) as [F V]. { rewrite Rabs_pos_eq by lra. pose proof big_10. lra. }
  split; [exact F|]. rewrite V. pose proof (rnd_err x) as H. rewrite (Rabs_pos_eq x) in H by lra. pose proof eta_uu. clearbody x. unfold uu in *. lra.
Qed.

Lemma eta_320 : 30 * eta <= / 10 ^ 320.
Proof.
  unfold eta. change (-1075)%Z with (- (1075))%Z. rewrite bpow_opp.
  assert (P : 0 < 10 ^ 320) by (apply pow_lt; lra).
  assert (Q : 30 * 10 ^ 320 <= bpow radix2 1075).
  { rewrite <- (IZR_Zpower radix2) by lia. rewrite pow_IZR. replace (Z.of_nat 320) with 320%Z by reflexivity.
    change 30 with (IZR 30). rewrite <- mult_IZR. apply IZR_le. vm_compute. discriminate. }
  pose proof (bpow_gt_0 radix2 1075) as B. set (x := 10 ^ 320) in *. set (y := bpow radix2 1075) in *. clearbody x y.
  apply Rmult_le_reg_r with x; [exact P|]. rewrite Rinv_l by lra. apply Rmult_le_reg_r with y; [exact B|].
  replace (30 * / y * x * y) with (30 * x) by (field; lra). lra.
Qed.

Lemma trace_bound (t1 v1 : dbl) :
  let t2 := Bmult mode_NE (dconst lit_SQRT6I) v1 in
  let s0 := Bminus mode_NE t1 t2 in let s1 := Bminus mode_NE (Bopp t1) t2 in let s2 := Bmult mode_NE (dconst lit_SQRT2B3) v1 in
  fin s0 -> fin s1 -> fin s2 ->
  Rabs (B2R s0 + B2R s1 + B2R s2) <= 6 * uu * (Rabs (B2R s0) + Rabs (B2R s1) + Rabs (B2R s2)) + 30 * eta.
Proof.
  cbv zeta. intros F0 F1 F2. destruct c6i_val as [FC VC]. destruct cb3_val as [FB VB].
  set (c := dconst lit_SQRT6I) in *. set (d := dconst lit_SQRT2B3) in *. clearbody c d.
  destruct (sub_fin _ _ F0) as (Ft1 & Ft2 & V0). destruct (sub_fin _ _ F1) as (_ & _ & V1). destruct (mul_fin _ _ F2) as (_ & Fv & V2).
  destruct (mul_fin _ _ Ft2) as (_ & _ & Vt). rewrite B2R_Bopp in V1.
  set (t2 := Bmult mode_NE c v1) in *. set (s0 := Bminus mode_NE t1 t2) in *. set (s1 := Bminus mode_NE (Bopp t1) t2) in *. set (s2 := Bmult mode_NE d v1) in *.
  pose proof (rnd_err (B2R t1 - B2R t2)) as E0. rewrite <- V0 in E0. pose proof (rnd_err (- B2R t1 - B2R t2)) as E1. rewrite <- V1 in E1.
  pose proof (rnd_err (B2R d * B2R v1)) as E2. rewrite <- V2 in E2. pose proof (rnd_err (B2R c * B2R v1)) as E3. rewrite <- Vt in E3.
  clear V0 V1 V2 Vt F0 F1 F2 Ft1 Ft2 Fv FC FB.
  set (S0 := B2R s0) in *. set (S1 := B2R s1) in *. set (S2 := B2R s2) in *. set (T1 := B2R t1) in *. set (T2 := B2R t2) in *. set (v := B2R v1) in *.
  set (C := B2R c) in *. set (D := B2R d) in *. clearbody S0 S1 S2 T1 T2 v C D. clear s0 s1 s2 t1 t2 v1 c d.
  pose proof (Rabs_pos v) as WP. set (w := Rabs v) in *.
  assert (C1 : Rabs (C * v) <= 0.41 * w). { rewrite Rabs_mult. apply Rmult_le_compat_r; [exact WP|]. apply abs_le in VC. apply abs_le. unfold uu in *. lra. }
  assert (D1 : Rabs (D * v) <= 0.82 * w). { rewrite Rabs_mult. apply Rmult_le_compat_r; [exact WP|]. apply abs_le in VB. apply abs_le. unfold uu in *. lra. }
  assert (D2 : 0.81 * w <= Rabs (D * v)). { rewrite Rabs_mult. apply Rmult_le_compat_r; [exact WP|]. apply abs_le in VB. rewrite Rabs_pos_eq; unfold uu in *; lra. }
  assert (DC : Rabs (D * v - 2 * (C * v)) <= 1.7 * uu * w).
  { replace (D * v - 2 * (C * v)) with ((D - 2 * C) * v) by ring. rewrite Rabs_mult. apply Rmult_le_compat_r; [exact WP|].
    apply abs_le in VC, VB. apply abs_le. unfold uu in *. lra. }
  clearbody w. set (cv := C * v) in *. set (dv := D * v) in *. clearbody cv dv. clear VC VB C D v.
  set (a0 := Rabs (T1 - T2)) in *. assert (A0 : a0 <= Rabs S0 + (uu * a0 + eta)).
  { apply Rle_trans with (Rabs S0 + Rabs (S0 - (T1 - T2))); [|lra]. unfold a0.
    replace (T1 - T2) with (S0 - (S0 - (T1 - T2))) at 1 by ring. apply Rle_trans with (1 := Rabs_triang _ _). rewrite Rabs_Ropp. lra. }
  set (a1 := Rabs (- T1 - T2)) in *. assert (A1 : a1 <= Rabs S1 + (uu * a1 + eta)).
  { apply Rle_trans with (Rabs S1 + Rabs (S1 - (- T1 - T2))); [|lra]. unfold a1.
    replace (- T1 - T2) with (S1 - (S1 - (- T1 - T2))) at 1 by ring. apply Rle_trans with (1 := Rabs_triang _ _). rewrite Rabs_Ropp. lra. }
  set (a2 := Rabs dv) in *. assert (A2 : a2 <= Rabs S2 + (uu * a2 + eta)).
  { apply Rle_trans with (Rabs S2 + Rabs (S2 - dv)); [|lra]. unfold a2.
    replace dv with (S2 - (S2 - dv)) at 1 by ring. apply Rle_trans with (1 := Rabs_triang _ _). rewrite Rabs_Ropp. lra. }
  pose proof (Rabs_pos S0). pose proof (Rabs_pos S1). pose proof (Rabs_pos S2). pose proof eta_pos.
  set (b0 := Rabs S0) in *. set (b1 := Rabs S1) in *. set (b2 := Rabs S2) in *. set (g := Rabs cv) in *.
  clearbody a0 a1 a2 b0 b1 b2 g.
  apply abs_le in E0, E1, E2, E3, DC. apply abs_le. set (e := eta) in *. clearbody e. unfold uu in *. lra.
Qed.

(** fmax *)
Lemma dmax_floor (x y : dbl) : is_nan x = false -> is_nan (dmax x y) = false /\ Bleb x (dmax x y) = true.
Proof.
  intros HX. unfold dmax. rewrite HX. destruct (is_nan y) eqn:HY.
  - split; [exact HX|]. apply leb_pos; auto. lra.
  - destruct (Bltb x y) eqn:E; (split; [assumption|]).
    + apply leb_pos; auto. unfold Bltb in E. unfold SpecFloat.SFltb in E. 
      assert (X : Bleb x y = true). { unfold Bleb, SpecFloat.SFleb. destruct SpecFloat.SFcompare as [[| |]|]; (discriminate || reflexivity). }
      apply leb_pos in X; auto.
    + apply leb_pos; auto. lra.
Qed.

(** ** Bounded doubles *)
Definition hh : R := bpow radix2 1000.
Lemma hh_1 : 1 <= hh. Proof. change 1 with (bpow radix2 0). apply bpow_le. lia. Qed.
Lemma hh_big : 1000 * hh <= big.
Proof. unfold hh, big. change 1023%Z with (23 + 1000)%Z. rewrite bpow_plus. apply Rmult_le_compat_r; [apply bpow_ge_0|]. cbn. lra. Qed.
Definition bnd (x : dbl) (a : R) : Prop := fin x /\ Rabs (B2R x) <= a * hh.
Definition small (x : dbl) (a : R) : Prop := fin x /\ Rabs (B2R x) <= a.
Lemma rnd_abs x : Rabs (rnd x) <= 1.01 * Rabs x + eta.
Proof.
  pose proof (rnd_err x) as H. replace (rnd x) with (x + (rnd x - x)) by ring. apply Rle_trans with (1 := Rabs_triang _ _).
  pose proof (Rabs_pos x). unfold uu in *. lra.
Qed.
Lemma bnd_add x y a b : bnd x a -> bnd y b -> 0 <= a -> 0 <= b -> a + b <= 900 -> bnd (Bplus mode_NE x y) (1.02 * (a + b) + 0.01).
Proof.
  intros [FX HX] [FY HY] Ha Hb Hab. pose proof hh_1 as H1. pose proof hh_big as HB. pose proof eta_uu as EU. unfold uu in EU.
  assert (K : Rabs (B2R x + B2R y) <= (a + b) * hh) by (apply Rle_trans with (1 := Rabs_triang _ _); lra).
  assert (K2 : 0 <= (a + b) * hh <= 900 * hh) by (split; [apply Rmult_le_pos; lra|apply Rmult_le_compat_r; lra]).
  destruct (add_ok x y FX FY) as [F V]; [lra|]. split; [exact F|]. rewrite V. pose proof (rnd_abs (B2R x + B2R y)). lra.
Qed.
Lemma bnd_sub x y a b : bnd x a -> bnd y b -> 0 <= a -> 0 <= b -> a + b <= 900 -> bnd (Bminus mode_NE x y) (1.02 * (a + b) + 0.01).
Proof.
  intros [FX HX] [FY HY] Ha Hb Hab. pose proof hh_1 as H1. pose proof hh_big as HB. pose proof eta_uu as EU. unfold uu in EU.
  assert (K : Rabs (B2R x - B2R y) <= (a + b) * hh).
  { unfold Rminus. apply Rle_trans with (1 := Rabs_triang _ _). rewrite Rabs_Ropp. lra. }
  assert (K2 : 0 <= (a + b) * hh <= 900 * hh) by (split; [apply Rmult_le_pos; lra|apply Rmult_le_compat_r; lra]).
  destruct (sub_ok x y FX FY) as [F V]; [lra|]. split; [exact F|]. rewrite V. pose proof (rnd_abs (B2R x - B2R y)). lra.
Qed.
Lemma bnd_mul x y a b : small x a -> bnd y b -> 0 <= a -> 0 <= b -> a * b <= 900 -> bnd (Bmult mode_NE x y) (1.02 * (a * b) + 0.01).
Proof.
  intros [FX HX] [FY HY] Ha Hb Hab. pose proof hh_1 as H1. pose proof hh_big as HB. pose proof eta_uu as EU. unfold uu in EU.
  assert (K : Rabs (B2R x * B2R y) <= a * b * hh).
  { rewrite Rabs_mult, Rmult_assoc. apply Rmult_le_compat; auto using Rabs_pos. }
  assert (K2 : 0 <= (a * b) * hh <= 900 * hh) by (split; [apply Rmult_le_pos; [apply Rmult_le_pos; lra|lra]|apply Rmult_le_compat_r; lra]).
  destruct (mul_ok x y FX FY) as [F V]; [lra|]. split; [exact F|]. rewrite V. pose proof (rnd_abs (B2R x * B2R y)). lra.
Qed.
Lemma bnd_mulr x y a b : small x a -> bnd y b -> 0 <= a -> 0 <= b -> a * b <= 900 -> bnd (Bmult mode_NE y x) (1.02 * (a * b) + 0.01).
Proof.
  intros [FX HX] [FY HY] Ha Hb Hab. pose proof hh_1 as H1. pose proof hh_big as HB. pose proof eta_uu as EU. unfold uu in EU.
  assert (K : Rabs (B2R y * B2R x) <= a * b * hh).
  { rewrite Rmult_comm, Rabs_mult, Rmult_assoc. apply Rmult_le_compat; auto using Rabs_pos. }
  assert (K2 : 0 <= (a * b) * hh <= 900 * hh) by (split; [apply Rmult_le_pos; [apply Rmult_le_pos; lra|lra]|apply Rmult_le_compat_r; lra]).
  destruct (mul_ok y x FY FX) as [F V]; [lra|]. split; [exact F|]. rewrite V. pose proof (rnd_abs (B2R y * B2R x)). lra.
Qed.
Lemma bnd_notnan x a : bnd x a -> is_nan x = false.
Proof. intros [F _]. destruct x; try discriminate; reflexivity. Qed.
Lemma Z2D_small z : (Z.abs z <= 6)%Z -> small (Z2D z) 6.
Proof. intros H. destruct (Z2D_ok z) as [F V]; [lia|]. split; [exact F|]. rewrite V, <- abs_IZR. now apply IZR_le. Qed.
Lemma third_small z : (0 <= z <= 4)%Z -> small (Bdiv mode_NE (Z2D z) (Z2D 3)) 1.4.
Proof.
  intros H. destruct (Z2D_ok z ltac:(lia)) as [F1 V1]. destruct (Z2D_ok 3 ltac:(lia)) as [F3 V3].
  assert (K : Rabs (B2R (Z2D z) / B2R (Z2D 3)) <= 4 / 3).
  { rewrite V1, V3. destruct H as [H1 H2]. apply IZR_le in H1, H2. apply abs_le. lra. }
  destruct (div_ok (Z2D z) (Z2D 3) F1) as [F V]; [rewrite V3; lra|pose proof big_10; lra|]. split; [exact F|]. rewrite V.
  pose proof (rnd_abs (B2R (Z2D z) / B2R (Z2D 3))). pose proof eta_uu. unfold uu in *. lra.
Qed.
Lemma lit_small x : 0 <= x <= 1 -> small (R2D x) 2.
Proof.
  intros H. destruct (R2D_ok x) as [F V]; [rewrite Rabs_pos_eq by lra; pose proof big_10; lra|]. split; [exact F|]. rewrite V.
  pose proof (rnd_abs x) as K. rewrite (Rabs_pos_eq x) in K by lra. pose proof eta_uu. unfold uu in *. lra.
Qed.

Section L.
  Variable L : Libm.
  Let DN : Num dbl := DNum L.
  #[local] Existing Instance DN.

  Lemma dcall_trace hs c b i : dgood L hs c b -> (i < d_n b)%nat ->
    let s0 := dval (d_s b) (d_m1 b) AS i 0 in let s1 := dval (d_s b) (d_m1 b) AS i 1 in let s2 := dval (d_s b) (d_m1 b) AS i 2 in
    fin s0 -> fin s1 -> fin s2 ->
    Rabs (B2R s0 + B2R s1 + B2R s2) <= / 10 ^ 15 * (Rabs (B2R s0) + Rabs (B2R s1) + Rabs (B2R s2)) + / 10 ^ 320.
  Proof.
    intros G Hi. cbv zeta. destruct (dres L hs c b i G Hi) as (mat & tol & h_u & p & r & v & nf & gm & _ & _ & HP & HR & Rs).
    pose proof (g_stress _ _ _ _ _ _ _ _ _ _ _ _ _ _ Rs) as E.
    pose proof (dv_out L hs c b i G Hi AS) as HO. unfold pt_of, pt_at in E. cbn [pt_stress] in E.
    change (cell (mm_strides (d_s b)) (c_nH c) (c_nslip c) (d_mtan b) (d_m1 b) AS i) with (cell_of c (d_s b) (d_mtan b) (d_m1 b) AS i) in E.
    unfold DN in *. rewrite <- (HO 0%nat) by (cbn; lia). rewrite <- (HO 1%nat) by (cbn; lia). rewrite <- (HO 2%nat) by (cbn; lia). rewrite E.
    unfold stress_out, vecdsToSvecP. cbv zeta. set (X := _ ++ _).
    match goal with |- fin (get (?a :: ?b' :: ?c' :: ?l) 0) -> _ => change (get (a :: b' :: c' :: l) 0) with a; change (get (a :: b' :: c' :: l) 1) with b'; change (get (a :: b' :: c' :: l) 2) with c' end.
    intros F0 F1 F2.
    pose proof (trace_bound (sqr2i * get X 0)%num (get X 1) F0 F1 F2) as TB. cbv zeta in TB.
    pose proof eta_320 as ET.
    refine (Rle_trans _ _ _ TB _). apply Rplus_le_compat; [|exact ET]. apply Rmult_le_compat_r.
    - repeat apply Rplus_le_le_0_compat; apply Rabs_pos.
    - unfold uu. cbn [pow]. lra.
  Qed.

  Lemma zb : bnd (Z2D 0) 0.01.
  Proof. destruct (Z2D_ok 0 ltac:(lia)) as [F V]. split; [exact F|]. rewrite V, Rabs_R0. pose proof hh_1. lra. Qed.

  (** moduli computed from bounded elastic constants are numbers *)
  Ltac bb := match goal with
    | |- bnd (Bplus mode_NE _ _) _ => eapply bnd_add; [bb | bb | lra | lra | lra]
    | |- bnd (Bminus mode_NE _ _) _ => eapply bnd_sub; [bb | bb | lra | lra | lra]
    | |- bnd (Bmult mode_NE _ _) _ => first [eapply bnd_mul; [ss | bb | lra | lra | lra] | eapply bnd_mulr; [ss | bb | lra | lra | lra]]
    | |- bnd (Z2D 0) _ => apply zb
    | |- bnd _ _ => eassumption
    end
  with ss := match goal with
    | |- small (Z2D _) _ => apply Z2D_small; lia
    | |- small (Bdiv mode_NE (Z2D _) (Z2D 3)) _ => apply third_small; lia
    | |- small _ _ => eassumption
    end.
  Lemma cubic_bnd p : (forall k, (k < 3)%nat -> bnd (get p k) 1) ->
    exists a b, bnd (el_K_bulkMod (cubic_setParams p)) a /\ bnd (el_K_gmod (cubic_setParams p)) b.
  Proof.
    intros H. pose proof (H 0%nat ltac:(lia)) as H0. pose proof (H 1%nat ltac:(lia)) as H1. pose proof (H 2%nat ltac:(lia)) as H2. clear H.
    unfold cubic_setParams. cbn [el_K_bulkMod el_K_gmod]. unfold onethird, one, two, three, six. cbn [nadd nsub nmul ndiv nZ nlit DN DNum].
    set (x := get p 0) in *. set (y := get p 1) in *. set (z := get p 2) in *. clearbody x y z.
    assert (LS : small (R2D (Rlit 2 (-1))) 2). { apply lit_small. rewrite rlit_neg. change (10 ^ 1)%Z with 10%Z. lra. }
    do 2 eexists. split; bb.
  Qed.
  Lemma hexag_bnd p : (forall k, (k < 5)%nat -> bnd (get p k) 1) ->
    exists a b, bnd (el_K_bulkMod (hexag_setParams p)) a /\ bnd (el_K_gmod (hexag_setParams p)) b.
  Proof.
    intros H. pose proof (H 0%nat ltac:(lia)) as H0. pose proof (H 1%nat ltac:(lia)) as H1. pose proof (H 2%nat ltac:(lia)) as H2. pose proof (H 3%nat ltac:(lia)) as H3. pose proof (H 4%nat ltac:(lia)) as H4. clear H.
    unfold hexag_setParams. cbv zeta. cbn [el_K_bulkMod el_K_gmod]. unfold vecsssum. rewrite !sum_S, sum_0.
    unfold onethird, twothird, fourthirds, one, two, three.
    set (x := get p 0) in *. set (y := get p 1) in *. set (z := get p 2) in *. set (u := get p 3) in *. set (v := get p 4) in *. clearbody x y z u v.
    match goal with |- context [get (?a :: ?b' :: ?c' :: ?d :: ?e :: nil) 0] =>
      change (get [a; b'; c'; d; e] 0) with a; change (get [a; b'; c'; d; e] 1) with b'; change (get [a; b'; c'; d; e] 2) with c';
      change (get [a; b'; c'; d; e] 3) with d; change (get [a; b'; c'; d; e] 4) with e end.
    cbn [nadd nsub nmul ndiv nZ nlit DN DNum].
    assert (LS : small (Bmult mode_NE (R2D (Rlit 5 (-1))) (R2D (Rlit 2 (-1)))) 5).
    { destruct (lit_small (Rlit 5 (-1))) as [F1 V1]. { rewrite rlit_neg. change (10 ^ 1)%Z with 10%Z. lra. }
      destruct (lit_small (Rlit 2 (-1))) as [F2 V2]. { rewrite rlit_neg. change (10 ^ 1)%Z with 10%Z. lra. }
      assert (K : Rabs (B2R (R2D (Rlit 5 (-1))) * B2R (R2D (Rlit 2 (-1)))) <= 2 * 2) by (rewrite Rabs_mult; apply Rmult_le_compat; auto using Rabs_pos).
      destruct (mul_ok _ _ F1 F2) as [F V]; [pose proof big_10; lra|]. split; [exact F|]. rewrite V.
      pose proof (rnd_abs (B2R (R2D (Rlit 5 (-1))) * B2R (R2D (Rlit 2 (-1))))). pose proof eta_uu. unfold uu in *. lra. }
    do 2 eexists. split; bb.
  Qed.

  Definition gel_of (c : MClass dbl) (pars : list dbl) : Elast dbl := c_elSet c (sub pars (3 + c_sgNP c) (c_elNP c)).
  Lemma din_use hs c s pars : builtin hs c -> in_use c s pars ->
    exists bulk sg kin eos tol, el_getBulkMod (gel_of c pars) = Some bulk /\ eos_bulk eos = bulk /\
      mm_ready s = Some ({| m_sg := sg; m_kin := kin; m_el := gel_of c pars; m_eos := eos |}, tol).
  Proof.
    intros HB [s0 o pars' st s1 ops HR HI HF].
    destruct (init_done _ _ _ _ _ _ HI) as ((HL & _) & a & (P1 & P2 & P3 & P4) & _ & ES).
    change (pa_el a = gel_of c pars') in P2. rewrite P2 in P4.
    exists (pa_bulk a), (pa_sg a), (pa_kin a), (parts_eos c pars' a), (get pars' 2). split; [exact P4|]. split; [reflexivity|].
    destruct (run_harmless c ops s1 HF) as (E & _). rewrite E, ES. unfold mm_ready, with_parts, with_scalars, with_vecs.
    cbn [mm_sg mm_kin mm_el mm_eos mm_tol]. rewrite P2. reflexivity.
  Qed.
  Lemma el_kind hs (c : MClass dbl) : builtin hs c -> (c_elSet c = cubic_setParams /\ c_elNP c = 3%nat) \/ (c_elSet c = hexag_setParams /\ c_elNP c = 6%nat).
  Proof.
    intros HB. destruct HB as [E | [E | [E | [E | [E | [E | E]]]]]]; rewrite E;
      first [left; split; reflexivity | right; split; reflexivity].
  Qed.
  Lemma mods_bnd hs c pars : builtin hs c ->
    (forall k, (k < c_elNP c)%nat -> bnd (get pars (3 + c_sgNP c + k)) 1) ->
    exists a b, bnd (el_K_bulkMod (gel_of c pars)) a /\ bnd (el_K_gmod (gel_of c pars)) b.
  Proof.
    intros HB H. unfold gel_of.
    destruct (el_kind hs c HB) as [[E1 E2]|[E1 E2]]; rewrite E1, E2 in *; [apply cubic_bnd | apply hexag_bnd]; intros k Hk;
      (rewrite get_sub by lia); apply H; lia.
  Qed.

  Lemma dcall_moduli hs c b i pars : dgood L hs c b -> (i < d_n b)%nat -> in_use c (d_s b) pars ->
    (forall k, (k < c_elNP c)%nat -> bnd (get pars (3 + c_sgNP c + k)) 1) ->
    let K := dval (d_s b) (d_m1 b) AB i 0 in let g := dval (d_s b) (d_m1 b) AB i 1 in
    is_nan K = false /\ Bleb dz K = true /\ is_nan g = false /\ Bltb dz g = true.
  Proof.
    intros G Hi HU HE. cbv zeta. destruct (dres L hs c b i G Hi) as (mat & tol & h_u & p & r & v & nf & gm & HM & _ & HP & HR & Rs).
    destruct (din_use hs c (d_s b) pars (proj1 G) HU) as (bulk & sg & kin & eos & tol' & EB & EE & HM').
    rewrite HM' in HM. apply (f_equal (option_map fst)) in HM. cbn [option_map fst] in HM.
    assert (X : mat = {| m_sg := sg; m_kin := kin; m_el := gel_of c pars; m_eos := eos |}) by congruence. clear HM HM'.
    pose proof (g_sdd _ _ _ _ _ _ _ _ _ _ _ _ _ _ Rs) as E. pose proof (g_gmod _ _ _ _ _ _ _ _ _ _ _ _ _ _ Rs) as EG.
    pose proof (dv_out L hs c b i G Hi AB) as HO. unfold pt_of, pt_at in E. cbn [pt_sdd] in E.
    change (cell (mm_strides (d_s b)) (c_nH c) (c_nslip c) (d_mtan b) (d_m1 b) AB i) with (cell_of c (d_s b) (d_mtan b) (d_m1 b) AB i) in E.
    unfold DN in *. rewrite <- (HO 0%nat) by (cbn; lia). rewrite <- (HO 1%nat) by (cbn; lia). rewrite E. clear E HO.
    rewrite X in EG. cbn [m_el] in EG. unfold snglUpd, updateSimple. rewrite X. cbn [m_eos].
    destruct (mods_bnd hs c pars (proj1 G) HE) as (a & a' & B1 & B2).
    assert (PB : forall x a0, bnd x a0 -> Bleb x dz = false -> 0 < B2R x).
    { intros x a0 [F _] H. rewrite Bleb_correct in H by (assumption || reflexivity). revert H. case Rle_bool_spec; [discriminate|]. intros H _. exact H. }
    unfold el_getBulkMod in EB. unfold el_getGmod in EG.
    change (nZ 0 : dbl) with dz in EB, EG. change (@nleb dbl (DNum L)) with (@Bleb 53 1024) in EB, EG.
    destruct (Bleb (el_K_bulkMod (gel_of c pars)) dz) eqn:LB; [discriminate|]. destruct (Bleb (el_K_gmod (gel_of c pars)) dz) eqn:LG; [discriminate|].
    pose proof (PB _ _ B1 LB) as PK. pose proof (PB _ _ B2 LG) as PG.
    assert (EK : el_K_bulkMod (gel_of c pars) = bulk) by (clear - EB; congruence). assert (EGm : el_K_gmod (gel_of c pars) = gm) by (clear - EG; congruence).
    rewrite EK in *. rewrite EGm in *. clear EB EG.
    match goal with |- context [get [?x; gm] 0] => change (get [x; gm] 0) with x; change (get [x; gm] 1) with gm end.
    cbn [u_bulkNew]. unfold getBulkRef. rewrite EE.
    change (@nmax dbl (DNum L)) with dmax. change (@nmul dbl (DNum L)) with (Bmult mode_NE : dbl -> dbl -> dbl).
    set (fl := Bmult mode_NE (nlit 1 (-5)) bulk).
    assert (NF : nn fl /\ is_nan fl = false).
    { destruct (lit_small (Rlit 1 (-5))) as [F1 V1]. { rewrite rlit_neg. change (10 ^ 5)%Z with 100000%Z. lra. }
      assert (P1 : 0 <= B2R (R2D (Rlit 1 (-5)))).
      { destruct (R2D_ok (Rlit 1 (-5))) as [_ V]. { rewrite rlit_neg. change (10 ^ 5)%Z with 100000%Z. rewrite Rabs_pos_eq by lra. pose proof big_10. lra. }
        rewrite V. apply rnd_nonneg. rewrite rlit_neg. change (10 ^ 5)%Z with 100000%Z. lra. }
      split.
      - apply mul_nn; apply nn_cases; right; right; split; [exact F1|exact P1|exact (proj1 B1)|lra].
      - unfold fl. change (@nlit dbl (DNum L) 1 (-5)) with (R2D (Rlit 1 (-5))). set (lc := R2D (Rlit 1 (-5))) in *. clearbody lc.
        destruct B1 as [FB1 _]. clear - F1 FB1. pose proof (Bmult_correct 53 1024 dprec demax mode_NE lc bulk) as C.
        revert C. case Rlt_bool_spec; intros H C.
        + destruct C as (_ & C & _). rewrite F1, FB1 in C. destruct (Bmult mode_NE lc bulk); try discriminate; reflexivity.
        + rewrite overflow_inf in C. exact (inf_not_nan _ _ C). }
    destruct NF as [NF1 NF2]. destruct NF1 as [NF1|NF1]; [congruence|].
    match goal with |- context [dmax fl ?y] => destruct (dmax_floor fl y NF2) as [D1 D2]; set (mx := dmax fl y) in * end.
    split; [exact D1|]. split.
    { apply leb_pos in D2; [|assumption ..]. apply leb_pos in NF1; [|reflexivity|assumption]. apply leb_pos; [reflexivity|assumption|lra]. }
    split; [exact (bnd_notnan _ _ B2)|]. destruct B2 as [F2 _]. rewrite Bltb_correct by (assumption || reflexivity). apply Rlt_bool_true. exact PG.
  Qed.
End L.
