(** Property theorems about the library on IEEE doubles, rounding included: C51-C55. *)
From Coq Require Import List ZArith Bool Lia Reals Lra String.
From Flocq Require Import Core IEEE754.BinarySingleNaN.
From Verif Require Import Num SlipGeom Hard MatModel Cases P_Batch3 P_Api P_Builtin SpecApi NumD SpecTensor SpecSlip SpecDbl SpecDblGeom
  P_Dbl P_Dbl3 P_Dbl5 P_Dbl6 P_Dbl7 P_Dbl8 P_Dbl9 P_Dbl10 P_Dbl11 P_Dbl12 P_Demo12.
Import ListNotations.
Local Open Scope R_scope.

(** ** C51: orientations keep unit length
    Any history of successful calls, any model, whatever the solver returned.  The orientation may start with any length
    between 1e-100 and 1e100.  Afterwards it is NaN, or its squared length is 1 up to 1e-13 after each call: the error does
    not grow with the number of calls. *)
Theorem C51_unit L hs c i l b0 : trig_ok L -> dchain L hs c (b0 :: l) -> (i < d_n b0)%nat ->
  (let q := dquat (d_s b0) (d_m b0) i in all_nan q \/ finite q /\ / 10 ^ 200 <= norm2 q <= 10 ^ 200) ->
  forall b, In b (b0 :: l) -> let q := dquat (d_s b) (d_m1 b) i in all_nan q \/ finite q /\ Rabs (norm2 q - 1) <= / 10 ^ 13.
Proof. intros TR. exact (unit_all L TR hs c i l b0). Qed.
(** If the solver, when it reports success, returns finite unknowns below 1e100, the orientation is never NaN. *)
Theorem C51_finite L hs c i l b0 : trig_ok L -> dchain L hs c (b0 :: l) -> (i < d_n b0)%nat ->
  (forall b, In b (b0 :: l) -> moderate_answers (d_solver b)) ->
  (let q := dquat (d_s b0) (d_m b0) i in finite q /\ / 10 ^ 200 <= norm2 q <= 10 ^ 200) ->
  forall b, In b (b0 :: l) -> let q := dquat (d_s b) (d_m1 b) i in finite q /\ Rabs (norm2 q - 1) <= / 10 ^ 13.
Proof. intros TR. exact (unit_fin L TR hs c i l b0). Qed.
(** Two points over three steps; the orientation of the second point starts as (1, 2, 0, 0). *)
Example C51_case : let l := x_hist [Z2D 1; Z2D 2; Z2D 1] x_m in trig_ok xlm /\ dchain xlm zsol x_c l /\
  (forall b, In b l -> moderate_answers (d_solver b) /\ d_n b = 2%nat) /\
  (let q := dquat x_s x_m 1 in finite q /\ / 10 ^ 200 <= norm2 q <= 10 ^ 200 /\ norm2 q = 5).
Proof.
  cbv zeta. split; [exact xlm_ok|]. split; [exact (x_chain _ _ x_m_pos)|]. split.
  - intros b Hb. destruct (x_hist_in _ _ _ Hb) as (E & N & _). rewrite E. split; [exact zsol_moderate|exact N].
  - destruct x_quat_ok as [F E]. split; [exact F|]. rewrite E. split; [exact case_range|reflexivity].
Qed.

(** ** C52: shear rates are not negative, accumulated shear does not decrease
    [<=] is the comparison of doubles.  NaN is the only exception. *)
Theorem C52_call L hs c b i : dgood L hs c b -> (i < d_n b)%nat ->
  let rate := dval (d_s b) (d_m1 b) AH i 0 in let old := dval (d_s b) (d_m b) AH i 1 in let new := dval (d_s b) (d_m1 b) AH i 1 in
  (is_nan rate = true \/ Bleb (B754_zero false) rate = true) /\
  new = Bplus mode_NE old (Bmult mode_NE rate (d_dt b)) /\
  (is_nan (d_dt b) = true \/ Bleb (B754_zero false) (d_dt b) = true -> is_nan new = true \/ Bleb old new = true).
Proof. exact (dcall_shear L hs c b i). Qed.
Theorem C52_history L hs c i l b0 : dchain L hs c (b0 :: l) -> (i < d_n b0)%nat ->
  (forall b, In b (b0 :: l) -> is_nan (d_dt b) = true \/ Bleb (B754_zero false) (d_dt b) = true) ->
  forall b, In b (b0 :: l) ->
  let rate := dval (d_s b) (d_m1 b) AH i 0 in let first := dval (d_s b0) (d_m b0) AH i 1 in let now := dval (d_s b) (d_m1 b) AH i 1 in
  (is_nan rate = true \/ Bleb (B754_zero false) rate = true) /\ (is_nan now = true \/ Bleb first now = true).
Proof. exact (dchain_shear L hs c i l b0). Qed.
Example C52_case : let l := x_hist [Z2D 1; Z2D 2; Z2D 1] x_m in dchain xlm zsol x_c l /\
  (forall b, In b l -> Bleb (B754_zero false) (d_dt b) = true).
Proof.
  cbv zeta. split; [exact (x_chain _ _ x_m_pos)|]. intros b Hb. destruct (x_hist_in _ _ _ Hb) as (_ & _ & H & _).
  destruct H as [<-|[<-|[<-|[]]]]; reflexivity.
Qed.

(** ** C53: the sign of the orientation
    The new orientation is not nearer to the antipode of the old one, up to 1e-14 of the length of the old one. *)
Theorem C53_sign L hs c b i : trig_ok L -> dgood L hs c b -> (i < d_n b)%nat ->
  let q := dquat (d_s b) (d_m b) i in let q' := dquat (d_s b) (d_m1 b) i in
  finite q -> / 10 ^ 200 <= norm2 q <= 10 ^ 200 ->
  all_nan q' \/ - (/ 10 ^ 14) * sqrt (norm2 q) <= inner4 q' q.
Proof. intros TR G Hi q q' F HN. exact (dcall_sign L hs c b i TR G Hi F (range_200 _ HN)). Qed.
Example C53_case : trig_ok xlm /\ dgood xlm zsol x_c (x_call (Z2D 1) x_m) /\
  (let q := dquat x_s x_m 1 in finite q /\ / 10 ^ 200 <= norm2 q <= 10 ^ 200 /\ norm2 q = 5).
Proof.
  split; [exact xlm_ok|]. split; [exact (x_good _ _ x_m_pos)|]. destruct x_quat_ok as [F E]. cbv zeta. rewrite E.
  split; [exact F|]. split; [exact case_range|reflexivity].
Qed.

(** ** C54: returned moduli
    With finite elastic constants up to 1e300 the returned bulk modulus is a number that is not negative and the returned
    shear modulus a positive number, whatever the state. *)
Theorem C54_moduli L hs c b i pars : dgood L hs c b -> (i < d_n b)%nat -> @in_use dbl (DNum L) c (d_s b) pars ->
  (forall k, (k < c_elNP c)%nat -> let x := nth (3 + c_sgNP c + k) pars B754_nan in is_finite x = true /\ Rabs (B2R x) <= 10 ^ 300) ->
  let K := dval (d_s b) (d_m1 b) AB i 0 in let g := dval (d_s b) (d_m1 b) AB i 1 in
  is_nan K = false /\ Bleb (B754_zero false) K = true /\ is_nan g = false /\ Bltb (B754_zero false) g = true.
Proof. exact (moduli_300 L hs c b i pars). Qed.
Example C54_case : dgood xlm zsol x_c (x_call (Z2D 1) x_m) /\ @in_use dbl (DNum xlm) x_c x_s x_pars /\
  (forall k, (k < c_elNP x_c)%nat -> let x := nth (3 + c_sgNP x_c + k) x_pars B754_nan in is_finite x = true /\ Rabs (B2R x) <= 10 ^ 300).
Proof.
  split; [exact (x_good _ _ x_m_pos)|]. split; [exact x_in_use|]. intros k Hk. change (k < 3)%nat in Hk.
  destruct k as [|[|[|k]]]; [| | |lia]; cbv zeta; [change (nth _ x_pars B754_nan) with (Z2D 3)|change (nth _ x_pars B754_nan) with (Z2D 1)|change (nth _ x_pars B754_nan) with (Z2D 1)];
    apply z_small; cbn; lia.
Qed.

(** ** C55: slip systems and acceptance of parameters
    The orthogonality test of the slip systems passes in spite of rounding, and the stored Schmid data are those of the
    crystallographic systems up to 1e-14 per entry. *)
Theorem C55_fcc L : exists g : SlipGeom dbl, @slipGeomFCC dbl (DNum L) = Some g /\ sg_nslip g = 12%nat /\
  schmid_near (/ 10 ^ 14) (sg_P g) (sg_Q g) 12 (fun i => unitv (cub (fst (nth i sys_fcc d3)))) (fun i => unitv (cub (snd (nth i sys_fcc d3)))).
Proof. exact (dgeom_fcc L). Qed.
Theorem C55_bcc L n : n = 12%nat \/ n = 24%nat \/ n = 48%nat -> exists g : SlipGeom dbl, @slipGeomBCC dbl (DNum L) n = Some g /\ sg_nslip g = n /\
  schmid_near (/ 10 ^ 14) (sg_P g) (sg_Q g) n (fun i => unitv (cub (fst (nth i (sys_bcc n) d3)))) (fun i => unitv (cub (snd (nth i (sys_bcc n) d3)))).
Proof. exact (dgeom_bcc L n). Qed.
(** For the cubic models initFromParams does not fail because of rounding: with finite c11, c12 up to 1e300 it accepts a
    vector of the right length if c11 + 2 c12 is at least 1e-300, and only if it is positive. *)
Theorem C55_accepts L hs c s opts pars strs : @builtin dbl (DNum L) hs c -> c_sgNP c = 0%nat ->
  let c11 := nth 3 pars B754_nan in let c12 := nth 4 pars B754_nan in
  is_finite c11 = true -> is_finite c12 = true -> Rabs (B2R c11) <= 10 ^ 300 -> Rabs (B2R c12) <= 10 ^ 300 ->
  (counts_ok c opts pars strs -> / 10 ^ 300 <= B2R c11 + 2 * B2R c12 -> exists s', @mm_init dbl (DNum L) c s opts pars strs = (Done, s')) /\
  ((exists s', @mm_init dbl (DNum L) c s opts pars strs = (Done, s')) -> counts_ok c opts pars strs /\ 0 < B2R c11 + 2 * B2R c12).
Proof. exact (dcubic_params L hs c s opts pars strs). Qed.
(** A NaN among c11, c12 passes the test of the bulk modulus: such a vector is accepted. *)
Theorem C55_nan_accepted L hs c s opts pars strs : @builtin dbl (DNum L) hs c -> c_sgNP c = 0%nat -> counts_ok c opts pars strs ->
  is_nan (nth 3 pars B754_nan) = true \/ is_nan (nth 4 pars B754_nan) = true -> exists s', @mm_init dbl (DNum L) c s opts pars strs = (Done, s').
Proof. exact (dcubic_nan L hs c s opts pars strs). Qed.
(** Hexagonal crystals, every double c/a in [1/2, 3]: the Miller-index conversion and the orthogonality tests pass, and
    the 24 systems are those of SpecSlip.v for that c/a up to 1e-11 per entry. *)
Theorem C55_hcp L (ca : dbl) : is_finite ca = true -> / 2 <= B2R ca <= 3 -> exists g : SlipGeom dbl, @slipGeomHCP dbl (DNum L) ca = Some g /\ sg_nslip g = 24%nat /\
  schmid_near (/ 10 ^ 11) (sg_P g) (sg_Q g) 24 (fun i => unitv (hexnrm (B2R ca) (fst (nth i sys_hcp d4)))) (fun i => unitv (hexdir (B2R ca) (snd (nth i sys_hcp d4)))).
Proof. exact (dgeom_hcp L ca). Qed.
(** ... and initFromParams of the hexagonal model accepts a vector of the right length with p = q = 1 and elastic constants up
    to m if 2 c11 + 2 c12 + 4 c13 + c33 >= 1e-14 m, and only if p = q = 1 and that sum is above -1e-14 m. *)
Theorem C55_hcp_accepts L hs s opts pars strs m : let c := @cls_HCP_A dbl (DNum L) hs in
  let ca := nth 3 pars B754_nan in let c11 := nth 4 pars B754_nan in let c12 := nth 5 pars B754_nan in let c13 := nth 6 pars B754_nan in let c33 := nth 7 pars B754_nan in
  let p := nth 37 pars B754_nan in let q := nth 38 pars B754_nan in
  is_finite ca = true -> / 2 <= B2R ca <= 3 -> / 10 ^ 280 <= m <= 10 ^ 300 ->
  (forall x, In x [c11; c12; c13; c33] -> is_finite x = true /\ Rabs (B2R x) <= m) ->
  let S := 2 * B2R c11 + 2 * B2R c12 + 4 * B2R c13 + B2R c33 in
  (counts_ok c opts pars strs -> B2R p = 1 -> B2R q = 1 -> / 10 ^ 14 * m <= S -> exists s', @mm_init dbl (DNum L) c s opts pars strs = (Done, s')) /\
  ((exists s', @mm_init dbl (DNum L) c s opts pars strs = (Done, s')) -> counts_ok c opts pars strs /\ B2R p = 1 /\ B2R q = 1 /\ - (/ 10 ^ 14 * m) < S).
Proof. exact (dhex_params L hs s opts pars strs m). Qed.
Example C55_hcp_case : let c := @cls_HCP_A dbl (DNum xlm) zsol in let pars := map Z2D ([3; 2; 1; 2; 5; 2; 1; 6; 1; 0] ++ repeat 1 87)%Z in
  counts_ok c [] pars [] /\ is_finite (nth 3 pars B754_nan) = true /\ / 2 <= B2R (nth 3 pars B754_nan) <= 3 /\ / 10 ^ 280 <= 6 <= 10 ^ 300 /\
  (forall x, In x [nth 4 pars B754_nan; nth 5 pars B754_nan; nth 6 pars B754_nan; nth 7 pars B754_nan] -> is_finite x = true /\ Rabs (B2R x) <= 6) /\
  B2R (nth 37 pars B754_nan) = 1 /\ B2R (nth 38 pars B754_nan) = 1 /\
  / 10 ^ 14 * 6 <= 2 * B2R (nth 4 pars B754_nan) + 2 * B2R (nth 5 pars B754_nan) + 4 * B2R (nth 6 pars B754_nan) + B2R (nth 7 pars B754_nan).
Proof.
  cbv zeta. split; [repeat split; cbn; lia|].
  destruct (Z2D_ok 2 ltac:(cbn; lia)) as [F2 V2]. destruct (Z2D_ok 5 ltac:(cbn; lia)) as [F5 V5]. destruct (Z2D_ok 1 ltac:(cbn; lia)) as [F1 V1]. destruct (Z2D_ok 6 ltac:(cbn; lia)) as [F6 V6].
  change (nth 3 (map Z2D _) B754_nan) with (Z2D 2). change (nth 4 (map Z2D _) B754_nan) with (Z2D 5). change (nth 5 (map Z2D _) B754_nan) with (Z2D 2).
  change (nth 6 (map Z2D _) B754_nan) with (Z2D 1). change (nth 7 (map Z2D _) B754_nan) with (Z2D 6). change (nth 37 (map Z2D _) B754_nan) with (Z2D 1). change (nth 38 (map Z2D _) B754_nan) with (Z2D 1).
  rewrite V1, V2, V5, V6. split; [exact F2|]. split; [lra|]. split.
  - split; [apply Rle_trans with 1; [|lra]; rewrite <- Rinv_1; apply Rinv_le_contravar; [lra|]; apply pow_R1_Rle; lra|].
    apply Rle_trans with (10 ^ 1); [cbn; lra|]. apply Rle_pow; [lra|lia].
  - split; [|split; [reflexivity|split; [reflexivity|]]].
    + intros x [ <- | [ <- | [ <- | [ <- | [] ] ] ] ]; (split; [assumption|]); [rewrite V5|rewrite V2|rewrite V1|rewrite V6]; rewrite Rabs_pos_eq; lra.
    + assert (/ 10 ^ 14 <= 1). { rewrite <- Rinv_1. apply Rinv_le_contravar; [lra|]. apply pow_R1_Rle. lra. } lra.
Qed.
Example C55_case : @builtin dbl (DNum xlm) zsol x_c /\ c_sgNP x_c = 0%nat /\ counts_ok x_c [] x_pars [] /\
  (let c11 := nth 3 x_pars B754_nan in let c12 := nth 4 x_pars B754_nan in
   is_finite c11 = true /\ is_finite c12 = true /\ Rabs (B2R c11) <= 10 ^ 300 /\ Rabs (B2R c12) <= 10 ^ 300 /\ / 10 ^ 300 <= B2R c11 + 2 * B2R c12) /\
  (let bad := map Z2D [3; 2; 1]%Z ++ [B754_nan] ++ map Z2D [1; 1; 1; 1; 1; 1; 1; 4; 1; 1; 1; 2; -600]%Z in
   counts_ok x_c [] bad [] /\ is_nan (nth 3 bad B754_nan) = true).
Proof.
  split; [exact x_builtin|]. split; [reflexivity|]. split; [repeat split; cbn; lia|]. split; [|split; [repeat split; cbn; lia|reflexivity]].
  cbv zeta. change (nth 3 x_pars B754_nan) with (Z2D 3). change (nth 4 x_pars B754_nan) with (Z2D 1).
  destruct (z_small 3 ltac:(cbn; lia)) as [F3 B3]. destruct (z_small 1 ltac:(cbn; lia)) as [F1 B1].
  repeat (split; [assumption|]). destruct (Z2D_ok 3 ltac:(cbn; lia)) as [_ E3]. destruct (Z2D_ok 1 ltac:(cbn; lia)) as [_ E1]. rewrite E3, E1.
  apply Rle_trans with 1; [|lra]. rewrite <- Rinv_1. apply Rinv_le_contravar; [lra|]. apply pow_R1_Rle. lra.
Qed.

Print Assumptions C51_unit.
Print Assumptions C51_finite.
Print Assumptions C52_call.
Print Assumptions C52_history.
Print Assumptions C53_sign.
Print Assumptions C54_moduli.
Print Assumptions C55_fcc.
Print Assumptions C55_bcc.
Print Assumptions C55_accepts.
Print Assumptions C55_nan_accepted.
Print Assumptions C55_hcp.
Print Assumptions C55_hcp_accepts.
