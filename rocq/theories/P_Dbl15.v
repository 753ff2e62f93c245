(** Doubles: elasticity, equation of state and the outputs of one point are finite. *)
From Coq Require Import List ZArith Bool Lia PeanoNat Reals Lra.
From Flocq Require Import Core IEEE754.BinarySingleNaN.
From Verif Require Import Num Arr NumR Util SlipGeom Eos Hard Elast Evptn MatModel Cases Const
  P_Sngl P_Batch P_Batch2 P_Batch3 P_Api P_Builtin SpecApi P_Gen NumD P_Dbl P_Dbl2 P_Dbl3 P_Dbl4 P_Dbl5 P_Dbl7 P_Dbl8 P_Dbl10 SpecDbl SpecDblFin P_Dbl13 P_Dbl14.
Import ListNotations.
Local Open Scope R_scope.

Lemma mag_third z : (0 <= z <= 4)%Z -> mag (Bdiv mode_NE (Z2D z) (Z2D 3)) 1.
Proof. intros H. destruct (third_small z H) as [F B]. split; [exact F|]. change (bpow radix2 1) with 2. lra. Qed.
Lemma mag_lit_frac m p k : (0 <= m)%Z -> (m <= 2 * 10 ^ Z.pos p)%Z -> (1 <= k <= 1023)%Z -> mag (R2D (Rlit m (Zneg p))) k.
Proof.
  intros M0 M1 K. apply mag_R2D; [unfold okz; lia|]. rewrite rlit_neg. apply Rle_trans with 2; [|apply (bpow_le radix2 1 k); lia].
  assert (P : 0 < IZR (10 ^ Z.pos p)) by (apply IZR_lt; apply Z.pow_pos_nonneg; lia).
  apply IZR_le in M0, M1. rewrite mult_IZR in M1. set (d := IZR (10 ^ Z.pos p)) in *. clearbody d.
  rewrite Rabs_pos_eq. 
  - apply Rmult_le_reg_r with d; [exact P|]. unfold Rdiv. rewrite Rmult_assoc, Rinv_l by lra. lra.
  - apply Rmult_le_pos; [exact M0|]. left. now apply Rinv_0_lt_compat.
Qed.
Lemma pow100_333 : 10 ^ 100 <= bpow radix2 333.
Proof. change (bpow radix2 333) with (IZR (2 ^ 333)). rewrite (pow_IZR 10 100). apply IZR_le. vm_compute. discriminate. Qed.

Section L.
  Variable L : Libm.
  Let DN : Num dbl := DNum L.
  #[local] Existing Instance DN.
  Hypothesis LM : libm_ok L.

  Record el_mag (e : Elast dbl) : Prop := {
    em_len : length (el_K_diag e) = 5%nat;
    em_K : mags (el_K_diag e) 110;
    em_s : mag (el_K_sdax3 e) 115;
    em_g : mag (el_g_vecd2 e) 100;
    em_b : mag (el_K_bulkMod e) 115;
    em_m : mag (el_K_gmod e) 120
  }.
  Lemma cubic_mag p : (forall k, (k < 3)%nat -> mag (get p k) 100) -> el_mag (cubic_setParams p).
  Proof.
    intros H. pose proof (H 0%nat ltac:(lia)) as H0. pose proof (H 1%nat ltac:(lia)) as H1. pose proof (H 2%nat ltac:(lia)) as H2. clear H.
    pose proof (mag_third 1 ltac:(lia)) as T1. assert (LS : mag (R2D (Rlit 2 (-1))) 1) by (apply mag_lit_frac; cbn; lia).
    unfold cubic_setParams. unfold onethird, one, two, three, six, zero. cbn [nadd nsub nmul ndiv nZ nlit DN DNum].
    set (x := get p 0) in *. set (y := get p 1) in *. set (z := get p 2) in *. clearbody x y z.
    set (lt := R2D (Rlit 2 (-1))) in *. set (th := Bdiv mode_NE (Z2D 1) (Z2D 3)) in *. clearbody lt th.
    constructor; cbn [el_K_diag el_K_sdax3 el_g_vecd2 el_K_bulkMod el_K_gmod]; [reflexivity|repeat (apply Forall_cons; [mgt|]); apply Forall_nil|apply mag_0|apply mag_0|mgt|mgt].
  Qed.
  Lemma hexag_mag p : (forall k, (k < 6)%nat -> mag (get p k) 100) -> el_mag (hexag_setParams p).
  Proof.
    intros H. pose proof (H 0%nat ltac:(lia)) as H0. pose proof (H 1%nat ltac:(lia)) as H1. pose proof (H 2%nat ltac:(lia)) as H2.
    pose proof (H 3%nat ltac:(lia)) as H3. pose proof (H 4%nat ltac:(lia)) as H4. pose proof (H 5%nat ltac:(lia)) as H5. clear H.
    pose proof (mag_third 1 ltac:(lia)) as T1. pose proof (mag_third 2 ltac:(lia)) as T2. pose proof (mag_third 4 ltac:(lia)) as T4.
    assert (LS : mag (R2D (Rlit 2 (-1))) 1) by (apply mag_lit_frac; cbn; lia). assert (LF : mag (R2D (Rlit 5 (-1))) 1) by (apply mag_lit_frac; cbn; lia).
    unfold hexag_setParams. cbv zeta. unfold vecsssum. rewrite !sum_S, sum_0.
    unfold onethird, twothird, fourthirds, one, two, three. cbn [nadd nsub nmul ndiv nopp nZ nlit sqr2 DN DNum].
    set (x := get p 0) in *. set (y := get p 1) in *. set (z := get p 2) in *. set (u := get p 3) in *. set (v := get p 4) in *. set (g := get p 5) in *. clearbody x y z u v g.
    match goal with |- context [get (?a :: ?b' :: ?c' :: ?d :: ?e :: nil) 0] =>
      change (get [a; b'; c'; d; e] 0) with a; change (get [a; b'; c'; d; e] 1) with b'; change (get [a; b'; c'; d; e] 2) with c';
      change (get [a; b'; c'; d; e] 3) with d; change (get [a; b'; c'; d; e] 4) with e end.
    set (lt := R2D (Rlit 2 (-1))) in *. set (lf := R2D (Rlit 5 (-1))) in *. set (th := Bdiv mode_NE (Z2D 1) (Z2D 3)) in *. 
    set (th2 := Bdiv mode_NE (Z2D 2) (Z2D 3)) in *. set (th4 := Bdiv mode_NE (Z2D 4) (Z2D 3)) in *. clearbody lt lf th th2 th4.
    constructor; cbn [el_K_diag el_K_sdax3 el_g_vecd2 el_K_bulkMod el_K_gmod]; [reflexivity|repeat (apply Forall_cons; [mgt|]); apply Forall_nil|mgt|mgt|mgt|mgt].
  Qed.

  Lemma eval_mag e Ee p ev : el_mag e -> length Ee = 6%nat -> (forall i, (i < 5)%nat -> mag (get Ee i) 350) -> mag (get Ee 5) 6 -> mag p 310 -> mag ev 205 ->
    forall i, (i < 6)%nat -> mag (get (el_eval e Ee p ev) i) 580.
  Proof.
    intros [KL EK ES EG _ _] HL HE H5 HP HV. unfold el_eval. cbv zeta. unfold iSvecS, iTvecHex.
    assert (J : mag (nexp (sqr3 * get Ee 5)%num) 257).
    { apply (exp_mag L LM). eapply mag_le; [eapply mag_mul; [apply mag_sqr3|exact H5|unfold okz; lia]|lia]. }
    set (JJ := nexp (sqr3 * get Ee 5)%num) in *. clearbody JJ.
    pose proof (mag_sqr3 L) as S3. unfold DN in *. set (s := sqr3) in *. clearbody s. 
    destruct (el_K_diag e) as [|k0 [|k1 [|k2 [|k3 [|k4 [|]]]]]]; try discriminate KL. clear KL.
    destruct Ee as [|e0 [|e1 [|e2 [|e3 [|e4 [|e5 [|]]]]]]]; try discriminate HL. clear HL.
    pose proof (HE 0%nat ltac:(lia)) as X0. pose proof (HE 1%nat ltac:(lia)) as X1. pose proof (HE 2%nat ltac:(lia)) as X2.
    pose proof (HE 3%nat ltac:(lia)) as X3. pose proof (HE 4%nat ltac:(lia)) as X4. cbn [get nth] in X0, X1, X2, X3, X4, H5. clear HE.
    assert (EK' : forall i, (i < 5)%nat -> mag (get [k0; k1; k2; k3; k4] i) 110) by (intros j Hj; now apply (mags_get L)). clear EK.
    pose proof (EK' 0%nat ltac:(lia)) as Y0. pose proof (EK' 1%nat ltac:(lia)) as Y1. pose proof (EK' 2%nat ltac:(lia)) as Y2.
    pose proof (EK' 3%nat ltac:(lia)) as Y3. pose proof (EK' 4%nat ltac:(lia)) as Y4. cbn [get nth] in Y0, Y1, Y2, Y3, Y4. clear EK'.
    set (gk := el_g_vecd2 e) in *. set (sk := el_K_sdax3 e) in *. clearbody gk sk.
    unfold vecsVAdiagB, tab. cbn [map seq app get nth upd]. cbn [nadd nsub nmul nopp DNum].
    intros i Hi. destruct (el_hex e); cbn [upd get nth];
      do 6 (destruct i as [|i]; [cbn [nth]; mgt|]); lia.
  Qed.

  (** equation of state *)
  Record eos_mag (e : Eos dbl) : Prop := {
    es_bulk : mag (eos_bulk e) 115; es_gamma : mag (eos_gamma e) 100; es_dtde : mag (eos_dtde e) 103; es_tK0 : mag (eos_tK0 e) 203 }.
  Lemma eos_set_mag iso p : mag (get p 1) 115 -> fin (get p 2) -> bpow radix2 (-100) <= Rabs (B2R (get p 2)) -> mag (get p 3) 100 -> mag (get p 4) 100 ->
    eos_mag (eos_setParams iso p).
  Proof.
    intros H1 F2 H2 H3 H4. unfold eos_setParams. cbv zeta.
    assert (D : mag (Bdiv mode_NE (Z2D 1) (get p 2)) 103). { apply (mag_div _ _ 3 (-100)); [apply mag_Z2D; lia|assumption|assumption|unfold okz; lia]. }
    constructor; cbn [eos_bulk eos_gamma eos_dtde eos_tK0]; [exact H1|exact H3|exact D|].
    unfold one. cbn [nmul nopp ndiv nZ DN DNum]. eapply mag_le; [eapply mag_mul; [eapply mag_opp; exact H4|exact D|unfold okz; lia]|lia].
  Qed.
  Lemma evalT_mag e v x : eos_mag e -> mag x 100 -> mag (snd (evalPT e v x)) 210.
  Proof.
    intros [B G D K] X. unfold evalPT. cbv zeta. destruct (eos_iso e); cbn [snd]; [mgt|]. cbn [nadd nmul DN DNum]. mgt.
  Qed.
  Lemma upd_mag e v dv x p : eos_mag e -> fin v -> bpow radix2 (-10) <= B2R v <= bpow radix2 10 -> mag dv 100 -> mag x 100 -> mag p 100 ->
    let u := updateSimple e v dv x p in mag (u_eNew u) 205 /\ mag (u_press u) 310 /\ mag (u_bulkNew u) 300.
  Proof.
    intros [B G D K] F [V1 V2] HD X P. cbv zeta. unfold updateSimple. cbv zeta. cbn [u_eNew u_press u_bulkNew].
    assert (VM : mag v 10). { split; [exact F|]. rewrite Rabs_pos_eq; [exact V2|]. pose proof (bpow_gt_0 radix2 (-10)). lra. }
    assert (ET : mag (Bdiv mode_NE (Z2D 1) v) 13).
    { apply (mag_div _ _ 3 (-10)); [apply mag_Z2D; lia|exact F|apply Rle_trans with (1 := V1); apply Rle_abs|unfold okz; lia]. }
    assert (LS : mag (R2D (Rlit 1 (-5))) 1) by (apply mag_lit_frac; cbn; lia).
    unfold evalPTDiff, getBulkRef. cbv zeta. unfold one, zero.
    assert (EN : mag (x - dv * p)%num 205) by (cbn [nsub nmul DN DNum]; mgt).
    split; [exact EN|]. set (en := (x - dv * p)%num) in *. clearbody en.
    cbn [nadd nsub nmul nopp ndiv nZ nlit nmax DN DNum]. set (et := Bdiv mode_NE (Z2D 1) v) in *. clearbody et.
    destruct (eos_iso e); cbn [ptd_p ptd_bulk ptd_dpde]; set (lf := R2D (Rlit 1 (-5))) in *; clearbody lf; split; mgt.
  Qed.

  (** parts of an object in use *)
  Lemma din_use_eos hs c s pars : builtin hs c -> in_use c s pars ->
    exists bulk sg kin tol, el_getBulkMod (gel_of c pars) = Some bulk /\
      mm_ready s = Some ({| m_sg := sg; m_kin := kin; m_el := gel_of c pars;
        m_eos := eos_setParams (c_iso c) ([get pars 0; bulk; get pars 1] ++ sub pars (3 + c_sgNP c + c_elNP c + c_kinNP c) 2) |}, tol).
  Proof.
    intros HB [s0 o pars' st s1 ops HR HI HF].
    destruct (init_done _ _ _ _ _ _ HI) as ((HL & _) & a & (P1 & P2 & P3 & P4) & _ & ES).
    change (pa_el a = gel_of c pars') in P2. rewrite P2 in P4.
    exists (pa_bulk a), (pa_sg a), (pa_kin a), (get pars' 2). split; [exact P4|].
    destruct (run_harmless c ops s1 HF) as (E & _). rewrite E, ES. unfold mm_ready, with_parts, with_scalars, with_vecs.
    cbn [mm_sg mm_kin mm_el mm_eos mm_tol]. rewrite P2. reflexivity.
  Qed.
  Lemma use_mag hs c s pars : builtin hs c -> in_use c s pars -> moderate_params c pars ->
    exists mat tol, mm_ready s = Some (mat, tol) /\ el_mag (m_el mat) /\ eos_mag (m_eos mat).
  Proof.
    intros HB HU (MC & ME & MX). destruct (din_use_eos hs c s pars HB HU) as (bulk & sg & kin & tol & EB & HM).
    do 2 eexists. split; [exact HM|]. cbn [m_el m_eos].
    assert (EL : el_mag (gel_of c pars)).
    { unfold gel_of. destruct (el_kind L hs c HB) as [[E1 E2]|[E1 E2]]; rewrite E1, E2 in *; [apply cubic_mag | apply hexag_mag]; intros k Hk;
        rewrite get_sub by lia; apply moderate_mag; apply ME; lia. }
    split; [exact EL|].
    assert (EQ : bulk = el_K_bulkMod (gel_of c pars)). { unfold el_getBulkMod in EB. destruct nleb; congruence. }
    apply eos_set_mag.
    - cbn [get app nth]. rewrite EQ. apply EL.
    - apply MC.
    - destruct MC as (_ & MC & _). refine (Rle_trans _ _ _ _ MC). change (bpow radix2 (-100)) with (/ IZR (2 ^ 100)).
      apply Rinv_le_contravar; [apply pow_lt; lra|]. rewrite (pow_IZR 10 30). apply IZR_le. vm_compute. discriminate.
    - cbn [app]. change (mag (get (sub pars (3 + c_sgNP c + c_elNP c + c_kinNP c) 2) 0) 100). rewrite get_sub by lia. apply moderate_mag. apply MX. lia.
    - cbn [app]. change (mag (get (sub pars (3 + c_sgNP c + c_elNP c + c_kinNP c) 2) 1) 100). rewrite get_sub by lia. apply moderate_mag. apply MX. lia.
  Qed.
End L.
