(** Doubles: a successful call on moderate inputs stores finite results. *)
From Coq Require Import List ZArith Bool Lia PeanoNat Reals Lra.
From Flocq Require Import Core IEEE754.BinarySingleNaN.
From Verif Require Import Num Arr NumR Util SlipGeom Eos Hard Elast Evptn MatModel Cases Const
  P_Sngl P_Batch P_Batch2 P_Batch3 P_Api P_Builtin SpecApi P_Gen NumD P_Dbl P_Dbl2 P_Dbl3 P_Dbl4 P_Dbl5 P_Dbl7 P_Dbl8 P_Dbl10 SpecDbl SpecDblFin P_Dbl13 P_Dbl14 P_Dbl15.
Import ListNotations.
Local Open Scope R_scope.

Section L.
  Variable L : Libm.
  Let DN : Num dbl := DNum L.
  #[local] Existing Instance DN.
  Hypothesis TR : trig_ok L.
  Hypothesis LM : libm_ok L.

  Lemma x_mag solver : moderate_answers solver -> forall f tol it x0 k, let r := solver 8%nat f tol it x0 in so_converged r = true -> (k < 8)%nat -> mag (get (so_x r) k) 333.
  Proof.
    intros HM f tol it x0 k. cbv zeta. intros HC Hk. destruct (HM _ _ _ _ _ HC) as [HL HF].
    assert (IN : In (get (so_x (solver 8%nat f tol it x0)) k) (so_x (solver 8%nat f tol it x0))) by (apply nth_In; rewrite HL; exact Hk).
    rewrite Forall_forall in HF. destruct (HF _ IN) as [A B]. split; [exact A|]. exact (Rle_trans _ _ _ B pow100_333).
  Qed.

  (** the state after the solve *)
  Lemma state_mag p x : (forall k, (k < 8)%nat -> mag (get x k) 333) -> (forall k, (k < 5)%nat -> mag (get (pb_e_vecd_n p) k) 100) ->
    forall k, (k < 5)%nat -> mag (get (fst (stateFromX p x)) k) 335.
  Proof.
    intros HX HE k Hk. unfold stateFromX. cbn [fst]. unfold vecsVapb, vecsVxa, x_e. rewrite get_tab by assumption. rewrite get_tab by assumption.
    rewrite get_sub by assumption. pose proof (HX k ltac:(lia)) as A. pose proof (HE k Hk) as B. cbn [Nat.add].
    assert (LS : mag (e_scale : dbl) 1) by (unfold e_scale; cbn [nlit DN DNum]; apply mag_lit_frac; cbn; lia).
    unfold DN in *. set (es := e_scale) in *. clearbody es. cbn [nadd nmul DNum]. mgt.
  Qed.
  Lemma quat_mag p x q : list4 q -> finite q -> bpow radix2 (-900) <= norm2 q <= bpow radix2 1000 -> pb_Cn_quat p = vecsVNormalize 4 q ->
    (forall k, (k < 8)%nat -> mag (get x k) 333) -> forall k, (k < 4)%nat -> mag (get (snd (stateFromX p x)) k) 1.
  Proof.
    intros L4 F B EQ HX. unfold stateFromX. cbn [snd]. rewrite EQ.
    assert (FI : is_finite (vecNorm emapdim (vecsVxa 3 r_scale (x_r x))) = true).
    { apply scale_fin. intros k Hk. unfold x_r. rewrite get_sub by assumption. destruct (HX (5 + k)%nat ltac:(lia)) as [F1 B1].
      split; [exact F1|]. apply Rle_trans with (1 := B1). apply bpow_le. lia. }
    destruct (quat_update L TR q (vecsVxa 3 r_scale (x_r x)) L4) as [_ Q2].
    destruct (Q2 F B) as [[Q _]|[Q3 Q4]]; [unfold DN in *; congruence|].
    intros k Hk. destruct (unit_small L _ (ltac:(do 4 eexists; reflexivity)) Q3 Q4 k Hk) as [A1 A2]. split; [exact A1|].
    refine (Rle_trans _ _ _ A2 _). change (bpow radix2 1) with 2. lra.
  Qed.
  Lemma cauchy_mag p e q v : el_mag (pb_el p) -> pb_detV p = v -> fin v -> bpow radix2 (- (10)) <= B2R v <= bpow radix2 10 ->
    pb_a_V p = npow v onethird -> pb_a_V_ri p = (nZ 1 / npow v onethird)%num -> pb_detV_ri p = (nZ 1 / v)%num ->
    mag (pb_p_EOS p) 310 -> mag (pb_eVref p) 205 -> (forall k, (k < 5)%nat -> mag (get e k) 335) -> (forall k, (k < 4)%nat -> mag (get q k) 1) ->
    length (stress_out q (elastNEtoC p e)) = 7%nat /\ mags (stress_out q (elastNEtoC p e)) 640.
  Proof.
    intros EL EV FV BV EA EAR EDR HP HV HE HQ.
    apply (stress_mag L q _ 600 ltac:(lia) HQ).
    destruct (aV_mag L LM v FV BV) as [FA BA]. change (lm_pow L v onethird) with (npow v onethird) in FA, BA.
    pose proof (log_mag L LM _ FA BA) as LG. change (lm_log L (npow v onethird)) with (nlog (npow v onethird)) in LG.
    set (a := npow v onethird) in *. clearbody a.
    assert (AR : mag (nZ 1 / a)%num 14).
    { apply (mag_div _ _ 3 (- (11))); [apply mag_Z2D; lia|exact FA|apply Rle_trans with (1 := proj1 BA); apply Rle_abs|unfold okz; lia]. }
    assert (DR : mag (nZ 1 / v)%num 13).
    { apply (mag_div _ _ 3 (- (10))); [apply mag_Z2D; lia|exact FV|apply Rle_trans with (1 := proj1 BV); apply Rle_abs|unfold okz; lia]. }
    rewrite <- EAR in AR. rewrite <- EDR in DR. rewrite <- EA in LG.
    intros i Hi. unfold elastNEtoC, el_getCauchy. rewrite get_tab by assumption.
    assert (TM : mag (get (elastNEtoT p e) i) 580).
    { unfold elastNEtoT. cbv zeta. apply (eval_mag L LM); try assumption; [reflexivity| |].
      - intros k Hk. rewrite get_app1 by (exact Hk). unfold vecsVxa. rewrite get_tab by exact Hk.
        pose proof (HE k Hk) as HEk. cbn [nmul DN DNum]. mgt.
      - change (mag (sqr3 * nlog (pb_a_V p))%num 6). eapply mag_le; [eapply mag_mul; [apply mag_sqr3|exact LG|unfold okz; lia]|lia]. }
    cbn [nmul DN DNum]. mgt.
  Qed.
  Lemma inner_mag s d k : (0 <= k <= 800)%Z -> (forall i, (i < 6)%nat -> mag (get s i) k) -> (forall i, (i < 6)%nat -> mag (get d i) 100) ->
    mag (vecsInnerSvecDev s d) (k + 110).
  Proof.
    intros K HS HD. unfold vecsInnerSvecDev, two. cbn [nadd nmul nZ DN DNum].
    assert (MM : forall i, (i < 6)%nat -> mag (Bmult mode_NE (get s i) (get d i)) (k + 100)) by (intros i Hi; apply mag_mul; [apply HS; lia|apply HD; lia|unfold okz; lia]).
    assert (AD : forall x y j, mag x (k + j) -> mag y (k + j) -> (0 <= j <= 120)%Z -> mag (Bplus mode_NE x y) (k + (j + 1))).
    { intros x y j A B J. replace (k + (j + 1))%Z with (Z.max (k + j) (k + j) + 1)%Z by lia. apply mag_add; [assumption|assumption|unfold okz; lia]. }
    assert (WK : forall x i j, mag x (k + i) -> (i <= j)%Z -> mag x (k + j)) by (intros; eapply mag_le; [eassumption|lia]).
    assert (T3 : mag (Bmult mode_NE (Z2D 2) (Bplus mode_NE (Bplus mode_NE (Bmult mode_NE (get s 3) (get d 3)) (Bmult mode_NE (get s 4) (get d 4))) (Bmult mode_NE (get s 5) (get d 5)))) (k + 105)).
    { replace (k + 105)%Z with (3 + (k + 102))%Z by lia. apply mag_mul; [apply mag_Z2D; lia| |unfold okz; lia].
      apply (AD _ _ 101%Z); [|apply (WK _ 100%Z); [apply MM; lia|lia]|lia]. apply (AD _ _ 100%Z); [apply MM; lia|apply MM; lia|lia]. }
    apply (WK _ (105 + 1)%Z); [|lia]. apply AD; [|exact T3|lia].
    apply (WK _ (101 + 1)%Z); [|lia]. apply AD; [|apply (WK _ 100%Z); [apply MM; lia|lia]|lia].
    apply (AD _ _ 100%Z); [apply MM; lia|apply MM; lia|lia].
  Qed.

  Lemma dcall_mag hs c b i pars : dgood L hs c b -> (i < d_n b)%nat -> in_use c (d_s b) pars ->
    moderate_params c pars -> moderate_point b i -> moderate_answers (d_solver b) ->
    let o := dval (d_s b) (d_m1 b) in
    (forall k, (k < 7)%nat -> mag (o AS i k) 640) /\ mag (o AE i 0%nat) 1000 /\ mag (o AT i 0%nat) 210 /\ mag (o AB i 0%nat) 300 /\ mag (o AB i 1%nat) 120 /\
    (forall k, (k < 5)%nat -> mag (o AH i (4 + k)%nat) 335) /\ finite (dquat (d_s b) (d_m1 b) i).
  Proof.
    intros G Hi HU MP MI HA. cbv zeta.
    destruct (use_mag L hs c (d_s b) pars (proj1 G) HU MP) as (mat' & tol' & HM' & EL & EO).
    pose proof (dcall_quat_fin L TR hs c b i G Hi HA) as QF. cbv zeta in QF. destruct (mp_q _ _ MI) as [Qf Qn]. apply range_200 in Qn.
    destruct (QF Qf Qn) as [QF' _]. clear QF.
    destruct (dres L hs c b i G Hi) as (mat & tol & h_u & p & r & v & nf & gm & HM & _ & HP & HR & Rs).
    rewrite HM' in HM. assert (EM : mat' = mat) by congruence. subst mat'. clear HM HM'.
    set (ptn := pt_of c (d_s b) (d_mtan b) (d_m b) i) in *. set (pto := pt_of c (d_s b) (d_mtan b) (d_m1 b) i) in *.
    set (cD := cell_of c (d_s b) (d_mtan b) (d_m b) AD i) in *. set (cW := cell_of c (d_s b) (d_mtan b) (d_m b) AW i) in *. set (cV := cell_of c (d_s b) (d_mtan b) (d_m b) AV i) in *.
    pose proof (g_conv _ _ _ _ _ _ _ _ _ _ _ _ _ _ Rs) as CV. pose proof (g_stress _ _ _ _ _ _ _ _ _ _ _ _ _ _ Rs) as GS.
    pose proof (g_eInt _ _ _ _ _ _ _ _ _ _ _ _ _ _ Rs) as GE. pose proof (g_tkelv _ _ _ _ _ _ _ _ _ _ _ _ _ _ Rs) as GT.
    pose proof (g_sdd _ _ _ _ _ _ _ _ _ _ _ _ _ _ Rs) as GB. pose proof (g_gmod _ _ _ _ _ _ _ _ _ _ _ _ _ _ Rs) as GG.
    pose proof (g_E _ _ _ _ _ _ _ _ _ _ _ _ _ _ Rs) as GH. clear Rs.
    (* inputs *)
    pose proof (fun a k => dv_in L hs c b i G Hi a k) as VI. pose proof (fun a k => dv_out L hs c b i G Hi a k) as VO. cbv beta in VI, VO.
    assert (Id : forall k, (k < 6)%nat -> mag (get cD k) 100). { intros k Hk. unfold cD. rewrite (VI AD) by (cbn; lia). apply moderate_mag. now apply (mp_d _ _ MI). }
    assert (Iv : forall k, (k < 2)%nat -> fin (get cV k) /\ bpow radix2 (- (10)) <= B2R (get cV k) <= bpow radix2 10).
    { intros k Hk. unfold cV. rewrite (VI AV) by (cbn; lia). destruct (mp_v _ _ MI k Hk) as [A B]. split; [exact A|now apply vol_range]. }
    assert (Iw : mag (get cV 3) 100). { unfold cV. rewrite (VI AV) by (cbn; lia). apply moderate_mag. apply (mp_dv _ _ MI). }
    assert (Ie : mag (get (pt_eInt ptn) 0) 100). { unfold ptn, pt_of, pt_at. cbn [pt_eInt]. change (mag (get (cell_of c (d_s b) (d_mtan b) (d_m b) AE i) 0) 100). rewrite (VI AE) by (cbn; lia). apply moderate_mag. apply (mp_e _ _ MI). }
    assert (Is : forall k, (k < 7)%nat -> mag (get (pt_stress ptn) k) 100).
    { intros k Hk. unfold ptn, pt_of, pt_at. cbn [pt_stress]. change (mag (get (cell_of c (d_s b) (d_mtan b) (d_m b) AS i) k) 100). rewrite (VI AS) by (cbn; lia). apply moderate_mag. now apply (mp_s _ _ MI). }
    assert (Ih : forall k, (k < 5)%nat -> mag (get (sub (pt_hist ptn) iHistLbE 5) k) 100).
    { intros k Hk. rewrite get_sub by exact Hk. rewrite (dhist_in L hs c b i G Hi) by (unfold iHistLbE; lia). apply moderate_mag. now apply (mp_el _ _ MI). }
    (* equation of state *)
    destruct (Iv 1%nat ltac:(lia)) as [Fv1 Bv1]. destruct (Iv 0%nat ltac:(lia)) as [Fv0 Bv0].
    destruct (upd_mag L (m_eos mat) (get cV 1) (get cV 3) (get (pt_eInt ptn) 0) (get (pt_stress ptn) 6) EO Fv1 Bv1 Iw Ie (Is 6%nat ltac:(lia))) as (UE & UP & UB).
    cbv zeta in UE, UP, UB. change (DNum L) with DN in UE, UP, UB.
    change (updateSimple (m_eos mat) (get cV 1) (get cV 3) (get (pt_eInt ptn) 0) (get (pt_stress ptn) 6)) with (snglUpd mat cV (pt_eInt ptn) (pt_stress ptn)) in UE, UP, UB.
    set (u := snglUpd mat cV (pt_eInt ptn) (pt_stress ptn)) in *.
    (* solution *)
    assert (XM : forall k, (k < 8)%nat -> mag (get (so_x r) k) 333). { intros k Hk. rewrite HR in CV |- *. now apply (x_mag (d_solver b) HA). }
    assert (PE : pb_e_vecd_n p = sub (pt_hist ptn) iHistLbE 5) by (rewrite HP; reflexivity).
    pose proof (state_mag p (so_x r) XM ltac:(rewrite PE; exact Ih)) as SM.
    assert (PQ : pb_Cn_quat p = vecsVNormalize 4 (dquat (d_s b) (d_m b) i)). { rewrite <- (dquat_in L hs c b i G Hi). rewrite HP. reflexivity. }
    pose proof (quat_mag p (so_x r) (dquat (d_s b) (d_m b) i) (dquat_list4 _ _ _) Qf Qn PQ XM) as QM.
    assert (CM : length (stress_out (snd (stateFromX p (so_x r))) (elastNEtoC p (fst (stateFromX p (so_x r))))) = 7%nat /\
      mags (stress_out (snd (stateFromX p (so_x r))) (elastNEtoC p (fst (stateFromX p (so_x r))))) 640).
    { apply (cauchy_mag p _ _ (get cV 1)); try assumption; rewrite HP; try reflexivity; assumption. }
    destruct CM as [CL CM].
    assert (SS : forall k, (k < 7)%nat -> mag (get (stress_out (snd (stateFromX p (so_x r))) (elastNEtoC p (fst (stateFromX p (so_x r))))) k) 640).
    { intros k Hk. apply (mags_get L); [exact CM|]. lia. }
    set (so := stress_out (snd (stateFromX p (so_x r))) (elastNEtoC p (fst (stateFromX p (so_x r))))) in *.
    set (eu := fst (stateFromX p (so_x r))) in *. clearbody so eu u. clear HP CM CL QM PE PQ XM.
    split; [|split; [|split; [|split; [|split; [|split]]]]].
    - intros k Hk. rewrite <- (VO AS) by (cbn; lia). change (cell_of c (d_s b) (d_mtan b) (d_m1 b) AS i) with (pt_stress pto). rewrite GS. apply SS. exact Hk.
    - rewrite <- (VO AE) by (cbn; lia). change (cell_of c (d_s b) (d_mtan b) (d_m1 b) AE i) with (pt_eInt pto). rewrite GE.
      pose proof (inner_mag (pt_stress ptn) cD 100 ltac:(lia) ltac:(intros; apply Is; lia) Id) as I1.
      pose proof (inner_mag so cD 640 ltac:(lia) ltac:(intros; apply SS; lia) Id) as I2.
      set (w1 := vecsInnerSvecDev (pt_stress ptn) cD) in *. set (w2 := vecsInnerSvecDev so cD) in *. clearbody w1 w2.
      pose proof (moderate_mag _ (mp_dt _ _ MI)) as DT.
      assert (V0 : mag (get cV 0) 10). { split; [exact Fv0|]. rewrite Rabs_pos_eq; [apply Bv0|]. pose proof (bpow_gt_0 radix2 (- (10))). lra. }
      assert (V1 : mag (get cV 1) 10). { split; [exact Fv1|]. rewrite Rabs_pos_eq; [apply Bv1|]. pose proof (bpow_gt_0 radix2 (- (10))). lra. }
      set (v0 := get cV 0) in *. set (v1 := get cV 1) in *. set (dt := d_dt b) in *. clearbody v0 v1 dt.
      set (en := u_eNew u) in *. clearbody en.
      assert (LQ : mag (oneqrtr : dbl) 1) by (unfold oneqrtr; cbn [nlit DN DNum]; apply mag_lit_frac; cbn; lia).
      unfold DN in *. set (oq := oneqrtr) in *. clearbody oq.
      cbn [nadd nmul DNum]. assert (X : mag (Bplus mode_NE en (Bplus mode_NE (Bmult mode_NE (Bmult mode_NE (Bmult mode_NE oq (Bplus mode_NE v0 v1)) dt) w1) (Bmult mode_NE (Bmult mode_NE (Bmult mode_NE oq (Bplus mode_NE v0 v1)) dt) w2))) 1000) by mgt.
      exact X.
    - rewrite <- (VO AT) by (cbn; lia). change (get (cell_of c (d_s b) (d_mtan b) (d_m1 b) AT i) 0) with (pt_tkelv pto). rewrite GT.
      apply (evalT_mag L (m_eos mat) (get cV 0) _ EO Ie).
    - rewrite <- (VO AB) by (cbn; lia). change (cell_of c (d_s b) (d_mtan b) (d_m1 b) AB i) with (pt_sdd pto). rewrite GB. apply UB.
    - rewrite <- (VO AB) by (cbn; lia). change (cell_of c (d_s b) (d_mtan b) (d_m1 b) AB i) with (pt_sdd pto). rewrite GB. change (mag gm 120).
      unfold el_getGmod in GG. destruct nleb; [discriminate|]. assert (E : el_K_gmod (m_el mat) = gm) by congruence. rewrite <- E. apply EL.
    - intros k Hk. rewrite <- (dhist_out L hs c b i G Hi) by lia.
      assert (E : get (sub (pt_hist pto) iHistLbE 5) k = get eu k) by (rewrite GH; reflexivity).
      rewrite get_sub in E by exact Hk. fold pto. unfold iHistLbE in E. change (DNum L) with DN. rewrite E. apply SM. exact Hk.
    - exact QF'.
  Qed.
  Lemma dcall_finite hs c b i pars : dgood L hs c b -> (i < d_n b)%nat -> in_use c (d_s b) pars ->
    moderate_params c pars -> moderate_point b i -> moderate_answers (d_solver b) ->
    let o := dval (d_s b) (d_m1 b) in
    (forall k, (k < 7)%nat -> fin (o AS i k)) /\ fin (o AE i 0%nat) /\ fin (o AT i 0%nat) /\ fin (o AB i 0%nat) /\ fin (o AB i 1%nat) /\
    (forall k, (k < 5)%nat -> fin (o AH i (4 + k)%nat)) /\ finite (dquat (d_s b) (d_m1 b) i).
  Proof.
    intros G Hi HU MP MI HA. cbv zeta. destruct (dcall_mag hs c b i pars G Hi HU MP MI HA) as (A & B & C & D & E & F & Q).
    split; [intros k Hk; apply (A k Hk)|]. split; [apply B|]. split; [apply C|]. split; [apply D|]. split; [apply E|]. split; [intros k Hk; apply (F k Hk)|exact Q].
  Qed.
End L.
