(** The tangent stiffness of a call (C36). *)
From Coq Require Import List ZArith Bool Lia PeanoNat Reals Lra String.
From Coquelicot Require Import Coquelicot.
From Verif Require P_Energy.
From Verif Require Import Num Arr NumR Util SlipGeom Eos Hard KinVoce KinKMBalD Elast Evptn MatModel Cases SpecTensor
  SpecElast SpecSlip P_Tensor P_Elast P_Eos P_Sngl P_Sngl2 P_Sngl3 P_Batch P_Batch2 P_Batch3 P_Batch4 P_Api P_Builtin SpecApi P_Hist SpecStress P_Stress
  P_Slip P_SlipH SpecKin SpecKinApi P_KinV P_KinKM P_Kin4 P_Call P_Kin3 SpecStep P_Step P_Step2 P_Step3 P_Deriv P_Jac P_Jac2 SpecJac P_Jac3 SpecTan P_Tan.
Import ListNotations.
Local Open Scope R_scope.

Lemma derives_dM F t B : derives F t B -> dM F t B.
Proof.
  intros H. rewrite dM_9. destruct B as [b00 b01 b02 b10 b11 b12 b20 b21 b22].
  assert (E : forall K (f : R -> R) l, (forall s, f s = inner (F s) K) -> l = inner (mk3 b00 b01 b02 b10 b11 b12 b20 b21 b22) K -> D f t l).
  { intros K f l H1 H2. rewrite H2. apply (D_ext (fun s => inner (F s) K)); [intros s; symmetry; apply H1|exact (H K)]. }
  unfold dM9. cbn [a00 a01 a02 a10 a11 a12 a20 a21 a22].
  refine (conj _ (conj _ (conj _ (conj _ (conj _ (conj _ (conj _ (conj _ _)))))))).
  - apply (E (mk3 1 0 0 0 0 0 0 0 0)); unfold inner; cbn [a00 a01 a02 a10 a11 a12 a20 a21 a22]; intros; ring.
  - apply (E (mk3 0 1 0 0 0 0 0 0 0)); unfold inner; cbn [a00 a01 a02 a10 a11 a12 a20 a21 a22]; intros; ring.
  - apply (E (mk3 0 0 1 0 0 0 0 0 0)); unfold inner; cbn [a00 a01 a02 a10 a11 a12 a20 a21 a22]; intros; ring.
  - apply (E (mk3 0 0 0 1 0 0 0 0 0)); unfold inner; cbn [a00 a01 a02 a10 a11 a12 a20 a21 a22]; intros; ring.
  - apply (E (mk3 0 0 0 0 1 0 0 0 0)); unfold inner; cbn [a00 a01 a02 a10 a11 a12 a20 a21 a22]; intros; ring.
  - apply (E (mk3 0 0 0 0 0 1 0 0 0)); unfold inner; cbn [a00 a01 a02 a10 a11 a12 a20 a21 a22]; intros; ring.
  - apply (E (mk3 0 0 0 0 0 0 1 0 0)); unfold inner; cbn [a00 a01 a02 a10 a11 a12 a20 a21 a22]; intros; ring.
  - apply (E (mk3 0 0 0 0 0 0 0 1 0)); unfold inner; cbn [a00 a01 a02 a10 a11 a12 a20 a21 a22]; intros; ring.
  - apply (E (mk3 0 0 0 0 0 0 0 0 1)); unfold inner; cbn [a00 a01 a02 a10 a11 a12 a20 a21 a22]; intros; ring.
Qed.
Lemma dM_derives F t B : dM F t B -> derives F t B.
Proof. intros H K. exact (D_inner F K t B H). Qed.
Lemma derives_dev F t B : (forall s, is_dev (F s)) -> derives F t B -> is_dev B.
Proof.
  intros HF H.
  assert (Z : forall K, (forall s, inner (F s) K = 0) -> inner B K = 0).
  { intros K HK. apply (D_unique (fun s => inner (F s) K) t); [exact (H K)|]. apply (D_ext (fun _ => 0)); [intros s; symmetry; apply HK|apply D_const]. }
  assert (A1 : inner B (mk3 0 1 0 (-1) 0 0 0 0 0) = 0).
  { apply Z. intros s. destruct (HF s) as [S _]. destruct (F s) as [c00 c01 c02 c10 c11 c12 c20 c21 c22]. unfold is_sym, tr3 in S. cbn in S. injection S as ? ? ? ? ? ?. subst. unfold inner; cbn [a00 a01 a02 a10 a11 a12 a20 a21 a22]. ring. }
  assert (A2 : inner B (mk3 0 0 1 0 0 0 (-1) 0 0) = 0).
  { apply Z. intros s. destruct (HF s) as [S _]. destruct (F s) as [c00 c01 c02 c10 c11 c12 c20 c21 c22]. unfold is_sym, tr3 in S. cbn in S. injection S as ? ? ? ? ? ?. subst. unfold inner; cbn [a00 a01 a02 a10 a11 a12 a20 a21 a22]. ring. }
  assert (A3 : inner B (mk3 0 0 0 0 0 1 0 (-1) 0) = 0).
  { apply Z. intros s. destruct (HF s) as [S _]. destruct (F s) as [c00 c01 c02 c10 c11 c12 c20 c21 c22]. unfold is_sym, tr3 in S. cbn in S. injection S as ? ? ? ? ? ?. subst. unfold inner; cbn [a00 a01 a02 a10 a11 a12 a20 a21 a22]. ring. }
  assert (A4 : inner B I3 = 0).
  { apply Z. intros s. destruct (HF s) as [_ T]. rewrite <- T. unfold inner, I3, trace; cbn [a00 a01 a02 a10 a11 a12 a20 a21 a22]. ring. }
  destruct B as [b00 b01 b02 b10 b11 b12 b20 b21 b22]. unfold inner, I3 in *. cbn [a00 a01 a02 a10 a11 a12 a20 a21 a22] in *.
  split; [unfold is_sym, tr3; cbn [a00 a01 a02 a10 a11 a12 a20 a21 a22]; f_equal; lra|unfold trace; cbn [a00 a01 a02 a10 a11 a12 a20 a21 a22]; lra].
Qed.

(** model stress and trial stress *)
Lemma cauchy_split (p : Prob R) q e c pars hs : builtin hs c -> List.length pars = mm_nParams c -> pb_el p = el_of c pars ->
  0 < pb_detV p -> pb_a_V p = Rpow (pb_detV p) (1/3) -> pb_a_V_ri p = 1 / pb_a_V p -> pb_detV_ri p = 1 / pb_detV p ->
  List.length e = 5%nat -> List.length q = 4%nat -> norm2 q = 1 ->
  cong (rotq q) (ten6 (elastNEtoC p e)) =
  add3 (cong (rotq q) (dev3 (latStress c pars (pb_detV p) (pb_eVref p)
     (add3 (scal3 (/ Rpower (pb_detV p) (1 / 3)) (ten5 e)) (scal3 (ln (pb_detV p) / 3) I3)))))
    (scal3 (- (pb_p_EOS p - sqrt 6 / 9 * p_coupling c pars * inner (ten5 e) (basis 1) / Rpower (pb_detV p) (4 / 3))) I3).
Proof.
  intros HB HL Hel Hv Ha Har Hdr Le Lq Hq.
  rewrite <- (dev_law p q e c pars hs HB HL Hel Hv Ha Har Hdr Le Lq Hq).
  pose proof (pressure_formula p q e Hv Ha Har Hdr Le) as PF. rewrite Hel, (coupling_of hs c pars _ _ HB Hv) in PF.
  rewrite inner_ten5 by (assumption || lia).
  assert (EC : elastNEtoC p e = tab 5 (fun k => get (elastNEtoC p e) k) ++ [get (elastNEtoC p e) 5]) by reflexivity.
  rewrite EC in PF |- * at 1. rewrite EC at 2. rewrite stress_out_law in PF by (assumption || reflexivity). rewrite stress_out_law by (assumption || reflexivity).
  rewrite <- EC in *. set (A := cong (rotq q) (ten6 (elastNEtoC p e))) in *.
  assert (SA : is_sym A) by (apply cong_sym, ten6_sym). rewrite sym6_svecP by exact SA.
  replace (pb_p_EOS p - _) with (get (svecP A) 6) by (rewrite PF; unfold Rdiv; ring).
  clearbody A. clear -SA. symc A SA. unfold dev3, svecP. specR. rarr. spec. meq; field.
Qed.

(** derivative of the model's Cauchy stress along a curve of solutions *)
Lemma tan_full (p : Prob R) (d x : R -> list R) t dx law lu mt bulk Dd :
  dl 8 x t dx -> dl 5 d t (vec5 Dd) -> (forall u, List.length (d u) = 5%nat) ->
  List.length (pb_Cn_quat p) = 4%nat /\ SpecTensor.norm2 (pb_Cn_quat p) = 1 -> List.length (pb_w_veccp_sm p) = 3%nat ->
  (forall tau k, List.length tau = sg_nslip (pb_sg p) -> (k < sg_nslip (pb_sg p))%nat ->
     get (fst (fst (k_evalGdots (pb_kin p) tau (pb_kin_vals p)))) k = law k (get tau k)) ->
  d t = pb_d_vecd_sm p ->
  (forall k, (k < sg_nslip (pb_sg p))%nat -> D (law k) (get (ev_taua (evalEv p (x t))) k) (get (ev_dgdot_dtau (evalEv p (x t))) k)) ->
  / 10 ^ 9 <= norm3 (toV3 (ev_xi (evalEv p (x t)))) ->
  (forall j, (j < 8)%nat -> D (fun u => res0 (with_d p (d u)) (x u) j) t 0) ->
  solves_exactly lu -> mtan_vecds lu p (x t) = Some mt -> is_dev Dd -> pb_dt_ri p * pb_dt p = 1 ->
  dM (fun u => cong (rotq (ev_C_quat (evalEv p (x u)))) (ten6 (el_getCauchy (ev_T (evalEv p (x u))) (pb_detV_ri p)))) t
     (stiff (fun r q => get (mtanSD_of p bulk mt) (6 * r + q)) (scal3 (pb_dt p) Dd)).
Proof.
  intros Hx Hd Ld HQ Lw Hlaw Hdt Hdlaw Hxi HR HE HM HDd Hri.
  assert (WD : with_d p (d t) = p) by (rewrite Hdt; destruct p; reflexivity).
  rewrite <- WD in Hdlaw, Hxi, HM.
  destruct (lu 8%nat (jacobian0 (with_d p (d t)) (evalEv (with_d p (d t)) (x t))) (mtan_rhs_T (evalEv (with_d p (d t)) (x t))) 5%nat) as [sol|] eqn:HS.
  2:{ exfalso. unfold mtan_vecds in HM. cbv zeta in HM. rewrite HS in HM. discriminate HM. }
  pose proof (D_S p d x t (vec5 Dd) dx Hx eq_refl HQ Lw Hxi) as DS.
  pose proof (tan_apply p d x t (vec5 Dd) dx law Hx Hd Ld eq_refl HQ Lw Hlaw Hdlaw Hxi HR lu sol HE HS mt HM bulk Dd HDd eq_refl Hri) as TA.
  replace (stiff (fun r q => get (mtanSD_of p bulk mt) (6 * r + q)) (scal3 (pb_dt p) Dd))
    with (stiff (fun r q => get (mtanSD_of (with_d p (d t)) bulk mt) (6 * r + q)) (scal3 (pb_dt p) Dd)) by (rewrite WD; reflexivity).
  exact (eq_ind_r (fun B => dM (fun u => cong (rotq (ev_C_quat (evalEv p (x u)))) (ten6 (el_getCauchy (ev_T (evalEv p (x u))) (pb_detV_ri p)))) t B) DS TA).
Qed.

(** the direction found by the linear solver keeps the step solved *)
Lemma tan_dir_ok (p : Prob R) (d x : R -> list R) t dd dx law lu sol :
  dl 8 x t dx -> dl 5 d t dd -> (forall u, List.length (d u) = 5%nat) -> List.length dd = 5%nat ->
  List.length (pb_Cn_quat p) = 4%nat /\ SpecTensor.norm2 (pb_Cn_quat p) = 1 -> List.length (pb_w_veccp_sm p) = 3%nat ->
  (forall tau k, List.length tau = sg_nslip (pb_sg p) -> (k < sg_nslip (pb_sg p))%nat ->
     get (fst (fst (k_evalGdots (pb_kin p) tau (pb_kin_vals p)))) k = law k (get tau k)) ->
  d t = pb_d_vecd_sm p ->
  (forall k, (k < sg_nslip (pb_sg p))%nat -> D (law k) (get (ev_taua (evalEv p (x t))) k) (get (ev_dgdot_dtau (evalEv p (x t))) k)) ->
  / 10 ^ 9 <= norm3 (toV3 (ev_xi (evalEv p (x t)))) ->
  solves_exactly lu -> lu 8%nat (jacobian0 p (evalEv p (x t))) (mtan_rhs_T (evalEv p (x t))) 5%nat = Some sol ->
  (forall q, (q < 8)%nat -> sc q * get dx q = sum 5 (fun j => get2 8 sol j q * get dd j)) ->
  forall i, (i < 8)%nat -> D (fun u => res0 (with_d p (d u)) (x u) i) t 0.
Proof.
  intros Hx Hd Ld Ldd HQ Lw Hlaw Hdt Hdlaw Hxi HE HS Hdir i Hi.
  assert (WD : with_d p (d t) = p) by (rewrite Hdt; destruct p; reflexivity).
  rewrite <- WD in Hdlaw, Hxi, HS.
  pose proof (D_res0 p d x t dd dx law Hx Hd Ld Ldd HQ Lw Hlaw Hdlaw Hxi i Hi) as DR.
  eapply D_eq; [exact DR|]. clear DR.
  destruct (HE _ _ _ _ _ HS) as [H1 _].
  rewrite (sum_ext 8 _ (fun q => sum 5 (fun j => get2 8 (jacobian0 (with_d p (d t)) (evalEv (with_d p (d t)) (x t))) i q * get2 8 sol j q * get dd j))).
  2:{ intros q Hq. rewrite Hdir by assumption. rewrite <- sum_scal_l. apply sum_ext. intros; ring. }
  rewrite sum_exchange.
  rewrite (sum_ext 5 _ (fun j => get2 8 (mtan_rhs_T (evalEv (with_d p (d t)) (x t))) j i * get dd j)).
  2:{ intros j Hj. rewrite sum_scal_r. f_equal. rewrite sum_fold. exact (H1 j i Hj Hi). }
  unfold mtan_rhs_T. destruct (Nat.ltb_spec i 5) as [L|L].
  - apply Rminus_diag_eq. apply sum_ext. intros j Hj. rewrite get2_tab2 by lia. apply Nat.ltb_lt in L. rewrite L. reflexivity.
  - rewrite (sum_zero 5); [ring|]. intros j Hj. rewrite get2_tab2 by lia. destruct (Nat.ltb_spec i 5); [lia|]. change (nZ 0) with 0. ring.
Qed.

Section CT.
  Variables (hs : Solver R) (c : MClass R) (b : BCall) (i : nat) (pars : list R).
  Hypothesis G : good hs c b.
  Hypothesis Hi : (i < b_n b)%nat.
  Hypothesis U : in_use c (b_s b) pars.
  Let s := b_s b. Let m := b_m b. Let m1 := b_m1 b.
  Variables (md sd : nat -> V3) (law : nat -> R -> R) (ref : R) (ok : nat -> R -> Prop).
  Hypothesis HSys : systems hs c pars md sd.
  Hypothesis HLaw : smooth_law hs c pars (tKel s m1 i) (strength s m1 i) law ref ok.
  Hypothesis Hv : 0 < vNew s m i.

  Lemma call_tan : 0 < b_dt b -> SpecTensor.norm2 (quat s m i) <> 0 -> trace (devRate s m i) = 0 ->
    exists (f : list R -> list R * list R) (C0 : M3), rotates (unit4 (quat s m i)) C0 /\
    (forall x, fst (f x) = trial_eqs c pars b i md sd law ref C0 x) /\
    let r := b_solver b 8%nat f (nth 2 pars 0) 200%nat [0; 0; 0; 0; 0; 0; 0; 0] in
    let x := so_x r in
    so_converged r = true /\ dev_strain s m1 i = trial_strain (dev_strain s m i) x /\ rotates (quat s m1 i) (trial_turn C0 x) /\
    devStress s m1 i = trial_dev c pars b i C0 x /\ pres s m1 i = trial_pres c pars b i x /\
    (b_mtan b = true ->
      stiff (tangent s m1 i) I3 = scal3 (3 * val s m1 AB i 0) I3 /\
      (solves_exactly (b_lu b) -> / 10 ^ 9 <= norm3 (trial_rot x) -> (forall k, (k < c_nslip c)%nat -> ok k (trial_tau c pars b i md sd x k)) ->
       forall (Dt : R -> M3) (X : R -> list R) (t : R) (Dd : M3) (dX : list R),
         (forall u, is_dev (Dt u)) -> Dt t = devRate s m i -> derives Dt t Dd ->
         (forall u, List.length (X u) = 8%nat) -> X t = x -> (forall j, (j < 8)%nat -> is_derive (fun u => nth j (X u) 0) t (nth j dX 0)) ->
         keeps_solved c pars b i md sd law C0 Dt X t ->
         derives (fun u => trial_cauchy c pars b i C0 (X u)) t (stiff (tangent s m1 i) (scal3 (b_dt b) Dd))) /\
      (solves_exactly (b_lu b) -> / 10 ^ 9 <= norm3 (trial_rot x) -> (forall k, (k < c_nslip c)%nat -> ok k (trial_tau c pars b i md sd x k)) ->
       List.length x = 8%nat -> forall Dd, is_dev Dd -> exists dX : list R,
         keeps_solved c pars b i md sd law C0 (fun u => add3 (devRate s m i) (scal3 u Dd)) (fun u => map (fun j => nth j x 0 + u * nth j dX 0) (seq 0 8)) 0)).
  Proof.
    intros Hdt Hq HT.
    pose proof (call_stress hs c b i pars G Hi U Hv Hq) as CS.
    destruct (call_material hs c b i pars G Hi U Hv) as (CP & _).
    destruct (call_prob hs c b i pars G Hi U md sd law ref ok HSys HLaw Hv)
      as (p & _ & Cv & Edt & Edri & Ea & Eari & Ens & SD & Ed & Ew & EC & L5 & EE0 & EE1 & EQ & R0 & R1 & Escl & Erot & TS & TR & TT & TL & TD & Eel & EdV & Eap & EdVr & Eev & Epe & EM & _).
    fold s m m1 in CS, CP, Ea, Ed, Ew, EC, EE0, EE1, EQ, TS, EdV, Eev, Epe, EM.
    set (r := b_solver b 8%nat (computeRJ p) (nth 2 pars 0) 200%nat (tab 8 (fun _ => 0))) in *.
    assert (ED : sym6 (get (in_cell c b i AD)) = devRate s m i).
    { unfold devRate, sym6. rewrite !(in_val hs c b i G Hi AD) by (cbn [per_point]; lia). reflexivity. }
    assert (HD : is_dev (devRate s m i)) by (split; [reflexivity|exact HT]).
    rewrite svec_vec5 in Ed by (rewrite ED; exact HT). rewrite ED in Ed.
    destruct (P_Sngl2.normalize_unit (quat s m i) eq_refl Hq) as [NQ LQ]. rewrite <- EC in NQ, LQ.
    assert (Ha0 : pb_a_V p <> 0) by (rewrite Ea; unfold Rpower; apply Rgt_not_eq, exp_pos).
    assert (Hdt0 : pb_dt p <> 0) by (rewrite Edt; lra).
    rewrite <- Edt in Edri. pose proof (norm_vec5 _ HD) as NV.
    rewrite Ed, NV in Escl.
    destruct (scale_law ref (b_dt b) (devRate s m i) R0 Hdt) as [SL SP]. rewrite SL in Escl. clear SL.
    assert (ER : pb_rotincr_scale_inv p = / (b_dt b * rate_scale ref (b_dt b) (devRate s m i))).
    { rewrite Erot, Escl, Edri, Edt. field. split; lra. }
    assert (CC : forall x, rotq (ev_C_quat (evalEv p x)) = mul3 (rotq (pb_Cn_quat p)) (turn (trial_rot x))).
    { intros x. rewrite (ev_C_comp p (conj LQ NQ) x), turn_emap, TR. reflexivity. }
    assert (SS : forall x f, slip_sum (c_nslip c) (get (ev_gdot (evalEv p x))) f = slip_sum (c_nslip c) (trial_rate c pars b i md sd law x) f).
    { intros x f. apply slip_sum_ext. intros k Hk. rewrite ev_gdot_evalGdots, TL, get_tab by assumption. unfold trial_rate. now rewrite TT. }
    exists (computeRJ p), (rotq (pb_Cn_quat p)).
    refine (conj _ (conj _ _)).
    - rewrite EC, normalize_unit4 by reflexivity. apply rotq_rotates. reflexivity.
    - intros x. cbn [computeRJ fst].
      pose proof (res_strain p (devRate s m i) (c_nslip c) sd md HD Ed Ens SD (conj LQ NQ) L5 Edri Hdt0 Eari x) as RS.
      pose proof (res_spin p (devRate s m i) (spin s m i) (c_nslip c) sd md Ed Ew Ens SD (conj LQ NQ) L5 Edri Hdt0 Eari Ha0 x) as RW.
      cbv zeta in RS, RW. rewrite EE0, TS, CC in RS, RW.
      rewrite (list_tab (residual p x) 8) by reflexivity. unfold tab. cbn [seq map].
      rewrite !RS by lia. destruct RW as (W0 & W1 & W2). rewrite W0, W1, W2. rewrite Escl, ER.
      unfold trial_eqs, trial_strain_gap, trial_spin_gap, trial_turn. fold s m. cbn [map app].
      unfold strain_gap, spin_gap in *. rewrite SS. rewrite TR, Edt, Ea.
      set (K := rate_scale ref (b_dt b) (devRate s m i)). clearbody K. unfold Rdiv.
      meq; rewrite Rmult_comm; try reflexivity; rewrite (SS x (fun k => skwp (outer (sd k) (md k)))); reflexivity.
    - change [0; 0; 0; 0; 0; 0; 0; 0] with (tab 8 (fun _ => 0)). cbv zeta. fold r.
      assert (E1 : dev_strain s m1 i = trial_strain (dev_strain s m i) (so_x r)) by (rewrite <- EE1; apply TS).
      assert (E2 : rotq (quat s m1 i) = trial_turn (rotq (pb_Cn_quat p)) (so_x r)) by (unfold trial_turn; rewrite <- CC; exact EQ).
      refine (conj Cv (conj E1 (conj _ (conj _ (conj _ _))))).
      + rewrite <- E2. apply rotq_rotates. reflexivity.
      + refine (eq_trans CS _). fold s m m1. rewrite E2. unfold trial_dev. fold s m. rewrite <- E1. reflexivity.
      + refine (eq_trans CP _). unfold trial_pres. fold s m m1. rewrite <- E1. unfold dev_strain. rewrite inner_ten5 by (reflexivity || lia). reflexivity.
      + intros Hm. destruct (EM Hm) as (mv & M1 & M2).
        assert (ET : forall E, stiff (tangent s m1 i) E = stiff (fun r q => get (mtanSD_of p (val s m1 AB i 0) mv) (6 * r + q)) E).
        { intros E. unfold stiff, tangent, sym6. cbn [map fold_right]. cbv beta. rewrite !M2 by lia. reflexivity. }
        assert (Lw : List.length (pb_w_veccp_sm p) = 3%nat) by (rewrite Ew; reflexivity).
        assert (H1 : forall tau k, List.length tau = sg_nslip (pb_sg p) -> (k < sg_nslip (pb_sg p))%nat ->
            get (fst (fst (k_evalGdots (pb_kin p) tau (pb_kin_vals p)))) k = law k (get tau k)).
        { intros tau k _ Hk. rewrite Ens in Hk. rewrite TL, get_tab by assumption. reflexivity. }
        set (K := rate_scale ref (b_dt b) (devRate s m i)) in *.
        assert (RZ : forall Dt X (HDt : forall u, is_dev (Dt u)) (u : R) j, (j < 5)%nat -> res0 (with_d p (vec5 (Dt u))) (X u) j = inner (gap_strain c pars b i md sd law (rotq (pb_Cn_quat p)) (Dt u) (X u)) (basis j)).
        { intros Dt X HDt u j Hj.
          pose proof (res_strain (with_d p (vec5 (Dt u))) (Dt u) (c_nslip c) sd md (HDt u) eq_refl Ens SD (conj LQ NQ) L5 Edri Hdt0 Eari (X u) j Hj) as RS.
          rewrite residual_res0 in RS by lia. replace (Nat.ltb j 5) with true in RS by (symmetry; now apply Nat.ltb_lt).
          apply Rmult_eq_reg_l in RS; [|change (pb_epsdot_scale_inv (with_d p (vec5 (Dt u)))) with (pb_epsdot_scale_inv p); rewrite Escl; apply Rinv_neq_0_compat; lra].
          rewrite RS. clear RS. f_equal. unfold gap_strain. fold s m.
          change (ev_e_f (evalEv (with_d p (vec5 (Dt u))) (X u))) with (ev_e_f (evalEv p (X u))).
          change (ev_C_quat (evalEv (with_d p (vec5 (Dt u))) (X u))) with (ev_C_quat (evalEv p (X u))).
          change (ev_gdot (evalEv (with_d p (vec5 (Dt u))) (X u))) with (ev_gdot (evalEv p (X u))).
          change (pb_e_vecd_n (with_d p (vec5 (Dt u)))) with (pb_e_vecd_n p). change (pb_dt (with_d p (vec5 (Dt u)))) with (pb_dt p).
          change (pb_a_V (with_d p (vec5 (Dt u)))) with (pb_a_V p).
          rewrite EE0, TS, CC, Edt, Ea. unfold strain_gap. rewrite SS. reflexivity. }
        assert (RW : forall (Dt : R -> M3) (X : R -> list R) (u : R), let g := gap_spin c pars b i md sd law (rotq (pb_Cn_quat p)) (X u) in
           res0 (with_d p (vec5 (Dt u))) (X u) 5 = a21 g /\ res0 (with_d p (vec5 (Dt u))) (X u) 6 = a02 g /\ res0 (with_d p (vec5 (Dt u))) (X u) 7 = a10 g).
        { intros Dt X u.
          pose proof (res_spin (with_d p (vec5 (Dt u))) (Dt u) (spin s m i) (c_nslip c) sd md eq_refl Ew Ens SD (conj LQ NQ) L5 Edri Hdt0 Eari Ha0 (X u)) as RS.
          rewrite !residual_res0 in RS by lia. change (Nat.ltb 5 5) with false in RS. change (Nat.ltb 6 5) with false in RS. change (Nat.ltb 7 5) with false in RS. cbv iota in RS.
          change (pb_rotincr_scale_inv (with_d p (vec5 (Dt u)))) with (pb_rotincr_scale_inv p) in RS. rewrite ER in RS.
          assert (KZ : / (b_dt b * K) <> 0) by (apply Rinv_neq_0_compat; apply Rmult_integral_contrapositive_currified; lra).
          change (ev_e_f (evalEv (with_d p (vec5 (Dt u))) (X u))) with (ev_e_f (evalEv p (X u))) in RS.
          change (ev_xi (evalEv (with_d p (vec5 (Dt u))) (X u))) with (ev_xi (evalEv p (X u))) in RS.
          change (ev_C_quat (evalEv (with_d p (vec5 (Dt u))) (X u))) with (ev_C_quat (evalEv p (X u))) in RS.
          change (ev_gdot (evalEv (with_d p (vec5 (Dt u))) (X u))) with (ev_gdot (evalEv p (X u))) in RS.
          change (pb_e_vecd_n (with_d p (vec5 (Dt u)))) with (pb_e_vecd_n p) in RS. change (pb_dt (with_d p (vec5 (Dt u)))) with (pb_dt p) in RS.
          change (pb_a_V (with_d p (vec5 (Dt u)))) with (pb_a_V p) in RS.
          rewrite EE0, TS, CC, Edt, Ea, TR in RS. unfold spin_gap in RS. rewrite SS in RS.
          destruct RS as (W0 & W1 & W2). apply Rmult_eq_reg_l in W0; [|exact KZ]. apply Rmult_eq_reg_l in W1; [|exact KZ]. apply Rmult_eq_reg_l in W2; [|exact KZ].
          cbv zeta. rewrite W0, W1, W2. unfold gap_spin, spin_gap, trial_turn. fold s m. split; [reflexivity|split; reflexivity]. }
        assert (EF : forall (X : R -> list R) (u : R), cong (rotq (ev_C_quat (evalEv p (X u)))) (ten6 (el_getCauchy (ev_T (evalEv p (X u))) (pb_detV_ri p))) = trial_cauchy c pars b i (rotq (pb_Cn_quat p)) (X u)).
        { intros X u. pose proof G as (HB & _).
          assert (LP : List.length pars = mm_nParams c) by (destruct (call_parts hs c b i pars G Hi U) as (? & ? & ? & ? & ? & ? & ? & ? & ? & ? & ? & ? & X0 & ?); exact X0).
          destruct (ev_C_unit p (conj LQ NQ) (X u)) as [UL UQ].
          assert (Vp : 0 < pb_detV p) by (rewrite EdV; exact Hv).
          pose proof (cauchy_split p (ev_C_quat (evalEv p (X u))) (ev_e_f (evalEv p (X u))) c pars hs HB LP Eel Vp Eap Eari EdVr eq_refl UL UQ) as CSp.
          rewrite TS, CC, EdV, Eev, Epe in CSp. refine (eq_trans _ CSp). rewrite CC. reflexivity. }
        refine (conj _ _); [rewrite ET; exact (tan_vol _ _ _ _ _ M1)|].
        refine (conj _ _).
        * intros HLU Hrot Hok Dt X t Dd dX HDt EDt DDt LX EX DX (GS & DW0 & DW1 & DW2).
        pose proof (derives_dev Dt t Dd HDt DDt) as HDd.
        assert (HXd : dl 8 X t dX) by (intros k Hk; exact (DX k Hk)).
        assert (Hd5 : dl 5 (fun u => vec5 (Dt u)) t (vec5 Dd)).
        { intros k Hk. rewrite vec5_get by exact Hk. apply (D_ext (fun u => inner (Dt u) (basis k))); [intros u; now rewrite vec5_get|exact (DDt (basis k))]. }
        assert (H2 : forall k, (k < sg_nslip (pb_sg p))%nat -> D (law k) (get (ev_taua (evalEv p (X t))) k) (get (ev_dgdot_dtau (evalEv p (X t))) k)).
        { intros k Hk. rewrite Ens in Hk. change (ev_dgdot_dtau (evalEv p (X t))) with (snd (fst (k_evalGdots (pb_kin p) (ev_taua (evalEv p (X t))) (pb_kin_vals p)))).
          apply TD; [exact Hk|]. rewrite TT by exact Hk. rewrite EX. now apply Hok. }
        assert (H3 : / 10 ^ 9 <= norm3 (toV3 (ev_xi (evalEv p (X t))))) by (rewrite TR, EX; exact Hrot).
        assert (EDt' : vec5 (Dt t) = pb_d_vecd_sm p) by (rewrite EDt; symmetry; exact Ed).
        assert (HR : forall j, (j < 8)%nat -> D (fun u => res0 (with_d p (vec5 (Dt u))) (X u) j) t 0).
        { intros j Hj. destruct (Nat.ltb_spec j 5) as [H5|H5].
          - apply (D_ext (fun u => inner (gap_strain c pars b i md sd law (rotq (pb_Cn_quat p)) (Dt u) (X u)) (basis j))); [intros u; symmetry; now apply RZ|].
            exact (GS j H5).
          - assert (J : (j = 5 \/ j = 6 \/ j = 7)%nat) by lia. destruct J as [J|[J|J]]; subst j.
            + apply (D_ext (fun u => a21 (gap_spin c pars b i md sd law (rotq (pb_Cn_quat p)) (X u)))); [intros u; symmetry; apply (RW Dt X u)|exact DW0].
            + apply (D_ext (fun u => a02 (gap_spin c pars b i md sd law (rotq (pb_Cn_quat p)) (X u)))); [intros u; symmetry; apply (RW Dt X u)|exact DW1].
            + apply (D_ext (fun u => a10 (gap_spin c pars b i md sd law (rotq (pb_Cn_quat p)) (X u)))); [intros u; symmetry; apply (RW Dt X u)|exact DW2]. }
        assert (M1' : mtan_vecds (b_lu b) p (X t) = Some mv) by (rewrite EX; exact M1).
        assert (Hri : pb_dt_ri p * pb_dt p = 1) by (rewrite Edri; field; exact Hdt0).
        pose proof (tan_full p (fun u => vec5 (Dt u)) X t dX law (b_lu b) mv (val s m1 AB i 0) Dd HXd Hd5 (fun _ => eq_refl) (conj LQ NQ) Lw H1 EDt' H2 H3 HR HLU M1' HDd Hri) as TF.
        rewrite <- ET in TF. rewrite Edt in TF.
        intros Kt. apply (D_ext (fun u => inner (cong (rotq (ev_C_quat (evalEv p (X u)))) (ten6 (el_getCauchy (ev_T (evalEv p (X u))) (pb_detV_ri p)))) Kt)); [intros u; now rewrite EF|].
        exact (D_inner _ Kt _ _ TF).
          * intros HLU Hrot Hok Lx Dd HDd.
          destruct (b_lu b 8%nat (jacobian0 p (evalEv p (so_x r))) (mtan_rhs_T (evalEv p (so_x r))) 5%nat) as [sol|] eqn:HS.
          2:{ exfalso. unfold mtan_vecds in M1. cbv zeta in M1. rewrite HS in M1. discriminate M1. }
          set (dX := tab 8 (fun q => / sc q * sum 5 (fun j => get2 8 sol j q * get (vec5 Dd) j))).
          exists dX.
          set (Dt := fun u => add3 (devRate s m i) (scal3 u Dd)). set (X := fun u => map (fun j => nth j (so_x r) 0 + u * nth j dX 0) (seq 0 8)).
          assert (HDt : forall u, is_dev (Dt u)).
          { intros u. unfold Dt. apply P_Energy.dev_add; [exact HD|apply P_Energy.dev_scal; exact HDd]. }
          assert (EX : X 0 = so_x r).
          { unfold X. transitivity (tab 8 (fun j => get (so_x r) j)); [|symmetry; apply list_tab; exact Lx]. unfold tab. apply map_ext. intros j. change (nth j (so_x r) 0) with (get (so_x r) j). ring. }
          assert (HXd : dl 8 X 0 dX).
          { intros k Hk. apply (D_ext (fun u => get (so_x r) k + u * get dX k)).
            - intros u. unfold X. change (map (fun j => nth j (so_x r) 0 + u * nth j dX 0) (seq 0 8)) with (tab 8 (fun j => get (so_x r) j + u * get dX j)). rewrite get_tab by exact Hk. reflexivity.
            - unfold D. auto_derive; [exact I|ring]. }
          assert (Hd5 : dl 5 (fun u => vec5 (Dt u)) 0 (vec5 Dd)).
          { intros k Hk. rewrite vec5_get by exact Hk. apply (D_ext (fun u => inner (devRate s m i) (basis k) + u * inner Dd (basis k))).
            - intros u. rewrite vec5_get by exact Hk. unfold Dt. rewrite add3_comp, inner_scal. reflexivity.
            - unfold D. auto_derive; [exact I|ring]. }
          assert (E0 : vec5 (Dt 0) = pb_d_vecd_sm p).
          { rewrite Ed. unfold Dt. f_equal. generalize (devRate s m i). clear. intros A. destruct A, Dd. spec. meq; ring. }
          assert (H2 : forall k, (k < sg_nslip (pb_sg p))%nat -> D (law k) (get (ev_taua (evalEv p (X 0))) k) (get (ev_dgdot_dtau (evalEv p (X 0))) k)).
          { intros k Hk. rewrite Ens in Hk. change (ev_dgdot_dtau (evalEv p (X 0))) with (snd (fst (k_evalGdots (pb_kin p) (ev_taua (evalEv p (X 0))) (pb_kin_vals p)))).
            apply TD; [exact Hk|]. rewrite TT by exact Hk. rewrite EX. now apply Hok. }
          assert (H3 : / 10 ^ 9 <= norm3 (toV3 (ev_xi (evalEv p (X 0))))) by (rewrite TR, EX; exact Hrot).
          assert (HS' : b_lu b 8%nat (jacobian0 p (evalEv p (X 0))) (mtan_rhs_T (evalEv p (X 0))) 5%nat = Some sol) by (rewrite EX; exact HS).
          assert (Hdir : forall q, (q < 8)%nat -> sc q * get dX q = sum 5 (fun j => get2 8 sol j q * get (vec5 Dd) j)).
          { intros q Hq8. unfold dX. rewrite get_tab by exact Hq8. assert (SQ : sc q <> 0) by (unfold sc; rewrite e_scale_R, r_scale_R; destruct (Nat.ltb q 5); lra).
            field. exact SQ. }
          pose proof (tan_dir_ok p (fun u => vec5 (Dt u)) X 0 (vec5 Dd) dX law (b_lu b) sol HXd Hd5 (fun _ => eq_refl) eq_refl (conj LQ NQ) Lw H1 E0 H2 H3 HLU HS' Hdir) as TK.
          refine (conj _ (conj _ (conj _ _))).
          -- intros k Hk. apply (D_ext (fun u => res0 (with_d p (vec5 (Dt u))) (X u) k)); [intros u; now apply RZ|apply TK; lia].
          -- apply (D_ext (fun u => res0 (with_d p (vec5 (Dt u))) (X u) 5)); [intros u; apply (RW Dt X u)|apply TK; lia].
          -- apply (D_ext (fun u => res0 (with_d p (vec5 (Dt u))) (X u) 6)); [intros u; apply (RW Dt X u)|apply TK; lia].
          -- apply (D_ext (fun u => res0 (with_d p (vec5 (Dt u))) (X u) 7)); [intros u; apply (RW Dt X u)|apply TK; lia].
  Qed.
End CT.
