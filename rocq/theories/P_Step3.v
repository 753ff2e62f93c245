(** A successful call solves the step equations; the stored slip rates (C45, C46). *)
From Coq Require Import List ZArith Bool Lia PeanoNat Reals Lra String.
From Verif Require Import Num Arr NumR Util SlipGeom Eos Hard KinVoce KinKMBalD Elast Evptn MatModel Cases SpecTensor
  SpecElast SpecSlip P_Tensor P_Elast P_Eos P_Sngl P_Sngl2 P_Sngl3 P_Batch P_Batch2 P_Batch3 P_Batch4 P_Api P_Builtin SpecApi P_Hist SpecStress P_Stress
  SpecKin SpecKinApi SpecStep P_KinV P_Kin4 P_Call P_Slip P_SlipH P_Demo P_Step P_Step2.
Import ListNotations.
Local Open Scope R_scope.

Lemma ofV3_toV3 l : List.length l = 3%nat -> ofV3 (toV3 l) = l.
Proof. intros L. destruct l as [|? [|? [|? [|]]]]; try discriminate L. reflexivity. Qed.
Lemma within (a k tol : R) : 0 < k -> Rabs (/ k * a) <= tol -> Rabs a <= tol * k.
Proof.
  intros Hk H. rewrite Rabs_mult, (Rabs_right (/ k)) in H by (left; now apply Rinv_0_lt_compat).
  apply (Rmult_le_compat_l k) in H; [|lra]. rewrite <- Rmult_assoc, Rinv_r, Rmult_1_l in H by lra. lra.
Qed.
Lemma slip_sum_ext n g g' f : (forall k, (k < n)%nat -> g k = g' k) -> slip_sum n g f = slip_sum n g' f.
Proof.
  intros H. unfold slip_sum. assert (H' : forall k, In k (seq 0 n) -> g k = g' k) by (intros k Hk; apply in_seq in Hk; apply H; lia).
  revert H'. generalize (seq 0 n). intros l. induction l as [|k l IH]; intros H'; [reflexivity|]. cbn [fold_right]. rewrite H' by now left. rewrite IH; [reflexivity|].
  intros; apply H'; now right.
Qed.

Section CS.
  Variables (hs : Solver R) (c : MClass R) (b : BCall) (i : nat) (pars : list R).
  Hypothesis G : good hs c b.
  Hypothesis Hi : (i < b_n b)%nat.
  Hypothesis U : in_use c (b_s b) pars.
  Let s := b_s b. Let m := b_m b. Let m1 := b_m1 b.
  Variables (md sd : nat -> V3) (law : nat -> R -> R) (ref : R).
  Hypothesis HSys : systems hs c pars md sd.
  Hypothesis HLaw : slip_law hs c pars (tKel s m1 i) (strength s m1 i) law ref.
  Hypothesis Hv : 0 < vNew s m i.

  Lemma call_solves : accurate (b_solver b) -> 0 < b_dt b -> SpecTensor.norm2 (quat s m i) <> 0 -> trace (devRate s m i) = 0 ->
    step_solved c pars b i md sd law ref.
  Proof.
    intros HA Hdt Hq HT.
    destruct (call_step hs c b i pars G Hi U md sd law ref HSys HLaw Hv) as
      (p & r & sg & v & Er & Cv & Edt & Edri & Ea & Eari & Esg & Ens & SD & Ed & Ew & EC & L5 & EE0 & EE1 & EQ & R0 & R1 & EG & Escl & Erot & _).
    assert (ED : sym6 (get (in_cell c b i AD)) = devRate s m i).
    { unfold devRate, sym6. rewrite !(in_val hs c b i G Hi AD) by (cbn [per_point]; lia). reflexivity. }
    assert (HD : is_dev (devRate s m i)) by (split; [reflexivity|exact HT]).
    rewrite svec_vec5 in Ed by (rewrite ED; exact HT). rewrite ED in Ed.
    destruct (P_Sngl2.normalize_unit (quat s m i) eq_refl Hq) as [NQ LQ]. unfold s, m in NQ, LQ. rewrite <- EC in NQ, LQ.
    assert (Ha0 : pb_a_V p <> 0) by (rewrite Ea; unfold Rpower; apply Rgt_not_eq, exp_pos).
    assert (Hdt0 : pb_dt p <> 0) by (rewrite Edt; lra).
    rewrite <- Edt in Edri. rewrite <- Esg in SD, Ens.
    pose proof (res_strain p (devRate s m i) (c_nslip c) sd md HD Ed Ens SD (conj LQ NQ) L5 Edri Hdt0 Eari (so_x r)) as RS.
    pose proof (res_spin p (devRate s m i) (spin s m i) (c_nslip c) sd md Ed Ew Ens SD (conj LQ NQ) L5 Edri Hdt0 Eari Ha0 (so_x r)) as RW.
    cbv zeta in RS, RW. rewrite EE0, EE1 in *. rewrite Ed, norm_vec5 in Escl by exact HD.
    destruct (scale_law ref (b_dt b) (devRate s m i) R0 Hdt) as [SL SP]. rewrite SL in Escl. clear SL.
    set (xi := toV3 (ev_xi (evalEv p (so_x r)))) in *. set (C1 := rotq (ev_C_quat (evalEv p (so_x r)))) in *.
    assert (AC : forall j, (j < 8)%nat -> Rabs (get (residual p (so_x r)) j) <= nth 2 pars 0).
    { intros j Hj. rewrite Er in Cv |- *. exact (HA _ _ _ _ _ Cv j Hj). }
    pose proof (ev_C_comp p (conj LQ NQ) (so_x r)) as CC.
    cbv zeta. exists (rotq (pb_Cn_quat p)), C1, xi.
    assert (EGk : forall k, (k < c_nslip c)%nat -> get (ev_gdot (evalEv p (so_x r))) k = law k (tau_after c pars b i (sd k) (md k))).
    { intros k Hk. rewrite EG. now rewrite get_tab. }
    assert (SS : forall f, slip_sum (c_nslip c) (get (ev_gdot (evalEv p (so_x r)))) f = slip_sum (c_nslip c) (fun k => law k (tau_after c pars b i (sd k) (md k))) f).
    { intros f. apply slip_sum_ext. exact EGk. }
    split; [|split; [|split; [|split]]].
    - rewrite EC, normalize_unit4 by reflexivity. apply rotq_rotates. reflexivity.
    - rewrite <- EQ. apply rotq_rotates. reflexivity.
    - unfold C1. rewrite CC. rewrite turn_emap. reflexivity.
    - intros k Hk. pose proof (AC k ltac:(lia)) as A. rewrite (RS k Hk) in A. rewrite Escl in A. apply within in A; [|exact SP].
      unfold strain_gap in *. rewrite SS in A. rewrite Edt, Ea in A. exact A.
    - assert (ER : pb_rotincr_scale_inv p = / (b_dt b * rate_scale ref (b_dt b) (devRate s m i))).
      { rewrite Erot, Escl, Edri, Edt. field. split; lra. }
      assert (SP' : 0 < b_dt b * rate_scale ref (b_dt b) (devRate s m i)) by now apply Rmult_lt_0_compat.
      rewrite ER in RW. destruct RW as (W0 & W1 & W2). pose proof (AC 5%nat ltac:(lia)) as A0. pose proof (AC 6%nat ltac:(lia)) as A1. pose proof (AC 7%nat ltac:(lia)) as A2.
      rewrite W0 in A0. rewrite W1 in A1. rewrite W2 in A2. apply within in A0, A1, A2; try exact SP'.
      unfold spin_gap in *. rewrite SS in A0, A1, A2. rewrite Edt, Ea in A0, A1, A2.
      split; [|split]; (eapply Rle_trans; [first [exact A0|exact A1|exact A2]|right; unfold s, m; ring]).
  Qed.

  (** stored rates *)
  Lemma call_rates : b_mtan b = true \/ last_at_answer (b_solver b) ->
    forall k, (k < c_nslip c)%nat -> val s m1 AH i (14 + k) = law k (tau_after c pars b i (sd k) (md k)).
  Proof.
    intros HA k Hk. destruct (call_step hs c b i pars G Hi U md sd law ref HSys HLaw Hv) as
      (p & r & sg & v & Er & Cv & Edt & Edri & Ea & Eari & Esg & Ens & SD & Ed & Ew & EC & L5 & EE0 & EE1 & EQ & R0 & R1 & EG & Escl & Erot & Ev & VG & _).
    assert (EV : v = evalEv p (so_x r)).
    { rewrite Ev. f_equal. destruct (b_mtan b); [reflexivity|]. destruct HA as [HA|HA]; [discriminate|]. rewrite Er in Cv |- *. now apply HA. }
    fold s m1 in VG. rewrite (VG k Hk), EV, EG, get_tab by assumption. reflexivity.
  Qed.
  Lemma law_nonneg : forall k t, (k < c_nslip c)%nat -> 0 <= t * law k t.
  Proof.
    intros k t Hk. destruct HLaw as [HC HG|HC PO|HC PO|HC PO Q1].
    - apply law_sign. lra.
    - exact (km_sign false false false false 1 _ 0 _ _ 0 PO t).
    - exact (km_sign true false false false 1 _ 0 _ _ 0 PO t).
    - assert (k < 24)%nat by (rewrite HC in Hk; exact Hk). exact (km_sign true true false false 24 _ 0 _ _ k (PO k H) t).
  Qed.
  Lemma call_rate_sign : b_mtan b = true \/ last_at_answer (b_solver b) ->
    forall k, (k < c_nslip c)%nat -> 0 <= val s m1 AH i (14 + k) * tau_after c pars b i (sd k) (md k).
  Proof. intros HA k Hk. rewrite (call_rates HA k Hk), Rmult_comm. now apply law_nonneg. Qed.

  (** the stored flow strength *)
  Lemma call_flow : b_mtan b = true \/ last_at_answer (b_solver b) -> trace (devRate s m i) = 0 ->
    let Deff := sqrt (2 / 3) * norm3t (devRate s m i) in
    / 10 ^ 90 < Deff ->
    vNew s m i * (val s m1 AH i 2 * Deff) = sum (c_nslip c) (fun k => tau_after c pars b i (sd k) (md k) * val s m1 AH i (14 + k)).
  Proof.
    intros HA HT Deff HD. destruct (call_step hs c b i pars G Hi U md sd law ref HSys HLaw Hv) as
      (p & r & sg & v & Er & Cv & Edt & Edri & Ea & Eari & Esg & Ens & SD & Ed & Ew & EC & L5 & EE0 & EE1 & EQ & R0 & R1 & EG & Escl & Erot & Ev & VG & V0 & V1 & V2 & Edet & _ & ET).
    assert (EV : v = evalEv p (so_x r)).
    { rewrite Ev. f_equal. destruct (b_mtan b); [reflexivity|]. destruct HA as [HA|HA]; [discriminate|]. rewrite Er in Cv |- *. now apply HA. }
    assert (ED : sym6 (get (in_cell c b i AD)) = devRate s m i).
    { unfold devRate, sym6. rewrite !(in_val hs c b i G Hi AD) by (cbn [per_point]; lia). reflexivity. }
    rewrite svec_vec5 in V2 by (rewrite ED; exact HT). rewrite ED in V2.
    assert (E2 : vecd_Deff (vec5 (devRate s m i)) = Deff).
    { unfold vecd_Deff, Deff. change ntvec with 5%nat. rewrite norm_vec5 by (split; [reflexivity|exact HT]).
      change (s2 * s3 / 3 * norm3t (devRate s m i) = sqrt (2 / 3) * norm3t (devRate s m i)). f_equal.
      unfold s2, s3. rewrite <- sqrt_mult by lra. symmetry. clear. replace (2 / 3) with ((2 * 3) / (3 * 3)) by field. rewrite sqrt_div by lra. rewrite sqrt_square by lra. reflexivity. }
    rewrite E2, tiny_R in V2. apply Rltb_true in HD. rewrite HD in V2. apply Rltb_true in HD.
    fold s m1 in V2. rewrite V2. pose proof tiny_pos.
    replace (vNew s m i * (ev_disRate v / Deff * Deff)) with (vNew s m i * ev_disRate v) by (clear - HD H; clearbody Deff; field; lra).
    rewrite EV. change (ev_disRate (evalEv p (so_x r))) with (pb_detV_ri p * vecsyadotb (sg_nslip (pb_sg p)) (ev_taua (evalEv p (so_x r))) (ev_gdot (evalEv p (so_x r)))).
    rewrite Edet, Esg, Ens. unfold vecsyadotb. fold s m.
    set (S := sum _ _). set (S' := sum _ _).
    assert (ES : S = S').
    { unfold S, S'. apply sum_ext. intros k Hk. rewrite (ET k Hk), (call_rates HA k Hk), EG, get_tab by assumption. reflexivity. }
    rewrite ES. change (vNew s m i * (1 / vNew s m i * S') = S'). clear - Hv. clearbody S'. set (x := vNew s m i) in *. assert (x <> 0) by (apply Rgt_not_eq; exact Hv). clearbody x. field. assumption.
  Qed.
End CS.
