(** Proofs about the equation of state (ECMech_eosSimple.h) over R: C11, C12. *)
From Coq Require Import List ZArith Bool Lia Reals Lra.
From Coquelicot Require Import Coquelicot.
From Verif Require Import Num Arr NumR Eos.
Import ListNotations.
Local Open Scope R_scope.

(** Specification: p = K (1/v - 1) + gamma e, T = (e - ec0) / cv; the isothermal
    variant drops the energy dependence. *)
Definition spec_p (iso : bool) (K gamma v e : R) : R := K * (/ v - 1) + (if iso then 0 else gamma * e).
Definition spec_T (iso : bool) (cv ec0 e : R) : R := ((if iso then 0 else e) - ec0) / cv.

Section E.
  Variables (iso : bool) (rho0 K cv gamma ec0 : R).
  Let eos := eos_setParams iso [rho0; K; cv; gamma; ec0].

  Lemma eos_evalPT v e : v <> 0 -> evalPT eos v e = (spec_p iso K gamma v e, spec_T iso cv ec0 e).
  Proof.
    intros Hv. unfold eos, evalPT, eos_setParams, spec_p, spec_T. rarr. destruct iso; cbn; f_equal; unfold Rdiv; ring.
  Qed.
  Lemma eos_evalT e : evalT eos e = spec_T iso cv ec0 e.
  Proof. unfold eos, evalT, eos_setParams, spec_T. rarr. destruct iso; cbn; unfold Rdiv; ring. Qed.

  Lemma eos_diff v e : v <> 0 ->
    let d := evalPTDiff eos v e in
    ptd_p d = spec_p iso K gamma v e /\ ptd_tK d = spec_T iso cv ec0 e /\ ptd_bulk d = K / v /\
    ptd_dpde d = (if iso then 0 else gamma) /\
    ptd_dtde d = (if iso then / 100000000 else 1) / cv.
  Proof.
    intros Hv d. unfold d. pose proof (eos_evalT e) as ET.
    unfold evalPTDiff. unfold eos in *. cbn [eos_iso eos_setParams].
    destruct iso; cbn [ptd_p ptd_tK ptd_bulk ptd_dpde ptd_dtde]; rewrite ET;
      unfold spec_p, eos_setParams; rarr; cbn [nlit Rlit];
      repeat split; try (unfold Rdiv; ring); cbn; unfold Rdiv; rewrite ?Rmult_1_l; ring.
  Qed.

  (** pressure depends on volume with slope - bulk / v, on energy with slope dp/de *)
  Lemma eos_dpdv v e : v <> 0 ->
    is_derive (fun v => fst (evalPT eos v e)) v (- ptd_bulk (evalPTDiff eos v e) / v).
  Proof.
    intros Hv. destruct (eos_diff v e Hv) as (_ & _ & -> & _).
    apply (is_derive_ext_loc (fun v => spec_p iso K gamma v e)).
    - assert (Hp : 0 < Rabs v) by now apply Rabs_pos_lt.
      exists (mkposreal _ Hp). intros y Hy. rewrite eos_evalPT; [reflexivity|].
      intros ->. unfold ball in Hy; cbn in Hy. unfold AbsRing_ball in Hy; cbn in Hy.
      unfold abs, minus, plus, opp in Hy; cbn in Hy. rewrite Rplus_0_l, Rabs_Ropp in Hy. lra.
    - unfold spec_p. destruct iso; auto_derive; auto; field; auto.
  Qed.
  Lemma eos_dpde v e : v <> 0 ->
    is_derive (fun e => fst (evalPT eos v e)) e (ptd_dpde (evalPTDiff eos v e)).
  Proof.
    intros Hv. destruct (eos_diff v e Hv) as (_ & _ & _ & -> & _).
    apply (is_derive_ext (fun e => spec_p iso K gamma v e)); [intros; now rewrite eos_evalPT|].
    unfold spec_p. destruct iso; auto_derive; auto; ring.
  Qed.
  Lemma eos_dtde v e : v <> 0 ->
    is_derive (fun e => snd (evalPT eos v e)) e (if iso then 0 else ptd_dtde (evalPTDiff eos v e)).
  Proof.
    intros Hv. destruct (eos_diff v e Hv) as (_ & _ & _ & _ & ->).
    apply (is_derive_ext (fun e => spec_T iso cv ec0 e)); [intros; now rewrite eos_evalPT|].
    unfold spec_T. destruct iso; auto_derive; auto; unfold Rdiv; ring.
  Qed.

  Lemma eos_update vNew volInc eOld pOld : vNew <> 0 ->
    let u := updateSimple eos vNew volInc eOld pOld in
    let e1 := eOld - volInc * pOld in
    u_eNew u = e1 /\ u_press u = spec_p iso K gamma vNew e1 /\ u_tK u = spec_T iso cv ec0 e1 /\
    u_dpdv u = - (K / vNew) / vNew /\ u_dpde u = (if iso then 0 else gamma) /\
    u_bulkNew u = Rmax (/ 100000 * K) (K / vNew + (if iso then 0 else gamma) * pOld * vNew) /\
    / 100000 * K <= u_bulkNew u.
  Proof.
    intros Hv u e1. destruct (eos_diff vNew e1 Hv) as (E1 & E2 & E3 & E4 & E5).
    unfold u, updateSimple. rops. fold e1. cbn [u_eNew u_press u_tK u_dpdv u_dpde u_bulkNew].
    rewrite E1, E2, E3, E4.
    assert (EK : nlit 1 (-5) * getBulkRef eos = / 100000 * K).
    { unfold eos, getBulkRef, eos_setParams. cbn. unfold Rdiv. rewrite Rmult_1_l. reflexivity. }
    rewrite EK. repeat split. apply Rmax_l.
  Qed.
End E.
