(** Property theorems C11: the equation of state. *)
From Coq Require Import List Bool Reals Lra.
From Coquelicot Require Import Coquelicot.
From Verif Require Import Num NumR Eos P_Eos.
Import ListNotations.
Local Open Scope R_scope.

Section C11.
  Variables (iso : bool) (rho0 K cv gamma ec0 : R).
  Let eos := eos_setParams iso [rho0; K; cv; gamma; ec0].

  (** p = K (1/v - 1) + gamma e and T = (e - ec0) / cv, without the energy when isothermal; the version
      with derivatives returns the same values and K/v, dp/de, dT/de *)
  Theorem C11_values v e : v <> 0 ->
    let p := K * (/ v - 1) + (if iso then 0 else gamma * e) in
    let T := ((if iso then 0 else e) - ec0) / cv in
    evalPT eos v e = (p, T) /\ evalT eos e = T /\
    ptd_p (evalPTDiff eos v e) = p /\ ptd_tK (evalPTDiff eos v e) = T.
  Proof.
    intros Hv. destruct (eos_diff iso rho0 K cv gamma ec0 v e Hv) as (A & B & _).
    exact (conj (eos_evalPT iso rho0 K cv gamma ec0 v e Hv) (conj (eos_evalT iso rho0 K cv gamma ec0 e) (conj A B))).
  Qed.
  (** the reported bulk modulus is - v dp/dv, the other two are dp/de and (not isothermal) dT/de *)
  Theorem C11_derivatives v e : v <> 0 ->
    is_derive (fun v => fst (evalPT eos v e)) v (- ptd_bulk (evalPTDiff eos v e) / v) /\
    is_derive (fun e => fst (evalPT eos v e)) e (ptd_dpde (evalPTDiff eos v e)) /\
    (iso = false -> is_derive (fun e => snd (evalPT eos v e)) e (ptd_dtde (evalPTDiff eos v e))).
  Proof.
    intros Hv. refine (conj (eos_dpdv iso rho0 K cv gamma ec0 v e Hv) (conj (eos_dpde iso rho0 K cv gamma ec0 v e Hv) _)).
    intros Hi. pose proof (eos_dtde iso rho0 K cv gamma ec0 v e Hv) as D. rewrite Hi in D. unfold eos. rewrite Hi. exact D.
  Qed.
  (** when isothermal the true dT/de is zero and the reported one the regularised 1e-8 / cv *)
  Theorem C11_isothermal v e : v <> 0 -> iso = true ->
    is_derive (fun e => snd (evalPT eos v e)) e 0 /\ ptd_dtde (evalPTDiff eos v e) = / 100000000 / cv.
  Proof.
    intros Hv Hi. pose proof (eos_dtde iso rho0 K cv gamma ec0 v e Hv) as D.
    destruct (eos_diff iso rho0 K cv gamma ec0 v e Hv) as (_ & _ & _ & _ & E).
    unfold eos. rewrite Hi in D, E |- *. exact (conj D E).
  Qed.
  Theorem C11_reference : fst (evalPT eos 1 0) = 0 /\ (cv <> 0 -> iso = false -> snd (evalPT eos 1 ec0) = 0) /\
    (iso = true -> forall v e v' e', v <> 0 -> v' <> 0 -> snd (evalPT eos v e) = snd (evalPT eos v' e')).
  Proof.
    unfold eos. refine (conj _ (conj _ _)).
    - rewrite (eos_evalPT iso rho0 K cv gamma ec0 1 0 R1_neq_R0). unfold spec_p. cbn [fst]. rewrite Rinv_1. destruct iso; ring.
    - intros Hc Hi. rewrite (eos_evalPT iso rho0 K cv gamma ec0 1 ec0 R1_neq_R0). unfold spec_T. cbn [snd]. rewrite Hi.
      unfold Rdiv. ring.
    - intros Hi v e v' e' Hv Hv'. rewrite !(eos_evalPT iso rho0 K cv gamma ec0) by assumption. cbn [snd]. unfold spec_T. now rewrite Hi.
  Qed.
  (** the step used by the driver: energy after volume work, pressure and temperature there, floor of
      the bulk modulus *)
  Theorem C11_update vNew volInc eOld pOld : vNew <> 0 ->
    let u := updateSimple eos vNew volInc eOld pOld in
    let e1 := eOld - volInc * pOld in
    u_eNew u = e1 /\ (u_press u, u_tK u) = evalPT eos vNew e1 /\
    u_dpde u = ptd_dpde (evalPTDiff eos vNew e1) /\ u_dpdv u = - ptd_bulk (evalPTDiff eos vNew e1) / vNew /\
    / 100000 * K <= u_bulkNew u.
  Proof.
    intros Hv u e1. destruct (eos_update iso rho0 K cv gamma ec0 vNew volInc eOld pOld Hv) as (A & B & C & D & E & _ & F).
    destruct (eos_diff iso rho0 K cv gamma ec0 vNew e1 Hv) as (_ & _ & G & H & _).
    unfold eos in *. fold e1 in A, B, C. unfold u. rewrite A, B, C, D, E, G, H.
    rewrite (eos_evalPT iso rho0 K cv gamma ec0 vNew e1 Hv). exact (conj eq_refl (conj eq_refl (conj eq_refl (conj eq_refl F)))).
  Qed.
End C11.
Example C11_case : (11/10 : R) <> 0 /\ fst (evalPT (eos_setParams false [3; 5/3; 2; 17/10; -600]) (11/10) 1) = 17/10 - 5/33.
Proof.
  assert (H : (11/10 : R) <> 0) by lra. split; [exact H|].
  rewrite (eos_evalPT false 3 (5/3) 2 (17/10) (-600) (11/10) 1 H). unfold spec_p. cbn [fst]. field.
Qed.

Print Assumptions C11_values.
Print Assumptions C11_derivatives.
Print Assumptions C11_isothermal.
Print Assumptions C11_reference.
Print Assumptions C11_update.
