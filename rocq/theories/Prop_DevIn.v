(** Property theorems C79: the deviatoric stress handed in.  They hold in any arithmetic [N : Num T], so in particular bit for bit for
    doubles. *)
From Coq Require Import String List ZArith Bool Reals.
From Verif Require Import Num NumR Util Hard Evptn MatModel Cases P_Batch3 P_Api P_Builtin SpecApi P_Demo SpecState SpecThermo SpecTemp SpecDevIn SpecDevE P_DevIn P_DevE P_Demo37 P_Demo41.
Import ListNotations.
Local Open Scope nat_scope.

(** ** C79: two calculations with the same parameters that impose the same steps on a point, from the same history and with the same
    energy and pressure handed in before every step, give the same stress, history, temperature, moduli and tangent at that point after
    every step, whatever deviatoric stress, temperature and moduli are handed in: only the energy handed back can differ. *)
Theorem C79_only_energy {T} {N : Num T} (c : MClass T) pars solver lu (l l' : list (Visit T)) : hjourney c pars solver lu l -> hjourney c pars solver lu l' ->
  Forall2 (same_drive c) l l' -> Forall2 same_energy l l' -> Forall2 same_pressure l l' -> same_hstart c l l' -> Forall2 (same_but_energy c) l l'.
Proof. exact (journey_dev c pars solver lu l l'). Qed.
Print Assumptions C79_only_energy.
(** Nor does success depend on it. *)
Theorem C79_success {T} {N : Num T} (c : MClass T) pars solver lu s n m dt mtan : in_use c s pars -> mm_complete s = true -> batch_ok c s mtan n m ->
  (forall i, i < n -> exists v, visit c pars solver lu v /\ v_dt v = dt /\ v_mtan v = mtan /\
    (forall a k, In a [AD; AW; AV] -> k < per_point (c_nH c) (c_nslip c) mtan a -> entry s m a i k = entry (v_s v) (v_m v) a (v_i v) k) /\
    entry s m AE i 0 = entry (v_s v) (v_m v) AE (v_i v) 0 /\ entry s m AS i 6 = entry (v_s v) (v_m v) AS (v_i v) 6 /\ same_history c s m i (v_s v) (v_m v) (v_i v)) ->
  exists m1, mm_getResponse solver lu c s dt mtan (Z.of_nat n) m = (BRet Done, m1).
Proof. exact (batch_dev c pars solver lu s n m dt mtan). Qed.
Print Assumptions C79_success.

(** And the energy differs by exactly half the step's work of the difference of the deviatoric stresses handed in (real numbers). *)
Theorem C79_energy (c : MClass R) pars solver lu v v' : visit c pars solver lu v -> visit c pars solver lu v' -> same_drive c v v' -> same_energy v v' -> same_pressure v v' ->
  same_history c (v_s v) (v_m v) (v_i v) (v_s v') (v_m v') (v_i v') ->
  (returned v' AE 0 - returned v AE 0 = half_work v (fun k => given v' AS k - given v AS k))%R.
Proof. exact (energy_dev c pars solver lu v v'). Qed.
Print Assumptions C79_energy.

(** the second of two points, with other deviatoric stresses *)
Example C79_case : hjourney demo_c demo_pars echo noLU [at0 1] /\ hjourney demo_c demo_pars echo noLU [dv0 1] /\
  Forall2 (same_drive demo_c) [at0 1] [dv0 1] /\ Forall2 same_energy [at0 1] [dv0 1] /\ Forall2 same_pressure [at0 1] [dv0 1] /\ same_hstart demo_c [at0 1] [dv0 1] /\
  entry demo_s demo_m AS 1 0 <> entry demo_s dv_m AS 1 0 /\ Forall2 (same_but_energy demo_c) [at0 1] [dv0 1].
Proof.
  destruct dv_case as (H1 & H2 & H3 & H4 & H5 & H6 & H7).
  exact (conj H1 (conj H2 (conj H3 (conj H4 (conj H5 (conj H6 (conj H7 (C79_only_energy demo_c demo_pars echo noLU _ _ H1 H2 H3 H4 H5 H6)))))))).
Qed.
(** the energies of these two calls differ *)
Example C79_energy_case : (returned (dv0 1) AE 0 - returned (at0 1) AE 0 = 19 / 400)%R.
Proof.
  rewrite <- dv_half. pose proof dv_case as ((V & _) & (V' & _) & D & E & P & S & _). inversion D; inversion E; inversion P; subst.
  apply (C79_energy demo_c demo_pars echo noLU (at0 1) (dv0 1)); assumption.
Qed.
Example C79_success_case : exists m1, mm_getResponse echo noLU demo_c demo_s (/10)%R false (Z.of_nat 2) dv_m = (BRet Done, m1).
Proof. exact dv_done. Qed.
Print Assumptions C79_case.
