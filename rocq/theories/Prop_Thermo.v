(** Property theorems C76: mechanics and thermal state of the Voce models.  They hold in any arithmetic [N : Num T], so in particular
    bit for bit for doubles. *)
From Coq Require Import String List ZArith Bool Reals.
From Verif Require Import Num NumR Util Hard Evptn MatModel Cases P_Batch3 P_Api P_Builtin SpecApi P_Demo SpecState SpecThermo P_Thermo2 P_Demo37.
Import ListNotations.
Local Open Scope nat_scope.

(** ** C76: two calculations with a Voce model that impose the same steps on a point, from the same history, give the same deviatoric
    stress, history and shear modulus at that point after every step: whatever the densities, the heat capacities and the constants of
    the equation of state are, and whatever energies, stresses, pressures and temperatures the caller puts in before each step. *)
Theorem C76_decoupled {T} {N : Num T} hs (c : MClass T) pars pars' solver lu (l l' : list (Visit T)) : voce_model hs c -> same_mechanics c pars pars' ->
  hjourney c pars solver lu l -> hjourney c pars' solver lu l' -> Forall2 (same_drive c) l l' -> same_hstart c l l' -> Forall2 (same_mech_result c) l l'.
Proof. intros V M. exact (journey_thermo hs c pars pars' solver lu V M l l'). Qed.
Print Assumptions C76_decoupled.
(** Nor does success: a call all of whose points have the histories of, and are driven as, points of successful calls of such other
    calculations succeeds. *)
Theorem C76_success {T} {N : Num T} hs (c : MClass T) pars pars' solver lu s n m dt mtan : voce_model hs c -> same_mechanics c pars pars' ->
  in_use c s pars -> mm_complete s = true -> batch_ok c s mtan n m ->
  (forall i, i < n -> exists v, visit c pars' solver lu v /\ v_dt v = dt /\ v_mtan v = mtan /\
    (forall a k, In a [AD; AW; AV] -> k < per_point (c_nH c) (c_nslip c) mtan a -> entry s m a i k = entry (v_s v) (v_m v) a (v_i v) k) /\
    same_history c s m i (v_s v) (v_m v) (v_i v)) ->
  exists m1, mm_getResponse solver lu c s dt mtan (Z.of_nat n) m = (BRet Done, m1).
Proof. intros V M. exact (batch_thermo hs c pars pars' solver lu V M s n m dt mtan). Qed.
Print Assumptions C76_success.

(** two steps of two calculations that differ in everything thermal *)
Example C76_case : voce_model echo demo_c /\ same_mechanics demo_c demo_pars th_pars /\
  (forall k, In k [0; 1; 15; 16] -> nth_error demo_pars k <> nth_error th_pars k) /\
  hjourney demo_c demo_pars echo noLU [at0 1; at1 1] /\ hjourney demo_c th_pars echo noLU [th0 1; th1 1] /\
  Forall2 (same_drive demo_c) [at0 1; at1 1] [th0 1; th1 1] /\ same_hstart demo_c [at0 1; at1 1] [th0 1; th1 1] /\
  entry demo_s demo_m AE 1 0 <> entry th_s th_m AE 1 0 /\ entry demo_s demo_m AS 1 6 <> entry th_s th_m AS 1 6 /\
  Forall2 (same_mech_result demo_c) [at0 1; at1 1] [th0 1; th1 1].
Proof.
  destruct th_case as (H1 & H2 & H3 & H4).
  refine (conj th_voce (conj th_mech (conj th_differ (conj H1 (conj H2 (conj H3 (conj H4 (conj (proj1 th_start_differ) (conj (proj2 th_start_differ) _))))))))).
  exact (C76_decoupled echo demo_c demo_pars th_pars echo noLU _ _ th_voce th_mech H1 H2 H3 H4).
Qed.
Example C76_success_case : exists m1, mm_getResponse echo noLU demo_c th_s (/10)%R false (Z.of_nat 2) th_m = (BRet Done, m1).
Proof. exact th_done0. Qed.
Print Assumptions C76_case.
Print Assumptions C76_success_case.
