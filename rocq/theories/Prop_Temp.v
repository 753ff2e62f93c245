(** Property theorems C77: mechanics and thermal state of the models with thermally activated slip.  They hold in any arithmetic
    [N : Num T], so in particular bit for bit for doubles. *)
From Coq Require Import String List ZArith Bool Reals.
From Verif Require Import Num NumR Util Hard Evptn MatModel Cases P_Batch3 P_Api P_Builtin SpecApi P_Demo P_Demo3 SpecState SpecThermo SpecTemp P_Temp P_Demo38 P_Demo16 SpecSym P_Demo39.
Import ListNotations.
Local Open Scope nat_scope.

(** ** C77: two calculations with a cubic model of this kind that impose the same steps on a point, from the same history and with the same internal
    energies before the steps, give the same deviatoric stress, history and shear modulus at that point after every step: whatever the
    densities and the Grueneisen constants are, and whatever stresses, pressures and temperatures the caller puts in before each step. *)
Theorem C77_energy_only {T} {N : Num T} hs (c : MClass T) pars pars' solver lu (l l' : list (Visit T)) : mts_cubic hs c -> same_but_pressure c pars pars' ->
  hjourney c pars solver lu l -> hjourney c pars' solver lu l' -> Forall2 (same_drive c) l l' -> Forall2 same_energy l l' -> same_hstart c l l' ->
  Forall2 (same_mech_result c) l l'.
Proof. intros V M. exact (journey_cubic hs c pars pars' solver lu V M l l'). Qed.
Print Assumptions C77_energy_only.
(** Nor does success depend on them. *)
Theorem C77_success {T} {N : Num T} hs (c : MClass T) pars pars' solver lu s n m dt mtan : mts_cubic hs c -> same_but_pressure c pars pars' ->
  in_use c s pars -> mm_complete s = true -> batch_ok c s mtan n m ->
  (forall i, i < n -> exists v, visit c pars' solver lu v /\ v_dt v = dt /\ v_mtan v = mtan /\
    (forall a k, In a [AD; AW; AV] -> k < per_point (c_nH c) (c_nslip c) mtan a -> entry s m a i k = entry (v_s v) (v_m v) a (v_i v) k) /\
    entry s m AE i 0 = entry (v_s v) (v_m v) AE (v_i v) 0 /\ same_history c s m i (v_s v) (v_m v) (v_i v)) ->
  exists m1, mm_getResponse solver lu c s dt mtan (Z.of_nat n) m = (BRet Done, m1).
Proof. intros V M. exact (batch_cubic hs c pars pars' solver lu V M s n m dt mtan). Qed.
Print Assumptions C77_success.

(** The same for the hexagonal model if also the pressures handed in before the steps are the same. *)
Theorem C77_hexagonal {T} {N : Num T} hs (c : MClass T) pars pars' solver lu (l l' : list (Visit T)) : c = cls_HCP_A hs -> same_but_pressure c pars pars' ->
  hjourney c pars solver lu l -> hjourney c pars' solver lu l' -> Forall2 (same_drive c) l l' -> Forall2 same_energy l l' -> Forall2 same_pressure l l' -> same_hstart c l l' ->
  Forall2 (same_mech_result c) l l'.
Proof. intros V M. exact (journey_hex hs c pars pars' solver lu V M l l'). Qed.
Print Assumptions C77_hexagonal.
Theorem C77_hexagonal_success {T} {N : Num T} hs (c : MClass T) pars pars' solver lu s n m dt mtan : c = cls_HCP_A hs -> same_but_pressure c pars pars' ->
  in_use c s pars -> mm_complete s = true -> batch_ok c s mtan n m ->
  (forall i, i < n -> exists v, visit c pars' solver lu v /\ v_dt v = dt /\ v_mtan v = mtan /\
    (forall a k, In a [AD; AW; AV] -> k < per_point (c_nH c) (c_nslip c) mtan a -> entry s m a i k = entry (v_s v) (v_m v) a (v_i v) k) /\
    entry s m AE i 0 = entry (v_s v) (v_m v) AE (v_i v) 0 /\ entry s m AS i 6 = entry (v_s v) (v_m v) AS (v_i v) 6 /\ same_history c s m i (v_s v) (v_m v) (v_i v)) ->
  exists m1, mm_getResponse solver lu c s dt mtan (Z.of_nat n) m = (BRet Done, m1).
Proof. intros V M. exact (batch_hex hs c pars pars' solver lu V M s n m dt mtan). Qed.
Print Assumptions C77_hexagonal_success.

(** a step of a point that slips, with other density, Grueneisen constant and stress *)
Example C77_case : mts_cubic tm_hs tm_c /\ same_but_pressure tm_c d3_pars tm_pars /\
  (forall k, In k [0; 22] -> nth_error d3_pars k <> nth_error tm_pars k) /\
  hjourney tm_c d3_pars echo noLU [tm0] /\ hjourney tm_c tm_pars echo noLU [tm1] /\
  Forall2 (same_drive tm_c) [tm0] [tm1] /\ Forall2 same_energy [tm0] [tm1] /\ same_hstart tm_c [tm0] [tm1] /\
  entry (v_s tm0) (v_m tm0) AS 0 6 <> entry (v_s tm1) (v_m tm1) AS 0 6 /\ Forall2 (same_mech_result tm_c) [tm0] [tm1].
Proof.
  destruct tm_case as (H1 & H2 & H3 & H4 & H5).
  refine (conj tm_mts (conj tm_mech' (conj tm_differ (conj H1 (conj H2 (conj H3 (conj H4 (conj H5 (conj tm_start_differ _))))))))).
  exact (C77_energy_only tm_hs tm_c d3_pars tm_pars echo noLU _ _ tm_mts tm_mech' H1 H2 H3 H4 H5).
Qed.
Example C77_success_case : exists m1, mm_getResponse echo noLU tm_c tm_s (/10)%R false (Z.of_nat 1) tm_m = (BRet Done, m1).
Proof. exact tm_done. Qed.
(** a step of the hexagonal model, with other density, Grueneisen constant and deviatoric stress *)
Example C77_hexagonal_case : same_but_pressure d16_c d16_pars th6_pars /\
  (forall k, In k [0; 95] -> nth_error d16_pars k <> nth_error th6_pars k) /\
  hjourney d16_c d16_pars at_start noLU [hx0] /\ hjourney d16_c th6_pars at_start noLU [hx1] /\
  Forall2 (same_drive d16_c) [hx0] [hx1] /\ Forall2 same_energy [hx0] [hx1] /\ Forall2 same_pressure [hx0] [hx1] /\ same_hstart d16_c [hx0] [hx1] /\
  entry (v_s hx0) (v_m hx0) AS 0 0 <> entry (v_s hx1) (v_m hx1) AS 0 0 /\ Forall2 (same_mech_result d16_c) [hx0] [hx1].
Proof.
  destruct hx_case as (H1 & H2 & H3 & H4 & H5 & H6).
  refine (conj th6_mech' (conj hx_differ (conj H1 (conj H2 (conj H3 (conj H4 (conj H5 (conj H6 (conj hx_start_differ _))))))))).
  exact (C77_hexagonal _ d16_c d16_pars th6_pars at_start noLU _ _ eq_refl th6_mech' H1 H2 H3 H4 H5 H6).
Qed.
Example C77_hexagonal_success_case : exists m1, mm_getResponse at_start noLU d16_c th6_s (/10)%R false (Z.of_nat 1) th6_m = (BRet Done, m1).
Proof. exact hx_done. Qed.
Print Assumptions C77_case.
Print Assumptions C77_success_case.
Print Assumptions C77_hexagonal_case.
