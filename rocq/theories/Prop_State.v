(** Property theorems C66: what is the state of a material point.  They hold in any arithmetic [N : Num T], so in particular bit for
    bit for doubles. *)
From Coq Require Import String List ZArith Bool Reals.
From Verif Require Import Num NumR Util Hard Evptn MatModel Cases P_Batch3 P_Api P_Builtin SpecApi SpecObj P_Demo SpecState P_State2 P_State3 P_Demo24 P_Demo27.
Import ListNotations.
Local Open Scope nat_scope.

(** ** C66: two calculations that impose the same steps on a point, from the same energy, stress and history (without the entries 0, 2
    and 3), give the same results at that point after every step: whatever the objects, the layouts, the numbers of points and the
    positions are at each step, and whatever the buffers of temperature, moduli and tangent and the entries 0, 2 and 3 contained *)
Theorem C66_restart {T} {N : Num T} (c : MClass T) pars solver lu (l l' : list (Visit T)) :
  journey c pars solver lu l -> journey c pars solver lu l' -> Forall2 (same_drive c) l l' -> same_start c l l' -> Forall2 (same_result c) l l'.
Proof. exact (journey_same c pars solver lu l l'). Qed.
Print Assumptions C66_restart.
(** a call all of whose points are in the state of, and are driven as, points of other successful calls succeeds *)
Theorem C66_success {T} {N : Num T} (c : MClass T) pars solver lu s n m dt mtan : in_use c s pars -> mm_complete s = true -> batch_ok c s mtan n m ->
  (forall i, i < n -> exists v, visit c pars solver lu v /\ v_dt v = dt /\ v_mtan v = mtan /\
    (forall a k, In a [AD; AW; AV] -> k < per_point (c_nH c) (c_nslip c) mtan a -> entry (v_s v) (v_m v) a (v_i v) k = entry s m a i k) /\
    same_state c (v_s v) (v_m v) (v_i v) s m i) ->
  exists m1, mm_getResponse solver lu c s dt mtan (Z.of_nat n) m = (BRet Done, m1).
Proof. exact (batch_succeeds c pars solver lu s n m dt mtan). Qed.
Print Assumptions C66_success.
(** energy, stress and the history entries that getHistInfo flags as state contain the state: agreement on them is enough *)
Theorem C66_flags {T} {N : Num T} (hs : Solver T) name c np nh hn sr s pars h : In (name, c, np, nh, hn, sr) (table hs) -> in_use c s pars ->
  mm_getHistInfo c s = Some h -> forall s1 m1 i1 s2 m2 i2,
  (forall k e, nth_error h k = Some e -> entry_state e = true -> entry s1 m1 AH i1 k = entry s2 m2 AH i2 k) ->
  (forall a k, In a [AE; AS] -> k < per_point (c_nH c) (c_nslip c) false a -> entry s1 m1 a i1 k = entry s2 m2 a i2 k) ->
  same_state c s1 m1 i1 s2 m2 i2.
Proof. exact (flags_state hs name c np nh hn sr s pars h). Qed.
Print Assumptions C66_flags.

(** the second of two points after a step: kept in the batch, and restarted alone with the entries 0, 2 and 3 changed *)
Example C66_case : journey demo_c demo_pars echo noLU [st_v0; st_v1] /\ journey demo_c demo_pars echo noLU [st_v0; st_w1] /\
  Forall2 (same_drive demo_c) [st_v0; st_v1] [st_v0; st_w1] /\ same_start demo_c [st_v0; st_v1] [st_v0; st_w1] /\
  (forall k, In k [0; 2; 3] -> entry demo_s st_m1 AH 1 k <> entry demo_s st_r AH 0 k) /\ v_n st_v1 <> v_n st_w1 /\
  Forall2 (same_result demo_c) [st_v0; st_v1] [st_v0; st_w1].
Proof. exact st_restart. Qed.
Example C66_success_case : exists m1, mm_getResponse echo noLU demo_c demo_s (/5)%R false (Z.of_nat 1) st_r = (BRet Done, m1).
Proof. exact st_w_done. Qed.
(** histories that differ in the entries that are not flagged *)
Example C66_flags_case : exists h, mm_getHistInfo demo_c demo_s = Some h /\
  (forall k e, nth_error h k = Some e -> entry_state e = true -> entry demo_s demo_m AH 0 k = entry demo_s fg_m AH 0 k) /\
  (forall k, k = 2 \/ k = 3 -> entry demo_s demo_m AH 0 k <> entry demo_s fg_m AH 0 k) /\
  same_state demo_c demo_s demo_m 0 demo_s fg_m 0.
Proof. exact fg_case. Qed.
