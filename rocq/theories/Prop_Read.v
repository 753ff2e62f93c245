(** Property theorems C80: the entries of the step that matter.  They hold in any arithmetic [N : Num T], so in particular bit for bit
    for doubles. *)
From Coq Require Import String List ZArith Bool Reals.
From Verif Require Import Num NumR Util Hard Evptn MatModel Cases P_Batch3 P_Api P_Builtin SpecApi P_Demo SpecState SpecRead P_Read P_Demo37 P_Demo42.
Import ListNotations.
Local Open Scope nat_scope.

(** ** C80: the seventh number of the deformation rate (its trace) and the third of the volumes (the rate of the volume) are without
    effect: two calculations that differ only there hand back the same numbers after every step. *)
Theorem C80_unread {T} {N : Num T} (c : MClass T) pars solver lu (l l' : list (Visit T)) : journey c pars solver lu l -> journey c pars solver lu l' ->
  Forall2 (same_step c) l l' -> same_start c l l' -> Forall2 (same_outputs c) l l'.
Proof. exact (journey_read c pars solver lu l l'). Qed.
Print Assumptions C80_unread.
(** Nor does success depend on them. *)
Theorem C80_success {T} {N : Num T} (c : MClass T) pars solver lu s n m dt mtan : in_use c s pars -> mm_complete s = true -> batch_ok c s mtan n m ->
  (forall i, i < n -> exists v, visit c pars solver lu v /\ v_dt v = dt /\ v_mtan v = mtan /\
    (forall a k, matters a k -> k < per_point (c_nH c) (c_nslip c) mtan a -> entry (v_s v) (v_m v) a (v_i v) k = entry s m a i k) /\
    same_state c (v_s v) (v_m v) (v_i v) s m i) ->
  exists m1, mm_getResponse solver lu c s dt mtan (Z.of_nat n) m = (BRet Done, m1).
Proof. exact (batch_read c pars solver lu s n m dt mtan). Qed.
Print Assumptions C80_success.

(** the second of two points, with a trace and a volume rate that contradict the rest of the step *)
Example C80_case : journey demo_c demo_pars echo noLU [at0 1] /\ journey demo_c demo_pars echo noLU [rd0 1] /\ Forall2 (same_step demo_c) [at0 1] [rd0 1] /\ same_start demo_c [at0 1] [rd0 1] /\
  entry demo_s demo_m AD 1 6 <> entry demo_s rd_m AD 1 6 /\ entry demo_s demo_m AV 1 2 <> entry demo_s rd_m AV 1 2 /\ Forall2 (same_outputs demo_c) [at0 1] [rd0 1].
Proof.
  destruct rd_case as (H1 & H2 & H3 & H4 & H5 & H6).
  exact (conj H1 (conj H2 (conj H3 (conj H4 (conj H5 (conj H6 (C80_unread demo_c demo_pars echo noLU _ _ H1 H2 H3 H4))))))).
Qed.
Example C80_success_case : exists m1, mm_getResponse echo noLU demo_c demo_s (/10)%R false (Z.of_nat 2) rd_m = (BRet Done, m1).
Proof. exact rd_done. Qed.
