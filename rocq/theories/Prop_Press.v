(** Property theorem C78: pressure and bulk modulus of the cubic models.  It holds in any arithmetic [N : Num T], so in particular bit for
    bit for doubles. *)
From Coq Require Import String List ZArith Bool Reals.
From Verif Require Import Num NumR Util Hard Evptn MatModel Cases P_Batch3 P_Api P_Builtin SpecApi P_Demo P_Demo3 SpecState SpecThermo SpecTemp SpecPress P_Press P_Demo37 P_Demo38 P_Demo40.
Import ListNotations.
Local Open Scope nat_scope.

(** ** C78: the pressure (seventh stress entry) and the bulk modulus (first modulus) that a successful call of a cubic model leaves at a
    point depend on c11, c12, the Grueneisen constant, the new volume, the volume increment, and the energy and pressure handed in, and
    on nothing else: not on the model, its other parameters, the deformation rate, the spin, the time step, the history, the deviatoric
    stress, the solvers, the layout, the number of points, or whether the tangent was asked for. *)
Theorem C78_pressure {T} {N : Num T} hs hs' (c c' : MClass T) pars pars' solver solver' lu lu' (v v' : Visit T) : cubic_model hs c -> cubic_model hs' c' -> same_bulk c pars c' pars' ->
  visit c pars solver lu v -> visit c' pars' solver' lu' v' -> same_volumes v v' -> same_energy v v' -> same_pressure v v' ->
  same_after v v' AS 6 /\ same_after v v' AB 0.
Proof. exact (visits_press hs hs' c c' pars pars' solver solver' lu lu' v v'). Qed.
Print Assumptions C78_pressure.

(** a Voce model and a dislocation-density model, with different histories *)
Example C78_case : cubic_model echo demo_c /\ cubic_model tm_hs tm_c /\ same_bulk demo_c demo_pars tm_c d3_pars /\
  visit demo_c demo_pars echo noLU (at0 0) /\ visit tm_c d3_pars echo noLU tm0 /\ same_volumes (at0 0) tm0 /\ same_energy (at0 0) tm0 /\ same_pressure (at0 0) tm0 /\
  entry (v_s (at0 0)) (v_m (at0 0)) AH 0 14 <> entry (v_s tm0) (v_m tm0) AH 0 14 /\ same_after (at0 0) tm0 AS 6.
Proof.
  pose proof pr_same as E.
  assert (H1 : cubic_model echo demo_c) by exact (or_introl th_voce). assert (H2 : cubic_model tm_hs tm_c) by exact (or_intror tm_mts).
  assert (H3 : same_bulk demo_c demo_pars tm_c d3_pars) by (refine (conj _ (conj _ _)); reflexivity).
  assert (H4 : visit demo_c demo_pars echo noLU (at0 0)) by exact (at0_visit 0 (le_S _ _ (le_n 1))).
  assert (H5 : same_volumes (at0 0) tm0) by (intros k Hk; apply (E AV); [cbn; tauto|destruct Hk as [<-|[<-|[]]]; repeat constructor]).
  assert (H6 : same_energy (at0 0) tm0) by (apply (E AE); [cbn; tauto|repeat constructor]).
  assert (H7 : same_pressure (at0 0) tm0) by (apply (E AS); [cbn; tauto|repeat constructor]).
  refine (conj H1 (conj H2 (conj H3 (conj H4 (conj tm0_visit (conj H5 (conj H6 (conj H7 (conj _ _))))))))).
  - exact pr_differ.
  - exact (proj1 (C78_pressure echo tm_hs demo_c tm_c demo_pars d3_pars echo echo noLU noLU (at0 0) tm0 H1 H2 H3 H4 tm0_visit H5 H6 H7)).
Qed.
Print Assumptions C78_case.
