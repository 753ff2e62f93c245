(** C21: the response does not depend on the frame in which the sample is described. *)
From Coq Require Import List ZArith Bool Lia Reals Lra.
From Verif Require Import Num NumR Hard MatModel Cases SpecTensor SpecElast SpecApi SpecStress SpecStep SpecFrame
  P_Api P_Builtin P_Demo P_Demo3 P_Frame3 P_Demo7.
From Verif Require Import Evptn SpecTan P_Lu P_Demo2 P_Demo4 P_Demo6 P_Frame5 P_Demo22.
Import ListNotations.
Local Open Scope R_scope.

(** Two successful calls of the same model with the same parameters, solver and time step; point [i'] of the second
    describes point [i] of the first from a frame turned by [Q] ([turned_in]).  Then so do the results ([turned_out]):
    stress deviator and orientation are turned, all other outputs are equal.  Nothing is assumed about the solver. *)
Theorem C21_frame hs c pars b b' i i' Q : good hs c b -> good hs c b' -> in_use c (b_s b) pars -> in_use c (b_s b') pars ->
  (i < b_n b)%nat -> (i' < b_n b')%nat -> same_setting b b' -> turned_in c Q b i b' i' ->
  trace (devRate (b_s b) (b_m b) i) = 0 -> norm2 (quat (b_s b) (b_m b) i) <> 0 -> norm2 (quat (b_s b') (b_m b') i') <> 0 ->
  turned_out c Q b i b' i'.
Proof. intros G G' U U' Hi Hi' HS HT Htr Hq Hq'. exact (call_turn hs c pars b b' i i' Q G G' U U' Hi Hi' HS HT Htr Hq Hq'). Qed.

(** A batch whose points are turned points of a successful batch succeeds (no tangent requested). *)
Theorem C21_success hs c pars b s' lu' n' m' : good hs c b -> in_use c (b_s b) pars -> in_use c s' pars ->
  mm_complete s' = true -> batch_ok c s' false n' m' ->
  let b' := call_of c s' (b_solver b) lu' false n' (b_dt b) m' in
  (forall i', (i' < n')%nat -> exists i Q, (i < b_n b)%nat /\ turned_in c Q b i b' i' /\
    trace (devRate (b_s b) (b_m b) i) = 0 /\ norm2 (quat (b_s b) (b_m b) i) <> 0 /\ norm2 (quat s' m' i') <> 0) ->
  (0 < n')%nat -> good hs c b'.
Proof. intros G U U' HC HO b' HI Hn. exact (turn_succeeds hs c pars b s' lu' n' m' G U U' HC HO HI Hn). Qed.

(** The tangent is turned too when the linear solvers are exact: the stress change it gives for a turned strain is the
    turned stress change for the strain.  The two linear solvers may be different. *)
Theorem C21_tangent hs c pars b b' i i' Q : good hs c b -> good hs c b' -> in_use c (b_s b) pars -> in_use c (b_s b') pars ->
  (i < b_n b)%nat -> (i' < b_n b')%nat -> same_setting b b' -> turned_in c Q b i b' i' ->
  trace (devRate (b_s b) (b_m b) i) = 0 -> norm2 (quat (b_s b) (b_m b) i) <> 0 -> norm2 (quat (b_s b') (b_m b') i') <> 0 ->
  b_mtan b = true -> solves_exactly (b_lu b) -> solves_exactly (b_lu b') ->
  forall E, is_sym E -> stiff (tangent (b_s b') (b_m1 b') i') (cong Q E) = cong Q (stiff (tangent (b_s b) (b_m1 b) i) E).
Proof. intros G G' U U' Hi Hi' HS HT Htr Hq Hq'. exact (call_turn_tan hs c pars b b' i i' Q G G' U U' Hi Hi' HS HT Htr Hq Hq'). Qed.

(** The turned batch succeeds with its tangent, when the new linear solver solves with every matrix the first one solves with. *)
Theorem C21_success_tangent hs c pars b s' (lu' : LUSolver R) n' m' : good hs c b -> in_use c (b_s b) pars -> in_use c s' pars ->
  mm_complete s' = true -> batch_ok c s' true n' m' ->
  let b' := call_of c s' (b_solver b) lu' true n' (b_dt b) m' in
  (forall i', (i' < n')%nat -> exists i Q, (i < b_n b)%nat /\ turned_in c Q b i b' i' /\
    trace (devRate (b_s b) (b_m b) i) = 0 /\ norm2 (quat (b_s b) (b_m b) i) <> 0 /\ norm2 (quat s' m' i') <> 0) ->
  (0 < n')%nat -> b_mtan b = true -> (forall A B B' k, b_lu b 8%nat A B k <> None -> lu' 8%nat A B' k <> None) -> good hs c b'.
Proof. intros G U U' HC HO b' HI Hn Hm HL. exact (turn_succeeds_t hs c pars b s' lu' n' m' G U U' HC HO HI Hn Hm HL). Qed.

(** Two deforming, rotating, stressed crystals of different orientation, turned by 120 degrees about (1,1,1). *)
Example C21_case : let b := d7_b in let b' := d7_b' in
  good echo demo_c b /\ good echo demo_c b' /\ in_use demo_c (b_s b) demo_pars /\ b_n b = 2%nat /\ b_n b' = 2%nat /\ same_setting b b' /\
  forall i, (i < 2)%nat -> turned_in demo_c d7_Q b i b' i /\ turned_out demo_c d7_Q b i b' i.
Proof.
  intros b b'.
  assert (G : good echo demo_c b) by exact (demo_good _ _ demo_m_pos).
  assert (G' : good echo demo_c b').
  { refine (C21_success echo demo_c demo_pars b demo_s noLU 2%nat d7_m G demo_in_use demo_in_use demo_complete d7_batch _ _); [|lia].
    intros i Hi. exists i, d7_Q. destruct (d7_quat i Hi) as (H1 & H2 & H3).
    exact (conj Hi (conj (d7_turned i Hi) (conj H3 (conj H1 H2)))). }
  refine (conj G (conj G' (conj demo_in_use (conj eq_refl (conj eq_refl (conj (conj eq_refl (conj eq_refl eq_refl)) _)))))).
  intros i Hi. destruct (d7_quat i Hi) as (H1 & H2 & H3). split; [exact (d7_turned i Hi)|].
  exact (C21_frame echo demo_c demo_pars b b' i i d7_Q G G' demo_in_use demo_in_use Hi Hi (conj eq_refl (conj eq_refl eq_refl)) (d7_turned i Hi) H3 H1 H2).
Qed.

(** A spinning crystal with its tangent, turned by the same rotation. *)
Example C21_tangent_case : let c := d2_c checked in let b := d22_b in let b' := d22_b' in
  good checked c b /\ good checked c b' /\ same_setting b b' /\ turned_in c d7_Q b 0 b' 0 /\ b_mtan b = true /\ solves_exactly (b_lu b) /\
  forall E, is_sym E -> stiff (tangent (b_s b') (b_m1 b') 0) (cong d7_Q E) = cong d7_Q (stiff (tangent (b_s b) (b_m1 b) 0) E).
Proof.
  intros c b b'. destruct d22_quat as (H1 & H2 & H3).
  assert (G : good checked c b) by exact (d6_good true).
  assert (U : in_use c (b_s b) demo_pars) by exact (d2_in_use checked).
  assert (G' : good checked c b').
  { refine (C21_success_tangent checked c demo_pars b (d2_s checked) d6_lu 1%nat d22_m G U U (d2_complete checked) d22_batch _ _ eq_refl d22_lu); [|lia].
    intros i Hi. assert (i = 0%nat) by lia. subst i. exists 0%nat, d7_Q. exact (conj Hi (conj d22_turned (conj H3 (conj H1 H2)))). }
  assert (S : same_setting b b') by exact (conj eq_refl (conj eq_refl eq_refl)).
  assert (I1 : (0 < b_n b)%nat) by (cbn; lia). assert (I2 : (0 < b_n b')%nat) by (cbn; lia).
  refine (conj G (conj G' (conj S (conj d22_turned (conj eq_refl (conj (lu_by_exact _) _)))))).
  exact (C21_tangent checked c demo_pars b b' 0 0 d7_Q G G' U U I1 I2 S d22_turned H3 H1 H2 eq_refl (lu_by_exact _) (lu_by_exact _)).
Qed.

Print Assumptions C21_frame.
Print Assumptions C21_success.
Print Assumptions C21_case.
Print Assumptions C21_tangent.
Print Assumptions C21_success_tangent.
Print Assumptions C21_tangent_case.
