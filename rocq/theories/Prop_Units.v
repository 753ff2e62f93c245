(** C64: the results do not depend on the units of stress and time. *)
From Coq Require Import List ZArith Bool Lia Reals Lra.
From Verif Require Import Num NumR Hard Evptn MatModel Cases SpecTensor SpecElast SpecApi SpecStress SpecStep SpecTan SpecUnits
  P_Api P_Builtin P_Demo P_Demo2 P_Demo3 P_Demo4 P_Lu P_Demo6 P_Units5 P_Units7 P_Demo21.
Import ListNotations.
Local Open Scope R_scope.

(** Two successful calls with the same solver: the parameters, the time step and the data of point [i'] of the second are those
    of the first with stresses and energies [lam] times larger and times [kap] times larger in number.  Then so are all results.
    Nothing is assumed about the solver. *)
Theorem C64_units lam kap hs c pars pars' b b' i i' : 0 < lam -> 0 < kap -> good hs c b -> good hs c b' ->
  in_use c (b_s b) pars -> in_use c (b_s b') pars' -> new_units lam kap c pars pars' -> (i < b_n b)%nat -> (i' < b_n b')%nat ->
  new_step kap b b' -> new_in lam kap c b i b' i' -> trace (devRate (b_s b) (b_m b) i) = 0 -> off_limits lam kap c b i ->
  new_out lam kap c b i b' i'.
Proof. intros. now apply (call_units lam kap hs c pars pars' b b' i i'). Qed.

(** So is the tangent when the linear solver is exact. *)
Theorem C64_tangent lam kap hs c pars pars' b b' i i' : 0 < lam -> 0 < kap -> good hs c b -> good hs c b' ->
  in_use c (b_s b) pars -> in_use c (b_s b') pars' -> new_units lam kap c pars pars' -> (i < b_n b)%nat -> (i' < b_n b')%nat ->
  new_step kap b b' -> new_in lam kap c b i b' i' -> off_limits lam kap c b i ->
  b_mtan b = true -> solves_exactly (b_lu b) -> solves_exactly (b_lu b') ->
  forall r q, (r < 6)%nat -> (q < 6)%nat -> tangent (b_s b') (b_m1 b') i' r q = lam * tangent (b_s b) (b_m1 b) i r q.
Proof.
  intros Hl Hk G G' U U' HP Hi Hi' HS HI HX HM L L'. exact (call_units_tan lam kap hs c pars pars' b b' i i' Hl Hk G G' U U' HP Hi Hi' HS HI HX HM L L').
Qed.

(** A batch whose points are points of a successful batch in other units succeeds. *)
Theorem C64_succeeds lam kap hs c pars pars' b s' lu' n' m' : 0 < lam -> 0 < kap -> good hs c b -> in_use c (b_s b) pars -> in_use c s' pars' ->
  new_units lam kap c pars pars' -> mm_complete s' = true -> batch_ok c s' false n' m' ->
  let b' := call_of c s' (b_solver b) lu' false n' (kap * b_dt b) m' in
  (forall i', (i' < n')%nat -> exists i, (i < b_n b)%nat /\ new_in lam kap c b i b' i' /\ off_limits lam kap c b i) -> (0 < n')%nat ->
  good hs c b'.
Proof. intros Hl Hk G U U' HP HC HO b' HI Hn. exact (units_succeeds lam kap hs c pars pars' b s' lu' n' m' Hl Hk G U U' HP HC HO HI Hn). Qed.

(** The same with the tangent, when the linear solver of the second call finds the solution of every system that the one of the
    first call can solve after the first five rows were multiplied by [kap]. *)
Theorem C64_succeeds_tangent lam kap hs c pars pars' b s' lu' n' m' : 0 < lam -> 0 < kap -> good hs c b -> in_use c (b_s b) pars -> in_use c s' pars' ->
  new_units lam kap c pars pars' -> mm_complete s' = true -> batch_ok c s' true n' m' ->
  let b' := call_of c s' (b_solver b) lu' true n' (kap * b_dt b) m' in
  (forall i', (i' < n')%nat -> exists i, (i < b_n b)%nat /\ new_in lam kap c b i b' i' /\ off_limits lam kap c b i) -> (0 < n')%nat ->
  b_mtan b = true ->
  (forall A B k, b_lu b 8%nat (row_times 8 (row_unit kap) A) B k <> None -> lu' 8%nat A B k <> None) ->
  good hs c b'.
Proof. intros Hl Hk G U U' HP HC HO b' HI Hn HM HL. exact (units_succeeds_t lam kap hs c pars pars' b s' lu' n' m' Hl Hk G U U' HP HC HO HI Hn HM HL). Qed.

(** Two deforming, rotating, stressed crystals; stresses ten times, times a thousand times larger. *)
Example C64_case : let b := d21_b in let b' := d21_b' in
  good echo demo_c b /\ good echo demo_c b' /\ in_use demo_c (b_s b) demo_pars /\ in_use demo_c (b_s b') d21_pars /\
  new_units 10 1000 demo_c demo_pars d21_pars /\ b_n b = 2%nat /\ b_n b' = 2%nat /\ new_step 1000 b b' /\
  forall i, (i < 2)%nat -> new_in 10 1000 demo_c b i b' i /\ off_limits 10 1000 demo_c b i /\ trace (devRate (b_s b) (b_m b) i) = 0 /\
    new_out 10 1000 demo_c b i b' i.
Proof.
  intros b b'.
  assert (L1 : 0 < 10) by lra. assert (L2 : 0 < 1000) by lra.
  assert (G : good echo demo_c b) by exact (demo_good _ _ demo_m_pos).
  assert (U : in_use demo_c (b_s b) demo_pars) by exact demo_in_use.
  assert (U' : in_use demo_c (b_s b') d21_pars) by exact (d21_in_use echo).
  assert (N : new_units 10 1000 demo_c demo_pars d21_pars) by exact (d21_new echo).
  assert (G' : good echo demo_c b').
  { refine (C64_succeeds 10 1000 echo demo_c demo_pars d21_pars b (d21_s echo) noLU 2%nat d21_m L1 L2 G U U' N (d21_complete echo) d21_batch _ _); [|lia].
    intros i Hi. exists i. exact (conj Hi (conj (d21_same i Hi) (proj1 (d21_off i Hi)))). }
  assert (S : new_step 1000 b b') by (exact (conj eq_refl (conj eq_refl eq_refl))).
  refine (conj G (conj G' (conj U (conj U' (conj N (conj eq_refl (conj eq_refl (conj S _)))))))).
  intros i Hi. destruct (d21_off i Hi) as [X T].
  refine (conj (d21_same i Hi) (conj X (conj T _))).
  exact (C64_units 10 1000 echo demo_c demo_pars d21_pars b b' i i L1 L2 G G' U U' N Hi Hi S (d21_same i Hi) T X).
Qed.

(** A spinning crystal with its tangent and exact linear solvers. *)
Example C64_tangent_case : let c := d2_c checked in let b := d21_t in let b' := d21_t' in
  good checked c b /\ good checked c b' /\ new_step 1000 b b' /\ new_in 10 1000 c b 0 b' 0 /\ off_limits 10 1000 c b 0 /\
  b_mtan b = true /\ solves_exactly (b_lu b) /\ solves_exactly (b_lu b') /\
  forall r q, (r < 6)%nat -> (q < 6)%nat -> tangent (b_s b') (b_m1 b') 0 r q = 10 * tangent (b_s b) (b_m1 b) 0 r q.
Proof.
  intros c b b'.
  assert (L1 : 0 < 10) by lra. assert (L2 : 0 < 1000) by lra.
  assert (G : good checked c b) by exact (d6_good true).
  assert (U : in_use c (b_s b) demo_pars) by exact (d2_in_use checked).
  assert (U' : in_use c (b_s b') d21_pars) by exact (d21_in_use checked).
  assert (N : new_units 10 1000 c demo_pars d21_pars) by exact (d21_new checked).
  assert (G' : good checked c b').
  { refine (C64_succeeds_tangent 10 1000 checked c demo_pars d21_pars b (d21_s checked) d21_lu 1%nat d21_m6 L1 L2 G U U' N (d21_complete checked) d21_batch6 _ _ eq_refl d21_lu_finds); [|lia].
    intros i Hi. exists 0%nat. assert (i = 0%nat) by lia. subst i. exact (conj Hi (conj d21_same6 d21_off6)). }
  assert (S : new_step 1000 b b') by (exact (conj eq_refl (conj eq_refl eq_refl))).
  assert (I1 : (0 < b_n b)%nat) by (cbn; lia). assert (I2 : (0 < b_n b')%nat) by (cbn; lia).
  refine (conj G (conj G' (conj S (conj d21_same6 (conj d21_off6 (conj eq_refl (conj (lu_by_exact _) (conj d21_lu_exact _)))))))).
  exact (C64_tangent 10 1000 checked c demo_pars d21_pars b b' 0 0 L1 L2 G G' U U' N I1 I2 S d21_same6 d21_off6 eq_refl (lu_by_exact _) d21_lu_exact).
Qed.

Print Assumptions C64_units.
Print Assumptions C64_tangent.
Print Assumptions C64_succeeds.
Print Assumptions C64_succeeds_tangent.
Print Assumptions C64_case.
Print Assumptions C64_tangent_case.
