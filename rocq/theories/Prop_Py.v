(** C38, C39: the Python module. *)
From Coq Require Import List ZArith Bool Lia PeanoNat Reals Lra String.
From Verif Require Import Num NumR Hard Evptn MatModel Cases Py SpecTensor SpecApi SpecBatch SpecPy P_Api P_Builtin P_Demo SpecObj P_Py P_Py2 P_Py3 P_Py4 P_Demo9.
Import ListNotations.
Local Open Scope R_scope.

(** ** C38: construction *)
(** A constructed object is the library object of the documented class, initialised with the doubles found from the first
    entry on, as many as the class has parameters, completed, on the CPU, with the default strides; the array has that extent. *)
Theorem C38_new hs name a c s : py_new hs name a = POk (c, s) ->
  exists np nh, In (name, c, np, nh) (py_table hs) /\ py_shape a = [Z.of_nat np] /\ py_getNumberHistory c = nh /\
    in_use c s (firstn np (skipn (py_off a) (py_base a))) /\ mm_complete s = true /\ mm_accel s = CPU /\
    mm_strides s = [7; 3; 4; 1; 7; nh; 1; 2]%nat.
Proof.
  intros H. destruct (py_new_ok _ _ _ _ _ H) as (np & nh & pars & H1 & H2 & _ & H3 & _ & _ & H4 & H5 & H6 & H7 & H8).
  exists np, nh. rewrite H3 in H4. unfold py_getNumberHistory. auto 10.
Qed.
(** For a contiguous vector with as many entries as the class has parameters, construction succeeds exactly when the C++
    initialisation succeeds on the entries. *)
Theorem C38_accepts hs name c np nh a : In (name, c, np, nh) (py_table hs) -> vector np a ->
  (exists s, py_new hs name a = POk (c, s)) <->
  (exists s1, mm_init c (mm_new c) [] (map (entry1 a) (seq 0 np)) [] = (Done, s1)).
Proof. exact (py_new_accepts hs name c np nh a). Qed.
(** Any other name, rank or extent is refused. *)
Theorem C38_refuses hs name a : (forall n, py_shape a = [n] -> (py_off a + Z.to_nat n <= List.length (py_base a))%nat) ->
  (forall c np nh, In (name, c, np, nh) (py_table hs) -> py_shape a <> [Z.of_nat np]) -> py_new hs name a = PFail Failed.
Proof. exact (py_new_rejects hs name a). Qed.
Example C38_new_case : py_new echo "voce_fcc_norm" (packed1 demo_pars) = POk (demo_c, demo_s) /\ vector 17 (packed1 demo_pars) /\
  (forall a, py_new echo "voce_hcp_norm" (packed1 a) = PFail Failed) /\
  (forall x, py_new echo "voce_fcc_norm" (packed1 (x :: demo_pars)) = PFail Failed).
Proof.
  split; [exact demo_py|]. split; [exact (packed1_vector demo_pars)|]. split.
  - intros a. apply C38_refuses.
    + intros n H. cbn in H. assert (E : n = Z.of_nat (List.length a)) by congruence. rewrite E, Nat2Z.id. cbn. lia.
    + intros c np nh Hin. cbn in Hin. intuition discriminate.
  - intros x. apply C38_refuses.
    + intros n H. cbn in H. assert (E : n = 18%Z) by congruence. subst n. apply Nat.leb_le. reflexivity.
    + intros c np nh Hin H. cbn in Hin, H. assert (np = 18%nat) by (assert (18%Z = Z.of_nat np) by congruence; lia). subst np. intuition discriminate.
Qed.

(** ** C38: solve *)
(** A wrong rank or extent of any of the eight arrays: exception, nothing computed, no array changed. *)
Theorem C38_reject solver lu c s dt a n x : In x solve_args -> py_shape (a x) <> [n; Z.of_nat (columns (py_getNumberHistory c) x)] ->
  py_solve solver lu c s dt a n = (BRet Failed, a).
Proof. exact (solve_rejects solver lu c s dt a n x). Qed.
(** Arrays of the right shapes in C order: the call is the library call on the elements.  It either completes or throws, the
    elements afterwards are the ones of the library call, the three input arrays are unchanged, and so are all doubles of
    the allocations outside the arrays. *)
Theorem C38_solve hs name pa c s np nh n solver lu dt a o a' :
  py_new hs name pa = POk (c, s) -> In (name, c, np, nh) (py_table hs) ->
  (forall x, In x solve_args -> table2 n (columns nh x) (a x) /\ row_major (columns nh x) (a x)) ->
  (Z.of_nat nh * (Z.of_nat n - 1) < 2 ^ 32)%Z ->
  py_solve solver lu c s dt a (Z.of_nat n) = (o, a') ->
  exists b r, b_s b = s /\ b_n b = n /\ b_dt b = dt /\ b_mtan b = false /\ b_solver b = solver /\ b_lu b = lu /\ o = BRet r /\
    mm_getResponse solver lu c s dt false (Z.of_nat n) (b_m b) = (o, b_m1 b) /\ batch_ok c s false n (b_m b) /\
    (r = Done -> good hs c b) /\
    (forall x i j, In x solve_args -> (i < n)%nat -> elem (a x) i j = val s (b_m b) x i j /\ elem (a' x) i j = val s (b_m1 b) x i j) /\
    (forall x, In x solve_args -> py_shape (a' x) = py_shape (a x) /\ py_strides (a' x) = py_strides (a x) /\ py_off (a' x) = py_off (a x)) /\
    (forall x, In x [AD; AW; AV] -> (0 < n)%nat -> a' x = a x) /\
    (forall x k, In x solve_args -> (0 < n)%nat -> (k < py_off (a x) \/ py_off (a x) + n * columns nh x <= k)%nat ->
       nth_error (py_base (a' x)) k = nth_error (py_base (a x)) k).
Proof.
  intros HN Hin HA HW HE. destruct (py_new_ok _ _ _ _ _ HN) as (np' & nh' & pars & H1 & _ & _ & _ & HB & HR & HU & HC & _ & HS & HH).
  destruct (table_facts _ _ _ _ _ Hin) as (_ & _ & HH').
  assert (E : nh' = nh) by (unfold mm_getNumHist in HH; congruence). rewrite E in HS.
  assert (H7 : (7 <= nh)%nat) by (rewrite <- HH'; unfold mm_numHist, numHist, iHistLbGdot, iHistLbH; lia).
  assert (HM : exists mat tol, mm_ready s = Some (mat, tol)).
  { destruct (in_use_mat _ _ _ HU) as (pt & _ & _ & EM). eauto. }
  destruct (solve_call c s nh n a HR HC HS HH' HM HA HW H7 solver lu dt o a' HE) as (m1 & C1 & [r C2] & C3 & C4 & C5 & C6).
  pose proof (py_batch c s nh n a HS HH' HA HW H7) as HO.
  exists {| b_s := s; b_solver := solver; b_lu := lu; b_dt := dt; b_mtan := false; b_n := n; b_m := fun y => py_ptr (a y); b_m1 := m1 |}, r.
  cbn [b_s b_solver b_lu b_dt b_mtan b_n b_m b_m1].
  do 6 (split; [reflexivity|]). split; [exact C2|]. split; [exact C1|]. split; [exact HO|]. split; [|split; [|auto]].
  - intros ->. refine (conj HB (conj HR (conj HO _))). cbn [b_s b_solver b_lu b_dt b_mtan b_n b_m b_m1]. rewrite C1, C2. reflexivity.
  - intros x i j Hx Hi. split; [|now apply C4]. symmetry. apply (val_elem s nh n a HS HA). intros ->. cbn in Hx. intuition discriminate.
Qed.
Example C38_solve_case : In ("voce_fcc_norm"%string, demo_c, 17%nat, 26%nat) (py_table echo) /\
  (forall x, In x solve_args -> table2 2 (columns 26 x) (demo_a demo_m 2 x) /\ row_major (columns 26 x) (demo_a demo_m 2 x)) /\
  (Z.of_nat 26 * (Z.of_nat 2 - 1) < 2 ^ 32)%Z /\
  exists a', py_solve echo noLU demo_c demo_s (/10) (demo_a demo_m 2) 2 = (BRet Done, a').
Proof.
  split; [now left|]. split; [exact (demo_a_ok demo_m 2 (le_n 2) (fun a => eq_refl))|]. split; [lia|].
  rewrite solve_eq by (intros x Hx; exact (proj1 (proj1 (demo_a_ok demo_m 2 (le_n 2) (fun a => eq_refl) x Hx)))).
  destruct (call_at_good demo_m (demo_batch demo_m (fun a => eq_refl)) (proj2 demo_m_pos)) as (_ & _ & _ & E).
  cbn [call_at b_n b_solver b_lu b_s b_dt b_mtan b_m] in E. change (Z.of_nat 2) with 2%Z in E.
  change (fun b => py_ptr (demo_a demo_m 2 b)) with demo_m. rewrite E. eexists. reflexivity.
Qed.

(** Rank and extents are not enough: strides are never looked at.  Two sets of arrays with the same shapes and elements, all
    inside their allocations, and both calls return normally with different temperatures. *)
Theorem C38_layout_refuted : exists hs name pa c s dt a b a' b',
  py_new hs name pa = POk (c, s) /\
  (forall x, In x solve_args -> table2 2 (columns 26 x) (a x) /\ table2 2 (columns 26 x) (b x) /\ same_elems 2 (columns 26 x) (a x) (b x)) /\
  py_solve hs noLU c s dt a 2 = (BRet Done, a') /\ py_solve hs noLU c s dt b 2 = (BRet Done, b') /\
  elem (a' AT) 1 0 <> elem (b' AT) 1 0.
Proof.
  destruct layout_wrong as (a & b & oa & ob & a' & b' & H1 & H2 & H3 & -> & -> & H4).
  exists echo, "voce_fcc_norm"%string, (packed1 demo_pars), demo_c, demo_s, (/10), a, b, a', b'. exact (conj demo_py (conj H1 (conj H2 (conj H3 H4)))).
Qed.
(** A reversed view of the right shape makes the call read beyond the allocation. *)
Theorem C38_bounds_refuted : exists hs name pa c s dt a,
  py_new hs name pa = POk (c, s) /\ (forall x, In x solve_args -> table2 1 (columns 26 x) (a x)) /\
  fst (py_solve hs noLU c s dt a 1) = BUndef.
Proof.
  exists echo, "voce_fcc_norm"%string, (packed1 demo_pars), demo_c, demo_s, (/10), demo_r. exact (conj demo_py bounds_wrong).
Qed.
(** The same for the parameters: a strided vector with the right entries is accepted and other parameters are used. *)
Theorem C38_params_refuted : exists hs name a b c s s', py_shape a = py_shape b /\ vector 17 a /\
  (forall k, (k < 17)%nat -> entry1 b k = entry1 a k /\ (0 <= Z.of_nat (py_off b) + Z.of_nat k * nth 0 (py_strides b) 0%Z < Z.of_nat (List.length (py_base b)))%Z) /\
  py_new hs name a = POk (c, s) /\ py_new hs name b = POk (c, s') /\ mm_getParams s' <> mm_getParams s.
Proof.
  destruct woven_params as (s' & H1 & H2).
  exists echo, "voce_fcc_norm"%string, (packed1 demo_pars), woven, demo_c, demo_s, s'.
  split; [reflexivity|]. split; [exact (packed1_vector demo_pars)|]. split; [|exact (conj demo_py (conj H1 H2))].
  intros k Hk. split.
  - rewrite (woven_entry k Hk). unfold entry1. cbn [packed1 py_off py_strides py_base nth]. f_equal. lia.
  - pose proof (woven_in k Hk). cbn [woven py_off py_strides nth]. lia.
Qed.

(** ** C39: the developer interface *)
(** Same names, and for six of the seven the same parameter vectors are accepted. *)
Theorem C39_new_partial hs name a j1 j2 j3 c : name <> "km_bal_dd_hcp_norm"%string ->
  (exists v, dev_new hs name a j1 j2 j3 = POk (c, v)) <-> (exists s, py_new hs name a = POk (c, s)).
Proof. exact (dev_new_iff hs name a j1 j2 j3 c). Qed.
(** For the hexagonal model no parameter vector is accepted. *)
Theorem C39_hcp_refuted hs a j1 j2 j3 c v : dev_new hs "km_bal_dd_hcp_norm" a j1 j2 j3 <> POk (c, v).
Proof.
  unfold dev_new. destruct (py_params a) as [[pars|o|]|]; try discriminate.
  change (py_model hs "km_bal_dd_hcp_norm") with (Some (cls_HCP_A hs, mm_new (cls_HCP_A hs))). cbv beta iota.
  pose proof (hcp_none hs pars j1 j2 j3) as H. destruct (dev_make (cls_HCP_A hs) pars j1 j2 j3); [now specialize (H a0)|discriminate..].
Qed.
(** Whatever was done with a developer object before, and whatever its uninitialised members [j1 j2 j3] hold: a point of a
    completed library call can be redone by hand, and then stress, temperature, moduli and history are those of the library
    call, except the evaluation counter, which is 0.
    The energy is another one: [dv_eDevTot v + j2 (s':d)] takes the place of the deviatoric work. *)
Theorem C39_state_partial hs c b i pars j1 j2 j3 v0 ops v :
  good hs c b -> b_mtan b = false -> (i < b_n b)%nat -> in_use c (b_s b) pars ->
  dev_make c pars j1 j2 j3 = POk v0 -> dev_run v0 ops = Some v ->
  (exists xs v1 v2 v3 q, by_hand c b (nth 2 pars 0) i v xs v1 v2 v3 q) /\
  forall xs v1 v2 v3 q, by_hand c b (nth 2 pars 0) i v xs v1 v2 v3 q ->
    same_state c b i q /\ nth 3 (pt_hist q) 0 = 0 /\
    nth 0 (pt_eInt q) 0 = eInt (b_s b) (b_m b) i - delv (b_s b) (b_m b) i * pres (b_s b) (b_m b) i +
      (dv_eDevTot v + j2 * inner (devStress (b_s b) (b_m1 b) i) (devRate (b_s b) (b_m b) i)).
Proof. intros G HT Hi U D Rn. exact (dev_state hs c b i pars j1 j2 j3 v0 v ops G HT Hi U D Rn). Qed.
Example C39_case : exists v0 v, good echo demo_c (call_at demo_m) /\ in_use demo_c demo_s demo_pars /\ dev_make demo_c demo_pars 5 7 9 = POk v0 /\
  dev_run v0 [DSetup (/2) [1; -1; 0; 0; 0; 0; 0] [0; 0; 1] [1; 1; 0; 0] [1] [0; 0; 0; 0; 0; 0; 1] (demo_h [1; 0; 0; 0] [1])] = Some v.
Proof.
  destruct (demo_dev 5 7 9) as [v0 E]. exists v0. eexists.
  exact (conj (call_at_good demo_m (demo_batch demo_m (fun a => eq_refl)) (proj2 demo_m_pos)) (conj demo_in_use (conj E eq_refl))).
Qed.
(** What it says about the history variables, whatever was called before: one entry per column, other names than the library's,
    the same initial values and flags. *)
Theorem C39_info {T} {N : Num T} (hs : Solver T) name c np nh hn pars j1 j2 j3 v0 ops v :
  In (name, c, np, nh, hn) (dev_table hs) -> dev_make c pars j1 j2 j3 = POk v0 -> dev_run v0 ops = Some v ->
  let h := dev_getHistoryInfo v in
  map entry_name h = dev_names hn /\ NoDup (map entry_name h) /\ List.length h = nh /\
  map entry_init h = repeat (nZ 0) 9 ++ [nZ 1] ++ repeat (nZ 0) 3 ++ [nth (np - 3) pars nundef] ++ repeat (nZ 0) (nh - 14) /\
  map entry_plot h = repeat true nh /\ map entry_state h = [true; true; false; false] ++ repeat true (nh - 4).
Proof. exact (dev_info hs name c np nh hn pars j1 j2 j3 v0 ops v). Qed.
(** There are no values of the uninitialised members for which the energy of the developer interface is always the one of
    the library. *)
Theorem C39_energy_refuted j1 j2 j3 : exists hs c pars b i v0 xs v1 v2 v3 q,
  good hs c b /\ b_mtan b = false /\ (i < b_n b)%nat /\ in_use c (b_s b) pars /\ dev_make c pars j1 j2 j3 = POk v0 /\
  by_hand c b (nth 2 pars 0) i v0 xs v1 v2 v3 q /\ nth 0 (pt_eInt q) 0 <> eInt (b_s b) (b_m1 b) i.
Proof.
  destruct (demo_dev j1 j2 j3) as [v0 E]. destruct (energy_wrong j1 j2 j3 v0 E) as (m & xs & v1 & v2 & v3 & q & G & B & X).
  exists echo, demo_c, demo_pars, (call_at m), 0%nat, v0, xs, v1, v2, v3, q.
  exact (conj G (conj eq_refl (conj (le_S 1 1 (le_n 1)) (conj demo_in_use (conj E (conj B X)))))).
Qed.

Print Assumptions C38_new.
Print Assumptions C38_accepts.
Print Assumptions C38_refuses.
Print Assumptions C38_reject.
Print Assumptions C38_solve.
Print Assumptions C38_layout_refuted.
Print Assumptions C38_bounds_refuted.
Print Assumptions C38_params_refuted.
Print Assumptions C39_new_partial.
Print Assumptions C39_hcp_refuted.
Print Assumptions C39_state_partial.
Print Assumptions C39_info.
Print Assumptions C39_energy_refuted.
