(** C65: what a Python caller sees of a call. *)
From Coq Require Import List ZArith Bool Lia Reals Lra String.
From Verif Require Import Num NumR Hard Evptn MatModel Cases Py PyBind SpecTensor SpecApi SpecBatch SpecPy P_Demo P_Demo9 P_PyBind Prop_Py.
Import ListNotations.
Local Open Scope R_scope.

(** Arguments that numpy makes into C-ordered tables of the right shapes: the call completes or throws, and it is the library call on the elements.
    The arguments that are arrays of doubles hold its results afterwards, in their place; an argument of any other kind is what it was: its
    results are lost.  Missing for the claim: the last. *)
Theorem C65_sees_partial {Obj} (to_double : Obj -> option (PyArr R)) hs name pa c s np nh n solver lu dt args a o args' :
  py_new hs name pa = POk (c, s) -> In (name, c, np, nh) (py_table hs) -> (forall x, In x solve_args -> arg_load to_double (args x) = Some (a x)) ->
  (forall x, In x solve_args -> table2 n (columns nh x) (a x) /\ row_major (columns nh x) (a x)) ->
  (Z.of_nat nh * (Z.of_nat n - 1) < 2 ^ 32)%Z -> (Z.of_nat n < 2 ^ 31)%Z ->
  bound_solve to_double solver lu c s dt args (Z.of_nat n) = (o, args') ->
  exists b r, b_s b = s /\ b_n b = n /\ b_dt b = dt /\ b_mtan b = false /\ b_solver b = solver /\ b_lu b = lu /\ o = BRet r /\ (r = Done -> good hs c b) /\
    (forall x i j, In x solve_args -> (i < n)%nat -> elem (a x) i j = val s (b_m b) x i j) /\
    forall x, In x solve_args -> match args x with
      | AObj ob => args' x = AObj ob
      | ADbl w a0 => exists a1, args' x = ADbl w a1 /\ py_shape a1 = py_shape a0 /\ py_strides a1 = py_strides a0 /\ py_off a1 = py_off a0 /\
          forall i j, (i < n)%nat -> elem a1 i j = val s (b_m1 b) x i j
      end.
Proof. exact (bound_sees to_double hs name pa c s np nh n solver lu dt args a o args'). Qed.
(** Parameters of any kind, say a list of integers: construction succeeds exactly when numpy can convert them and the library accepts the values. *)
Theorem C65_new {Obj} (to_double : Obj -> option (PyArr R)) hs name c np nh o : In (name, c, np, nh) (py_table hs) ->
  (forall a, to_double o = Some a -> vector np a) ->
  (exists s, bound_new to_double hs name (AObj o) = POk (c, s)) <->
  (exists a s1, to_double o = Some a /\ mm_init c (mm_new c) [] (map (entry1 a) (seq 0 np)) [] = (Done, s1)).
Proof.
  intros Hin HV. unfold bound_new. cbn [arg_load]. destruct (to_double o) as [a|] eqn:E.
  - rewrite (C38_accepts hs name c np nh a Hin (HV a eq_refl)). split; [intros (s1 & H); exists a, s1; auto|intros (a' & s1 & E' & H); exists s1; assert (a' = a) by congruence; now subst a'].
  - split; [intros (s & H); discriminate|intros (a & s1 & H & _); discriminate].
Qed.
(** A number of points that is no int, an argument that cannot be converted: an exception, and nothing has changed. *)
Theorem C65_refuses {Obj} (to_double : Obj -> option (PyArr R)) solver lu c s dt args n :
  ~ (- 2 ^ 31 <= n < 2 ^ 31)%Z \/ (exists x o, In x solve_args /\ args x = AObj o /\ to_double o = None) ->
  bound_solve to_double solver lu c s dt args n = (BRet Failed, args).
Proof.
  intros H. apply bound_refuses. destruct H as [H|(x & o & Hx & E & F)].
  - left. unfold is_int. apply andb_false_iff. destruct (Z.leb_spec (- 2 ^ 31) n); [right; apply Z.ltb_ge; lia|now left].
  - right. exists x. split; [exact Hx|]. rewrite E. exact F.
Qed.
(** A wrong shape after conversion: an exception. *)
Theorem C65_shape {Obj} (to_double : Obj -> option (PyArr R)) solver lu c s dt args n a x : (forall x, In x solve_args -> arg_load to_double (args x) = Some (a x)) ->
  In x solve_args -> py_shape (a x) <> [n; Z.of_nat (columns (py_getNumberHistory c) x)] -> fst (bound_solve to_double solver lu c s dt args n) = BRet Failed.
Proof. exact (bound_shape to_double solver lu c s dt args n a x). Qed.

(** Results are lost without a word: two calls with the same values, in one of which the temperatures are not an array of doubles but an object
    that numpy converts into the same doubles.  Both return normally; the first leaves 301 degrees at the second point, the second leaves the
    object as it was, with 300 degrees. *)
Theorem C65_lost_refuted : exists (to_double : unit -> option (PyArr R)) hs name pa c s dt (args args' : arr -> PyArg unit) a a' fin fin',
  py_new hs name pa = POk (c, s) /\ args AT = ADbl true a /\ args' AT = AObj tt /\ to_double tt = Some a /\ (forall x, x <> AT -> args x = args' x) /\
  bound_solve to_double hs noLU c s dt args 2 = (BRet Done, fin) /\ bound_solve to_double hs noLU c s dt args' 2 = (BRet Done, fin') /\
  elem a 1 0 = 300 /\ fin AT = ADbl true a' /\ elem a' 1 0 = 301 /\ fin' AT = AObj tt.
Proof.
  set (td := fun _ : unit => Some (demo_a demo_m 2 AT)).
  destruct (pb_call td (ADbl true (demo_a demo_m 2 AT)) eq_refl) as (a1 & E1 & T1). destruct (pb_call td (AObj tt) eq_refl) as (a2 & E2 & _).
  exists td, echo, "voce_fcc_norm"%string, (packed1 demo_pars), demo_c, demo_s, (/ 10), (pb_args (ADbl true (demo_a demo_m 2 AT))), (pb_args (AObj tt)), (demo_a demo_m 2 AT), (a1 AT). do 2 eexists.
  refine (conj demo_py (conj eq_refl (conj eq_refl (conj eq_refl (conj _ (conj E1 (conj E2 (conj pb_temp_old (conj eq_refl (conj T1 eq_refl)))))))))).
  intros x Hx. destruct x; reflexivity || contradiction.
Qed.
(** An array whose flag [writeable] is off is written. *)
Theorem C65_readonly_refuted : exists hs name pa c s dt (args : arr -> PyArg Empty_set) a a' fin,
  py_new hs name pa = POk (c, s) /\ args AT = ADbl false a /\ bound_solve (fun _ => None) hs noLU c s dt args 2 = (BRet Done, fin) /\
  fin AT = ADbl false a' /\ elem a 1 0 = 300 /\ elem a' 1 0 = 301.
Proof.
  destruct (pb_call (fun _ : Empty_set => None) (ADbl false (demo_a demo_m 2 AT)) eq_refl) as (a1 & E1 & T1).
  exists echo, "voce_fcc_norm"%string, (packed1 demo_pars), demo_c, demo_s, (/ 10), (pb_args (ADbl false (demo_a demo_m 2 AT))), (demo_a demo_m 2 AT), (a1 AT). eexists.
  exact (conj demo_py (conj eq_refl (conj E1 (conj eq_refl (conj pb_temp_old T1))))).
Qed.
(** The developer interface never hands out the temperature: a point of a library call done by hand, after which the caller has 300 degrees where
    the library call has 301. *)
Theorem C65_temperature_refuted : exists hs c pars b i v0 xs v1 v2 v3 q e st h t sd,
  good hs c b /\ (i < b_n b)%nat /\ dev_make c pars 0 0 0 = POk v0 /\ by_hand c b (nth 2 pars 0) i v0 xs v1 v2 v3 q /\
  let P := point c (b_s b) false (b_m b) i in let r := b_solver b 8%nat (dev_rj v1) (nth 2 pars 0) 200%nat (repeat 0 8) in
  bound_getState v2 (so_x r) (P AE) (P AS) (P AH) (tKel (b_s b) (b_m b) i) (P AB) = Some (Done, v3, (e, st, h, t, sd)) /\
  t = 300 /\ tKel (b_s b) (b_m1 b) i = 301.
Proof.
  destruct pb_dev as (v0 & xs & v1 & v2 & v3 & q & E & G & H & T0 & T1).
  exists echo, demo_c, demo_pars, (call_at demo_m), 1%nat, v0, xs, v1, v2, v3, q, (pt_eInt q), (pt_stress q), (pt_hist q), (tKel demo_s demo_m 1), (pt_sdd q).
  refine (conj G (conj (le_n 2) (conj E (conj H _)))). destruct H as (_ & _ & _ & _ & _ & H). cbv zeta in H |- *.
  refine (conj _ (conj T0 T1)). unfold bound_getState. rewrite H. reflexivity.
Qed.
(** the hypotheses of [C65_sees_partial] with both kinds of arguments *)
Example C65_case : exists (to_double : unit -> option (PyArr R)) (args : arr -> PyArg unit) fin,
  (forall x, In x solve_args -> arg_load to_double (args x) = Some (demo_a demo_m 2 x)) /\ args AT = AObj tt /\
  (forall x, In x solve_args -> table2 2 (columns 26 x) (demo_a demo_m 2 x) /\ row_major (columns 26 x) (demo_a demo_m 2 x)) /\
  bound_solve to_double echo noLU demo_c demo_s (/ 10) args 2 = (BRet Done, fin).
Proof.
  destruct (pb_call (fun _ : unit => Some (demo_a demo_m 2 AT)) (AObj tt) eq_refl) as (a2 & E2 & _).
  exists (fun _ => Some (demo_a demo_m 2 AT)), (pb_args (AObj tt)). eexists. refine (conj _ (conj eq_refl (conj (demo_a_ok demo_m 2 (le_n 2) (fun a => eq_refl)) E2))).
  intros x _. destruct x; reflexivity.
Qed.

Print Assumptions C65_sees_partial.
Print Assumptions C65_new.
Print Assumptions C65_refuses.
Print Assumptions C65_shape.
Print Assumptions C65_lost_refuted.
Print Assumptions C65_readonly_refuted.
Print Assumptions C65_temperature_refuted.
Print Assumptions C65_case.
