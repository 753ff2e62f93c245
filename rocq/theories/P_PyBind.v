(** What a Python caller sees of a call (C65). *)
From Coq Require Import List ZArith Bool Lia PeanoNat Reals Lra String.
From Verif Require Import Num NumR Hard Evptn MatModel Cases Py PyBind SpecTensor SpecApi SpecBatch SpecPy P_Batch3 P_Api P_Builtin P_Demo P_Step SpecObj P_Py P_Py2 P_Py3 P_Py4 P_Demo9 Prop_Py.
Import ListNotations.
Local Open Scope R_scope.

Section Solve.
  Context {Obj : Type} (to_double : Obj -> option (PyArr R)).
  Definition none_arr : PyArr R := {| py_base := []; py_off := 0; py_shape := []; py_strides := [] |}.
  Definition loaded (args : arr -> PyArg Obj) (a : arr -> PyArr R) : Prop := forall x, In x solve_args -> arg_load to_double (args x) = Some (a x).
  Lemma bound_eq solver lu c s dt args n a : is_int n = true -> loaded args a -> exists a1, (forall x, In x solve_args -> a1 x = a x) /\ a1 AM = none_arr /\
    bound_solve to_double solver lu c s dt args n = (fst (py_solve solver lu c s dt a1 n), fun x => arg_after Obj (args x) (snd (py_solve solver lu c s dt a1 n) x)).
  Proof.
    intros HI HL. exists (fun x => match x with AM => none_arr | _ => a x end). split.
    - intros x Hx. destruct x; try reflexivity. cbn in Hx. intuition discriminate.
    - split; [reflexivity|]. unfold bound_solve. rewrite HI. cbn [negb]. rewrite (HL AD), (HL AW), (HL AV), (HL AE), (HL AS), (HL AH), (HL AT), (HL AB) by (cbn; tauto).
      destruct (py_solve _ _ _ _ _ _ _) as [o a'] eqn:E. 
      assert (E2 : py_solve solver lu c s dt (fun x => match x with AM => none_arr | _ => a x end) n = (o, a')).
      { rewrite <- E. f_equal. apply FunctionalExtensionality.functional_extensionality. intros x. destruct x; reflexivity. }
      rewrite E2. reflexivity.
  Qed.
  Lemma bound_refuses solver lu c s dt args n : is_int n = false \/ (exists x, In x solve_args /\ arg_load to_double (args x) = None) ->
    bound_solve to_double solver lu c s dt args n = (BRet Failed, args).
  Proof.
    unfold bound_solve. intros [H|(x & Hx & E)]; [rewrite H; reflexivity|]. destruct (is_int n); cbn [negb]; [|reflexivity].
    cbn in Hx. repeat (destruct Hx as [<-|Hx]; [rewrite E; repeat (destruct (arg_load to_double (args _)); try reflexivity)|]). contradiction.
  Qed.
  Lemma bound_shape solver lu c s dt args n a x : loaded args a -> In x solve_args -> py_shape (a x) <> [n; Z.of_nat (columns (py_getNumberHistory c) x)] ->
    fst (bound_solve to_double solver lu c s dt args n) = BRet Failed.
  Proof.
    intros HL Hx HS. destruct (is_int n) eqn:HI.
    - destruct (bound_eq solver lu c s dt args n a HI HL) as (a1 & A1 & A0 & E). rewrite E. cbn [fst]. rewrite (solve_rejects solver lu c s dt a1 n x Hx); [reflexivity|]. rewrite A1 by exact Hx. exact HS.
    - now rewrite bound_refuses by now left.
  Qed.
  Lemma bound_sees hs name pa c s np nh n solver lu dt args a o args' :
    py_new hs name pa = POk (c, s) -> In (name, c, np, nh) (py_table hs) -> loaded args a ->
    (forall x, In x solve_args -> table2 n (columns nh x) (a x) /\ row_major (columns nh x) (a x)) ->
    (Z.of_nat nh * (Z.of_nat n - 1) < 2 ^ 32)%Z -> (Z.of_nat n < 2 ^ 31)%Z ->
    bound_solve to_double solver lu c s dt args (Z.of_nat n) = (o, args') ->
    exists b r, b_s b = s /\ b_n b = n /\ b_dt b = dt /\ b_mtan b = false /\ b_solver b = solver /\ b_lu b = lu /\ o = BRet r /\ (r = Done -> good hs c b) /\
      (forall x i j, In x solve_args -> (i < n)%nat -> elem (a x) i j = val s (b_m b) x i j) /\
      forall x, In x solve_args -> match args x with
        | AObj ob => args' x = AObj ob
        | ADbl w a0 => exists a1, args' x = ADbl w a1 /\ py_shape a1 = py_shape a0 /\ py_strides a1 = py_strides a0 /\ py_off a1 = py_off a0 /\
            forall i j, (i < n)%nat -> elem a1 i j = val s (b_m1 b) x i j
        end.
  Proof.
    intros HN Hin HL HA HW H31 HE. assert (HI : is_int (Z.of_nat n) = true) by (unfold is_int; apply andb_true_iff; split; [apply Z.leb_le|apply Z.ltb_lt]; lia).
    destruct (bound_eq solver lu c s dt args (Z.of_nat n) a HI HL) as (a1 & A1 & A0 & E). rewrite E in HE.
    destruct (py_solve solver lu c s dt a1 (Z.of_nat n)) as [o1 a1'] eqn:ES. cbn [fst snd] in HE.
    assert (o = o1) by congruence. subst o1. assert (EA : args' = (fun x => arg_after Obj (args x) (a1' x))) by congruence. clear HE.
    assert (HA1 : forall x, In x solve_args -> table2 n (columns nh x) (a1 x) /\ row_major (columns nh x) (a1 x)) by (intros x Hx; rewrite A1 by exact Hx; now apply HA).
    destruct (C38_solve hs name pa c s np nh n solver lu dt a1 o a1' HN Hin HA1 HW ES) as (b & r & B1 & B2 & B3 & B4 & B5 & B6 & B7 & _ & _ & B8 & B9 & B10 & _).
    exists b, r. do 8 (split; [assumption|]). split.
    - intros x i j Hx Hi. rewrite <- A1 by exact Hx. exact (proj1 (B9 x i j Hx Hi)).
    - intros x Hx. rewrite EA. destruct (args x) as [w a0|ob] eqn:EX; [|reflexivity]. cbn [arg_after]. exists (a1' x). split; [reflexivity|].
      pose proof (HL x Hx) as L0. rewrite EX in L0. cbn [arg_load] in L0. assert (E0 : a x = a0) by congruence. rewrite <- E0, <- A1 by exact Hx.
      destruct (B10 x Hx) as (C1 & C2 & C3). do 3 (split; [assumption|]). intros i j Hi. exact (proj2 (B9 x i j Hx Hi)).
  Qed.
End Solve.

(** ** Where it goes wrong *)
(** the demo call, with the temperatures handed over as [x] *)
Definition pb_args {Obj} (x : PyArg (T := R) Obj) (y : arr) : PyArg (T := R) Obj := match y with AT => x | _ => ADbl true (demo_a demo_m 2 y) end.
Lemma pb_call {Obj} (to_double : Obj -> option (PyArr R)) x : arg_load to_double x = Some (demo_a demo_m 2 AT) ->
  exists a', bound_solve to_double echo noLU demo_c demo_s (/ 10) (pb_args x) 2 = (BRet Done, fun y => arg_after Obj (pb_args x y) (a' y)) /\ elem (a' AT) 1 0 = 301.
Proof.
  intros HX.
  assert (HL : loaded to_double (pb_args x) (demo_a demo_m 2)) by (intros y Hy; destruct y; try reflexivity; exact HX).
  destruct (bound_eq to_double echo noLU demo_c demo_s (/ 10) (pb_args x) 2 (demo_a demo_m 2) eq_refl HL) as (a1 & A1 & A0 & E).
  pose proof (demo_a_ok demo_m 2 (le_n 2) (fun a => eq_refl)) as OK.
  assert (OK1 : forall y, In y solve_args -> table2 2 (columns 26 y) (a1 y) /\ row_major (columns 26 y) (a1 y)) by (intros y Hy; rewrite A1 by exact Hy; now apply OK).
  pose proof (call_at_good demo_m (demo_batch demo_m (fun a => eq_refl)) (proj2 demo_m_pos)) as GA.
  assert (V : forall i, (i < 2)%nat -> 0 < vNew demo_s demo_m i) by (apply (demo_vals demo_m); reflexivity).
  pose proof (call_at_temp demo_m GA V) as TA. destruct GA as (_ & _ & _ & EG).
  cbn [call_at b_n b_solver b_lu b_s b_dt b_mtan b_m] in EG. change (Z.of_nat 2) with 2%Z in *.
  set (MA := b_m1 (call_at demo_m)) in *.
  assert (EP : (fun b => py_ptr (a1 b)) = demo_m).
  { apply FunctionalExtensionality.functional_extensionality. intros y. destruct y; [rewrite (A1 AD) by (cbn; tauto)|rewrite (A1 AW) by (cbn; tauto)|rewrite (A1 AV) by (cbn; tauto)|
      rewrite (A1 AE) by (cbn; tauto)|rewrite (A1 AS) by (cbn; tauto)|rewrite (A1 AH) by (cbn; tauto)|rewrite (A1 AT) by (cbn; tauto)|rewrite (A1 AB) by (cbn; tauto)|rewrite A0]; reflexivity. }
  rewrite solve_eq in E by (intros y Hy; exact (proj1 (proj1 (OK1 y Hy)))). rewrite EP, EG in E. cbn [fst snd] in E.
  exists (fun y => py_put (a1 y) (MA y)). split; [exact E|]. rewrite (A1 AT) by (cbn; tauto).
  unfold elem, where2. cbn [py_put demo_a packed2 py_off py_strides py_base nth columns firstn app].
  change (Z.to_nat (Z.of_nat 0 + Z.of_nat 1 * Z.of_nat 1 + Z.of_nat 0 * 1)) with 1%nat.
  unfold tKel, val in TA. rewrite demo_strides in TA. change (nth 1 (MA AT) 0 = (eInt demo_s demo_m 1 + 600) / 2) in TA. 
  refine (eq_trans TA _). unfold eInt, val. rewrite demo_strides. unfold stride_of. cbn [gstride st_int_eng nth Nat.mul Nat.add demo_m]. lra.
Qed.
Lemma pb_temp_old : elem (demo_a demo_m 2 AT) 1 0 = 300. Proof. reflexivity. Qed.
(** the temperature of the developer interface *)
Lemma pb_dev : exists v0 xs v1 v2 v3 q, dev_make demo_c demo_pars 0 0 0 = POk v0 /\ good echo demo_c (call_at demo_m) /\
  by_hand demo_c (call_at demo_m) (nth 2 demo_pars 0) 1 v0 xs v1 v2 v3 q /\ tKel demo_s demo_m 1 = 300 /\ tKel demo_s (b_m1 (call_at demo_m)) 1 = 301.
Proof.
  destruct (demo_dev 0 0 0) as [v0 E].
  pose proof (call_at_good demo_m (demo_batch demo_m (fun a => eq_refl)) (proj2 demo_m_pos)) as GA.
  assert (V : forall i, (i < 2)%nat -> 0 < vNew demo_s demo_m i) by (apply (demo_vals demo_m); reflexivity).
  pose proof (call_at_temp demo_m GA V) as TA.
  destruct (dev_state echo demo_c (call_at demo_m) 1 demo_pars 0 0 0 v0 v0 [] GA eq_refl (le_n 2) demo_in_use E eq_refl) as [(xs & v1 & v2 & v3 & q & HA) _].
  exists v0, xs, v1, v2, v3, q. refine (conj E (conj GA (conj HA (conj _ _)))).
  - unfold tKel, val. rewrite demo_strides. reflexivity.
  - refine (eq_trans TA _). unfold eInt, val. rewrite demo_strides. unfold stride_of. cbn [gstride st_int_eng nth Nat.mul Nat.add demo_m]. lra.
Qed.
