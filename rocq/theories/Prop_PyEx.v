(** C72: the helper class and the loop over time steps of the Python example. *)
From Coq Require Import List ZArith Bool Lia PeanoNat Reals Lra String.
From Verif Require Import Num NumR Hard Evptn MatModel Cases Py PyExample SpecApi SpecObj SpecPy SpecPyEx P_Builtin P_Demo P_Py P_Py2 P_Demo9 P_PyEx P_Demo33.
Import ListNotations.
Local Open Scope R_scope.

(** ** The helper's [solve] *)
(** Vectors for one point, scalars for one number, tables without gaps: the helper never does anything undefined, and if it
    does not throw it has made the library call on the numbers in the arguments, and the five arrays it returns are tables
    that hold the results. *)
Theorem C72_solve hs name pa c s np nh n solver lu dt args :
  py_new hs name pa = POk (c, s) -> In (name, c, np, nh) (py_table hs) ->
  (forall x, In x inputs -> rows n (columns nh x) (args x)) -> (Z.of_nat nh * (Z.of_nat n - 1) < 2 ^ 32)%Z ->
  (exists r, fst (prob_solve solver lu c s dt args) = BRet r) /\
  forall a', prob_solve solver lu c s dt args = (BRet Done, a') ->
  exists b, good hs c b /\ b_s b = s /\ b_n b = n /\ b_dt b = dt /\ b_mtan b = false /\ b_solver b = solver /\ b_lu b = lu /\
    (forall x i j, In x inputs -> (i < n)%nat -> (j < columns nh x)%nat -> val s (b_m b) x i j = item (args x) i j) /\
    forall x, In x returned -> py_shape (a' x) = [Z.of_nat n; Z.of_nat (columns nh x)] /\ rows n (columns nh x) (a' x) /\
      forall i j, (i < n)%nat -> (j < columns nh x)%nat -> item (a' x) i j = val s (b_m1 b) x i j.
Proof.
  intros HN Hin HA HW. split; [exact (returns hs name pa c s np nh HN Hin solver lu dt n args HA HW)|].
  intros a' E. exact (helper hs name pa c s np nh HN Hin solver lu dt n args a' HA HW E).
Qed.
(** Several points need tables: a vector of energies, unless of length one, is refused. *)
Theorem C72_flat (c : MClass R) s solver lu dt args n : py_shape (args AE) = [n] -> n <> 1%Z ->
  fst (prob_solve solver lu c s dt args) = BRet Failed.
Proof. exact (flat c s solver lu dt args n). Qed.
(** The documented number of stress columns (six) is refused, always. *)
Theorem C72_documented_refuted (c : MClass R) s solver lu dt args n : py_shape (args AS) = [Z.of_nat n; 6%Z] ->
  fst (prob_solve solver lu c s dt args) = BRet Failed.
Proof. exact (documented c s solver lu dt args n). Qed.

(** ** The loop *)
(** [K] turns with deformation rate [d] and spin [w]: the script gets started, does nothing undefined, and if no call throws
    it has made [K] library calls at one point.  Each continues with the energy, stress, history and temperature the one
    before left behind.  Each has the given rate, spin and time step, and the volumes of a material whose volume grows at
    the rate [d_6] without any drift.  The first starts from the initial history of the object, without stress and energy.
    At the end the arrays of the script hold the results of the last call. *)
Theorem C72_run hs name pa c s np nh solver lu dt d w t K :
  py_new hs name pa = POk (c, s) -> In (name, c, np, nh) (py_table hs) -> List.length d = 7%nat -> List.length w = 3%nat ->
  exists e h, ex_start c s d w t = Some e /\ mm_getHistInfo c s = Some h /\
  (exists r, fst (ex_loop solver lu c s dt K e) = BRet r) /\
  forall e', ex_loop solver lu c s dt K e = (BRet Done, e') ->
  exists l, List.length l = K /\ chain hs c [AE; AS; AH; AT] l /\
    (forall b, nth_error l 0 = Some b -> val s (b_m b) AE 0 0 = 0 /\ (forall j, (j < 7)%nat -> val s (b_m b) AS 0 j = 0) /\
      (forall j, (j < nh)%nat -> val s (b_m b) AH 0 j = nth j (map entry_init h) 0) /\ val s (b_m b) AT 0 0 = t) /\
    (forall k b, nth_error l k = Some b -> b_s b = s /\ b_n b = 1%nat /\ b_dt b = dt /\ b_solver b = solver /\ b_lu b = lu /\
       (forall j, (j < 7)%nat -> val s (b_m b) AD 0 j = nth j d 0) /\ (forall j, (j < 3)%nat -> val s (b_m b) AW 0 j = nth j w 0) /\
       volumes (nth 6 d 0) dt k s (b_m b)) /\
    forall b, nth_error l (K - 1) = Some b -> forall x j, In x returned -> (j < columns nh x)%nat -> item (ex_a e' x) 0 j = val s (b_m1 b) x 0 j.
Proof.
  intros HN Hin HD HW. destruct (start_ok hs name pa c s np nh HN Hin d w t HD HW) as (e & h & ES & HE & HI & _).
  exists e, h. split; [exact ES|]. split; [exact HI|]. split; [exact (loop_returns hs name pa c s np nh HN Hin solver lu dt K e HE)|].
  intros e' E. exact (script hs name pa c s np nh HN Hin solver lu dt d w t K e e' h HD HW HI ES E).
Qed.
(** The volume rate passed is the exact one up to the mean over the step. *)
Theorem C72_rate r dt k s m : volumes r dt k s m -> dt <> 0 -> val s m AV 0 2 = 2 / dt * tanh (r * dt / 2).
Proof. exact (volume_rate r dt k s m). Qed.
(** The script's loading: uniaxial extension along the first axis at the rate 1/1000. *)
Theorem C72_loading i j : (i < 3)%nat -> (j < 3)%nat -> rate_of ex_rate i j = if andb (i =? 0)%nat (j =? 0)%nat then 1 / 1000 else 0.
Proof. exact (script_rate i j). Qed.

Example C72_case : py_new echo "voce_fcc_norm" (packed1 demo_pars) = POk (demo_c, demo_s) /\ In ("voce_fcc_norm"%string, demo_c, 17%nat, 26%nat) (py_table echo) /\
  List.length (@ex_rate R _) = 7%nat /\
  (exists e, ex_start demo_c demo_s ex_rate [0; 0; 0] 300 = Some e /\ forall K, exists e', ex_loop echo noLU demo_c demo_s (/10) K e = (BRet Done, e')) /\
  exists args, (forall x, In x inputs -> rows 1 (columns 26 x) (args x)) /\ py_shape (args AT) = [] /\ py_shape (args AS) = [7%Z] /\
    exists a', prob_solve echo noLU demo_c demo_s (/10) args = (BRet Done, a').
Proof.
  split; [exact demo_py|]. split; [exact demo_in_table|]. split; [reflexivity|].
  destruct (demo_started ex_rate [0; 0; 0] 300 eq_refl eq_refl) as (e & ES & HE & HP). split.
  - exists e. split; [exact ES|]. intros K. exact (demo_loop (/10) K e HE HP).
  - exists (turn_args (/10) e). split; [exact (turn_ok 26 (/10) e HE)|]. split; [|split].
    + exact (proj1 (start_shapes _ _ _ _ _ _ ES)).
    + exact (proj2 (start_shapes _ _ _ _ _ _ ES)).
    + apply (demo_solve (/10) 1); [exact (turn_ok 26 (/10) e HE)|exact (small1 26)|]. intros i Hi. assert (i = 0%nat) by lia. subst i. exact HP.
Qed.

Print Assumptions C72_solve.
Print Assumptions C72_flat.
Print Assumptions C72_documented_refuted.
Print Assumptions C72_run.
Print Assumptions C72_rate.
Print Assumptions C72_loading.
