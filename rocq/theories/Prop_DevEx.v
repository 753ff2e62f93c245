(** C75: the loop over points of the developer example of the Python module. *)
From Coq Require Import List ZArith Bool Lia PeanoNat Reals Lra String.
From Verif Require Import Num NumR Hard Evptn MatModel Cases Py PyExampleDev SpecTensor SpecApi SpecBatch SpecObj SpecPy SpecDevEx P_Api P_Builtin P_Demo P_Demo9 P_DevEx P_DevEx2.
Import ListNotations.
Local Open Scope R_scope.

(** The full property: the loop leaves in every row what one call of the library leaves for that point, and stores nothing for a
    point that was not solved.  True of stress, moduli and history, except the evaluation counter, which is 0.  Not true of the
    temperature, of the energy, and of points that were not solved.

    With a root finder that behaves as the solver of the library, on any object made with the parameters of the library object
    and after any calls of it: the loop completes, the inputs are as before, the temperatures are the old ones, and the
    energy of a row contains the work of the points of all rows up to it, and of all calls before. *)
Theorem C75_rows_partial hs c b pars j1 j2 j3 v0 v ops root d : good hs c b -> b_mtan b = false -> in_use c (b_s b) pars ->
  dev_make c pars j1 j2 j3 = POk v0 -> dev_run v0 ops = Some v -> finds_as (b_solver b) root ->
  exists v' rs, devex_solve root v (b_dt b) (nth 2 pars 0) (rows_of c b) = Some (Done, v', rs) /\ List.length rs = b_n b /\
    forall i, (i < b_n b)%nat -> let s := b_s b in let r := nth i rs d in
      r AS = point c s false (b_m1 b) i AS /\ r AB = point c s false (b_m1 b) i AB /\
      List.length (r AH) = mm_numHist c /\
      (forall k, (k < mm_numHist c)%nat -> k <> 3%nat -> nth k (r AH) 0 = val s (b_m1 b) AH i k) /\ nth 3 (r AH) 0 = 0 /\
      r AD = point c s false (b_m b) i AD /\ r AW = point c s false (b_m b) i AW /\ r AV = point c s false (b_m b) i AV /\
      r AT = [tKel s (b_m b) i] /\
      r AE = [eInt s (b_m b) i - delv s (b_m b) i * pres s (b_m b) i + (dv_eDevTot v + j2 * work_upto b i)].
Proof.
  intros G HT U D HR FA. destruct (devex_all hs c b pars j1 j2 j3 v0 root G HT U D FA v ops d HR) as (v' & rs & L1 & L2 & L3).
  exists v', rs. split; [exact L1|]. split; [exact L2|]. intros i Hi. cbv zeta.
  destruct (L3 i Hi) as (A1 & A2 & A3 & A4 & A5 & A6 & A7 & A8 & A9 & A10). auto 12.
Qed.

(** The energies differ from those of the library, whatever the members that nothing initialises hold. *)
Theorem C75_energy_refuted j1 j2 j3 v root : dev_make demo_c demo_pars j1 j2 j3 = POk v -> finds_as echo root ->
  exists b v' rs, good echo demo_c b /\ b_solver b = echo /\ b_mtan b = false /\ in_use demo_c (b_s b) demo_pars /\
    devex_solve root v (b_dt b) (nth 2 demo_pars 0) (rows_of demo_c b) = Some (Done, v', rs) /\
    nth 0 (nth 0 rs (fun _ => []) AE) 0 <> eInt (b_s b) (b_m1 b) 0.
Proof.
  intros E F. destruct (devex_energy_wrong j1 j2 j3 v root E F) as (m & v' & rs & G & L & NE).
  exists (call_at m), v', rs. exact (conj G (conj eq_refl (conj eq_refl (conj demo_in_use (conj L NE))))).
Qed.
(** The temperatures are not updated. *)
Theorem C75_temperature_refuted j1 j2 j3 v root : dev_make demo_c demo_pars j1 j2 j3 = POk v -> finds_as echo root ->
  exists b v' rs, good echo demo_c b /\ b_solver b = echo /\ b_mtan b = false /\ in_use demo_c (b_s b) demo_pars /\
    devex_solve root v (b_dt b) (nth 2 demo_pars 0) (rows_of demo_c b) = Some (Done, v', rs) /\
    nth 1 rs (fun _ => []) AT = [300] /\ tKel (b_s b) (b_m1 b) 1 = 301.
Proof.
  intros E F. destruct (devex_temp_wrong j1 j2 j3 v root E F) as (m & v' & rs & G & L & T).
  exists (call_at m), v', rs. exact (conj G (conj eq_refl (conj eq_refl (conj demo_in_use (conj L T))))).
Qed.
(** Whatever the root finder answers, and also where the answer is no solution, the loop completes and stores something in every
    row; the library, with a solver that does not converge, throws on the same points. *)
Theorem C75_unsolved_refuted hs c b pars j1 j2 j3 v0 v ops root tol solver lu : good hs c b -> b_mtan b = false -> in_use c (b_s b) pars ->
  dev_make c pars j1 j2 j3 = POk v0 -> dev_run v0 ops = Some v -> (forall f t x, ro_evals (root f t x) <> []) ->
  (exists v' rs, devex_solve root v (b_dt b) tol (rows_of c b) = Some (Done, v', rs) /\ List.length rs = b_n b) /\
  ((forall n f t it x, so_converged (solver n f t it x) = false) -> (0 < b_n b)%nat ->
    fst (mm_getResponse solver lu c (b_s b) (b_dt b) false (Z.of_nat (b_n b)) (b_m b)) <> BRet Done).
Proof.
  intros G HT U D HR NE. split; [exact (any_all hs c b pars j1 j2 j3 v0 root tol G HT U D NE v ops HR)|].
  exact (lib_throws hs c b pars j1 j2 j3 v0 G HT U D solver lu).
Qed.
(** the hypotheses of all four *)
Example C75_case j1 j2 j3 : exists v, good echo demo_c (call_at demo_m) /\ b_mtan (call_at demo_m) = false /\ b_n (call_at demo_m) = 2%nat /\
  in_use demo_c (b_s (call_at demo_m)) demo_pars /\ dev_make demo_c demo_pars j1 j2 j3 = POk v /\ finds_as (b_solver (call_at demo_m)) root_echo /\
  (forall f t x, ro_evals (root_echo f t x) <> []).
Proof.
  destruct (demo_dev j1 j2 j3) as [v E]. exists v.
  refine (conj (call_at_good demo_m (demo_batch demo_m (fun a => eq_refl)) (proj2 demo_m_pos)) (conj eq_refl (conj eq_refl (conj demo_in_use (conj E (conj root_echo_finds _)))))).
  intros f t x. discriminate.
Qed.
Print Assumptions C75_rows_partial.
Print Assumptions C75_energy_refuted.
Print Assumptions C75_temperature_refuted.
Print Assumptions C75_unsolved_refuted.
Print Assumptions C75_case.
