(** C69: every crystal of the mini-app behaves as if it were alone.  [computes … n ori N a'] says that [a'] is a possible
    result of [N] successful time steps with [n] crystals of orientations [ori] (SpecMini2). *)
From Coq Require Import String List ZArith Bool Lia PeanoNat Reals Lra Permutation.
From Verif Require Import Num NumR Hard Evptn MatModel Cases Miniapp SpecTensor SpecMini SpecMini2 P_Demo P_Demo2 P_Demo3 P_Demo6 P_Demo8 P_Mini5 P_Demo29.
Import ListNotations.
Local Open Scope R_scope.

(** Two crystals of the same orientation, in the same run or in different runs of the same number of steps, end with the same
    stress, and (after at least one step) the same stored variables: what the other crystals are, how many there are, where
    the crystal is in the file, the order of the loops and the contents of uninitialised memory do not matter. *)
Theorem C69_crystals hs openmp gpu model device params c s nst d solver lu dt n n' ori ori' N a' b' q p :
  app_main hs openmp gpu model device params = Ready c s nst d -> few n -> few n' ->
  computes solver lu c s nst dt n ori N a' -> computes solver lu c s nst dt n' ori' N b' ->
  (q < n)%nat -> (p < n')%nat -> crystal ori q = crystal ori' p ->
  cauchy a' q = cauchy b' p /\ ((0 < N)%nat -> alike nst a' q b' p).
Proof. intros HM. exact (crystals _ _ _ _ _ _ _ _ _ _ HM solver lu dt n n' ori ori' N a' b' q p). Qed.

(** A run succeeds if every crystal of it occurs in some run that succeeds: no combination of crystals makes a run fail. *)
Theorem C69_completes hs openmp gpu model device params c s nst d solver lu dt n ori N :
  app_main hs openmp gpu model device params = Ready c s nst d -> few n ->
  (forall q, (q < n)%nat -> exists n' ori' p b', few n' /\ computes solver lu c s nst dt n' ori' N b' /\ (p < n')%nat /\ crystal ori q = crystal ori' p) ->
  forall a qs orders a1, sized nst n a -> visits n qs -> orders_ok n orders -> List.length orders = N -> app_start c s ori n qs nst a = Some a1 ->
    exists a', app_run solver lu c s nst dt n orders a1 = (BRet Done, a').
Proof. intros HM. exact (completes _ _ _ _ _ _ _ _ _ _ HM solver lu dt n ori N). Qed.

(** The average stress that is printed is the mean of the stresses of the crystals run alone. *)
Theorem C69_mean hs openmp gpu model device params c s nst d solver lu dt n ori N a' (b' : nat -> App R) :
  app_main hs openmp gpu model device params = Ready c s nst d -> few n -> (0 < n)%nat ->
  computes solver lu c s nst dt n ori N a' -> (forall q, (q < n)%nat -> computes solver lu c s nst dt 1 (crystal ori q) N (b' q)) ->
  forall j, (j < 6)%nat -> stress_avg n a' j = / INR n * sum n (fun q => stress_avg 1 (b' q) j).
Proof. intros HM. exact (mean_alone _ _ _ _ _ _ _ _ _ _ HM solver lu dt n ori N a' b'). Qed.

(** The order of the crystals in the orientation file does not matter for it. *)
Theorem C69_shuffled hs openmp gpu model device params c s nst d solver lu dt os os' N a' b' :
  app_main hs openmp gpu model device params = Ready c s nst d -> Permutation os os' -> (forall o, In o os -> List.length o = 4%nat) ->
  few (List.length os) -> os <> [] ->
  computes solver lu c s nst dt (List.length os) (concat os) N a' -> computes solver lu c s nst dt (List.length os) (concat os') N b' ->
  forall j, (j < 6)%nat -> stress_avg (List.length os) a' j = stress_avg (List.length os) b' j.
Proof. intros HM. exact (shuffled _ _ _ _ _ _ _ _ _ _ HM solver lu dt os os' N a' b'). Qed.

(** ** A case: four steps with three crystals, with the same crystals in another order, and with each crystal alone *)
Example C69_case : exists s, app_main echo true true "voce" "OpenMP" demo_pars = Ready demo_c s 28 OPENMP /\
  (exists a', computes echo anyLU demo_c s 28 (/ 10) 3 (concat [co_q 1; co_q 2; co_q 3]) 4 a') /\
  (exists b', computes echo anyLU demo_c s 28 (/ 10) 3 (concat [co_q 3; co_q 1; co_q 2]) 4 b') /\
  (forall q, exists b', computes echo anyLU demo_c s 28 (/ 10) 1 (crystal (concat [co_q 1; co_q 2; co_q 3]) q) 4 b').
Proof. exact co_case. Qed.

Print Assumptions C69_crystals.
Print Assumptions C69_completes.
Print Assumptions C69_mean.
Print Assumptions C69_shuffled.
Print Assumptions C69_case.
