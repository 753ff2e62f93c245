(** C69 in any arithmetic: every crystal of the mini-app behaves as if it were alone, bit for bit.  [T] and its operations are
    arbitrary, so the theorems hold in particular for IEEE doubles ([dbl], [DNum L]) with any mathematical library [L]. *)
From Coq Require Import String List ZArith Bool Lia PeanoNat.
From Verif Require Import Num NumD Hard Evptn MatModel Cases Miniapp MiniPrint SpecMini SpecMini2 SpecPrint P_Demo12 P_Mini6 P_Demo32.
Import ListNotations.

(** Two crystals of the same orientation, in the same run or in different runs of the same number of steps, end with the very
    same stress, and (after at least one step) the very same stored variables. *)
Theorem C69_bits_crystals T (NT : Num T) hs openmp gpu model device params c s nst d solver lu dt n n' ori ori' N (a' b' : App T) q p :
  app_main hs openmp gpu model device params = Ready c s nst d -> few n -> few n' ->
  computes solver lu c s nst dt n ori N a' -> computes solver lu c s nst dt n' ori' N b' ->
  (q < n)%nat -> (p < n')%nat -> crystal ori q = crystal ori' p ->
  same_stress a' q b' p /\ ((0 < N)%nat -> same_crystal nst a' q b' p).
Proof. intros HM. exact (g_crystals _ _ _ _ _ _ _ _ _ _ HM solver lu dt n n' ori ori' N a' b' q p). Qed.

(** A run succeeds if every crystal of it occurs in some run that succeeds. *)
Theorem C69_bits_completes T (NT : Num T) hs openmp gpu model device params c s nst d solver lu (dt : T) n ori N :
  app_main hs openmp gpu model device params = Ready c s nst d -> few n ->
  (forall q, (q < n)%nat -> exists n' ori' p b', few n' /\ computes solver lu c s nst dt n' ori' N b' /\ (p < n')%nat /\ crystal ori q = crystal ori' p) ->
  forall a qs orders a1, sized nst n a -> visits n qs -> orders_ok n orders -> List.length orders = N -> app_start c s ori n qs nst a = Some a1 ->
    exists a', app_run solver lu c s nst dt n orders a1 = (BRet Done, a').
Proof. intros HM. exact (g_completes _ _ _ _ _ _ _ _ _ _ HM solver lu dt n ori N). Qed.

(** Repeating a run prints the same digits, if the device combines the points in the same way [t]: the order of the loops over
    the crystals and the contents of uninitialised memory do not show. *)
Theorem C69_bits_printed T (NT : Num T) hs openmp gpu model device params c s nst d solver lu dt n ori N (a' b' : App T) t :
  app_main hs openmp gpu model device params = Ready c s nst d -> few n ->
  computes solver lu c s nst dt n ori N a' -> computes solver lu c s nst dt n ori N b' -> reduction n t ->
  forall j, (j < 6)%nat -> printed_stress n t a' j = printed_stress n t b' j.
Proof. intros HM F X Y R j. exact (g_printed _ _ _ _ _ _ _ _ _ _ HM solver lu dt n ori N a' b' t j F X Y R). Qed.

(** ** A case in doubles: four steps with three crystals, and with two of them in the other order *)
Example C69_bits_case : exists s, @app_main dbl (DNum xlm) zsol true true "voce" "OpenMP" x_pars = Ready x_c s 28 OPENMP /\
  (exists a', @computes dbl (DNum xlm) zsol yLU x_c s 28 (Z2D 1) 3 (y_q 1 ++ y_q 2 ++ y_q 3) 4 a') /\
  (exists b', @computes dbl (DNum xlm) zsol yLU x_c s 28 (Z2D 1) 2 (y_q 3 ++ y_q 1) 4 b') /\
  crystal (y_q 1 ++ y_q 2 ++ y_q 3) 0 = crystal (y_q 3 ++ y_q 1) 1.
Proof. exact y_case. Qed.

Print Assumptions C69_bits_crystals.
Print Assumptions C69_bits_completes.
Print Assumptions C69_bits_printed.
Print Assumptions C69_bits_case.
