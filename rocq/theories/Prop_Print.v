(** C70, C71: the numbers the mini-app prints after a time step.  A [reduction n t] takes each of the [n] points once, in some
    order and grouping [t]; [one_by_one n] is the sequential one. *)
From Coq Require Import String List ZArith Bool Lia PeanoNat Reals Lra Permutation.
From Flocq Require Import IEEE754.BinarySingleNaN.
From Verif Require Import Num NumR NumD MatModel Miniapp MiniPrint SpecMini SpecMini2 SpecPrint P_Mini P_Print P_Print2 P_Demo P_Demo2 P_Demo8 P_Demo29 P_Demo30 P_Demo31.
Import ListNotations.
Local Open Scope R_scope.

(** ** C70. The printed stress is the mean over the points *)
(** over the reals, however the device combines the points *)
Theorem C70_stress n t (a : App R) j : reduction n t -> printed_stress n t a j = mean n (fun q => nth (6 * q + j) (ap_stress a) 0).
Proof. exact (printed_stress_mean n t a j). Qed.

(** in doubles, up to rounding: the error grows with the depth of the reduction only, and a finite result comes from finite
    stresses at every point *)
Theorem C70_rounded L n t (a : App dbl) j : (1 <= Z.of_nat n <= 2 ^ 31)%Z -> reduction n t -> INR (depth t) <= 2 ^ 40 ->
  let s := @printed_stress dbl (DNum L) n t a j in is_finite s = true ->
  (forall q, (q < n)%nat -> is_finite (nth (6 * q + j) (ap_stress a) B754_nan) = true) /\
  Rabs (B2R s - mean n (rstress a j)) <= avg_error n t a j.
Proof. exact (printed_error L n t a j). Qed.

(** so two devices print the same up to rounding *)
Theorem C70_devices L L' n t t' (a : App dbl) j : (1 <= Z.of_nat n <= 2 ^ 31)%Z -> reduction n t -> reduction n t' ->
  INR (depth t) <= 2 ^ 40 -> INR (depth t') <= 2 ^ 40 ->
  let s := @printed_stress dbl (DNum L) n t a j in let s' := @printed_stress dbl (DNum L') n t' a j in
  is_finite s = true -> is_finite s' = true -> Rabs (B2R s - B2R s') <= avg_error n t a j + avg_error n t' a j.
Proof. exact (printed_devices L L' n t t' a j). Qed.

(** on the CPU the points are added in their order, in whatever arithmetic: this is the average of C41 and C69 *)
Theorem C70_sequential T (N : Num T) n (a : App T) j : reduction n (one_by_one n) /\ printed_stress n (one_by_one n) a j = stress_avg n a j.
Proof. exact (conj (one_by_one_reduction n) (printed_avg n a j)). Qed.

(** ** C71. The printed numbers of function evaluations *)
(** The three numbers printed are the least, the mean and the greatest of state variable 2 (starting from 100 and 0), which is
    the flow strength.  Missing: that they are those of the numbers of evaluations, which is false. *)
Theorem C71_printed_partial n nst t (a : App R) : reduction n t ->
  let flow := fun q => stored nst a q 2 in let '(lo, av, hi) := printed_evals n nst t a in
  least (100 :: map flow (seq 0 n)) lo /\ av = mean n flow /\ greatest (0 :: map flow (seq 0 n)) hi.
Proof. exact (printed_evals_are n nst t a). Qed.

(** A run of three crystals whose solves took two evaluations each (state variable 3): all three numbers printed are zero. *)
Theorem C71_evals_refuted : exists s a', app_main echo true true "voce" "OpenMP" demo_pars = Ready demo_c s 28 OPENMP /\
  computes echo anyLU demo_c s 28 (/ 10) 3 (concat [co_q 1; co_q 2; co_q 3]) 1 a' /\
  (forall q, (q < 3)%nat -> stored 28 a' q 3 = 2) /\
  forall t, reduction 3 t -> let '(lo, av, hi) := printed_evals 3 28 t a' in lo = 0 /\ av = 0 /\ hi = 0.
Proof. exact evals_wrong. Qed.

(** ** Cases *)
Example C70_case : reduction 3 av_tree /\ av_tree <> one_by_one 3 /\ INR (depth av_tree) <= 2 ^ 40 /\
  forall L j, (j < 6)%nat -> is_finite (@printed_stress dbl (DNum L) 3 av_tree av_app j) = true.
Proof. split; [exact av_red|]. split; [exact av_other|]. split; [exact av_depth|exact av_fin]. Qed.

Print Assumptions C70_stress.
Print Assumptions C70_rounded.
Print Assumptions C70_devices.
Print Assumptions C70_sequential.
Print Assumptions C71_printed_partial.
Print Assumptions C71_evals_refuted.
Print Assumptions C70_case.
