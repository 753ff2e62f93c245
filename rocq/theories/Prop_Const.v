(** Property theorems about the numeric constants: C37. *)
From Coq Require Import ZArith Reals Lra Lia.
From Verif Require Import Num NumR Const SpecConst P_Const.
Local Open Scope R_scope.

Theorem C37_roots :
  close lit_SQRT2 (sqrt 2) /\ close lit_SQRT3 (sqrt 3) /\ close lit_SQRT6 (sqrt 6) /\ close lit_SQRT3B2 (sqrt (3 / 2)) /\
  close lit_SQRT2B3 (sqrt (2 / 3)) /\ close lit_SQRT2I (1 / sqrt 2) /\ close lit_SQRT3I (1 / sqrt 3) /\ close lit_SQRT6I (1 / sqrt 6) /\
  close lit_HALFSQRT3 (sqrt 3 / 2) /\ close lit_TWOSQRT3 (2 * sqrt 3).
Proof.
  assert (S : forall a, 0 < a -> 0 < sqrt a /\ sqrt a * sqrt a = a) by (intros; split; [now apply sqrt_lt_R0|apply sqrt_sqrt; lra]).
  destruct (S 2) as [P2 E2], (S 3) as [P3 E3], (S 6) as [P6 E6], (S (3 / 2)) as [P7 E7], (S (2 / 3)) as [P8 E8]; try lra.
  repeat apply conj.
  - now apply (near_close _ _ 2 1); try lia; lra.
  - now apply (near_close _ _ 3 1); try lia; lra.
  - now apply (near_close _ _ 6 1); try lia; lra.
  - now apply (near_close _ _ 3 2); try lia; lra.
  - now apply (near_close _ _ 2 3); try lia; lra.
  - apply (near_close _ _ 1 2); try lia; [apply Rdiv_lt_0_compat; lra|]. transitivity (1 / (sqrt 2 * sqrt 2)); [field; lra|now rewrite E2].
  - apply (near_close _ _ 1 3); try lia; [apply Rdiv_lt_0_compat; lra|]. transitivity (1 / (sqrt 3 * sqrt 3)); [field; lra|now rewrite E3].
  - apply (near_close _ _ 1 6); try lia; [apply Rdiv_lt_0_compat; lra|]. transitivity (1 / (sqrt 6 * sqrt 6)); [field; lra|now rewrite E6].
  - apply (near_close _ _ 3 4); try lia; lra.
  - apply (near_close _ _ 12 1); try lia; lra.
Qed.

(** the values used by the model over R are the mathematical constants *)
Theorem C37_model :
  sqr2 = sqrt 2 /\ sqr3 = sqrt 3 /\ sqr6 = sqrt 6 /\ sqr3b2 = sqrt (3 / 2) /\ sqr2b3 = sqrt (2 / 3) /\ sqr2i = 1 / sqrt 2 /\
  sqr3i = 1 / sqrt 3 /\ sqr6i = 1 / sqrt 6 /\ halfsqr3 = sqrt 3 / 2 /\ twosqr3 = 2 * sqrt 3.
Proof. exact model_roots. Qed.

(** Order of the thresholds; the logarithmic ones agree with the ratios they stand for: a rate ratio that the linear test
    discards is discarded by the logarithmic test up to one part in a hundred, never the other way round. *)
Theorem C37_thresholds :
  0 < value lit_idp_tiny_sqrt < value lit_gam_ratio_min /\ value lit_gam_ratio_min < value lit_idp_eps_sqrt < 1 /\
  1 < value lit_gam_ratio_max < value lit_gam_ratio_ovffx /\ value lit_gam_ratio_ovffx < value lit_gam_ratio_ovf /\
  (99 / 100) * value lit_gam_ratio_min < exp (value lit_ln_gam_ratio_min) < value lit_gam_ratio_min /\
  (99 / 100) * value lit_gam_ratio_ovf < exp (value lit_ln_gam_ratio_ovf) < value lit_gam_ratio_ovf.
Proof. exact thresholds. Qed.

Print Assumptions C37_roots.
Print Assumptions C37_model.
Print Assumptions C37_thresholds.
