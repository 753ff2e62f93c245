(** Property theorems about the library on IEEE doubles: C57, finite results. *)
From Coq Require Import List ZArith Bool Lia Reals Lra.
From Flocq Require Import Core IEEE754.BinarySingleNaN.
From Verif Require Import Num Hard MatModel Cases P_Batch3 P_Api P_Builtin SpecApi NumD SpecDbl SpecDblFin
  P_Dbl P_Dbl8 P_Dbl16 P_Dbl18 P_Demo12 P_Demo14.
Import ListNotations.
Local Open Scope R_scope.

(** ** C57: no overflow on moderate inputs
    A successful call whose inputs are moderate (SpecDblFin.v: at most 1e30, volumes between 1e-3 and 1e3) and whose solver
    answered with unknowns below 1e100 stores finite stresses, energy, temperature, moduli, elastic strains and orientation.
    sin, cos, exp, log and pow are accurate but otherwise arbitrary. *)
Theorem C57_finite L hs c b i pars : trig_ok L -> libm_ok L -> dgood L hs c b -> (i < d_n b)%nat -> @in_use dbl (DNum L) c (d_s b) pars ->
  moderate_params c pars -> moderate_point b i -> moderate_answers (d_solver b) ->
  let o := dval (d_s b) (d_m1 b) in
  (forall k, (k < 7)%nat -> is_finite (o AS i k) = true) /\ is_finite (o AE i 0%nat) = true /\ is_finite (o AT i 0%nat) = true /\
  is_finite (o AB i 0%nat) = true /\ is_finite (o AB i 1%nat) = true /\
  (forall k, (k < 5)%nat -> is_finite (o AH i (4 + k)%nat) = true) /\ finite (dquat (d_s b) (d_m1 b) i).
Proof. intros TR LM. exact (dcall_finite L TR LM hs c b i pars). Qed.
(** The stored deviatoric stress has no trace, up to rounding: the error is relative to the normal components. *)
Theorem C57_trace L hs c b i pars : trig_ok L -> libm_ok L -> dgood L hs c b -> (i < d_n b)%nat -> @in_use dbl (DNum L) c (d_s b) pars ->
  moderate_params c pars -> moderate_point b i -> moderate_answers (d_solver b) ->
  let s := fun k => B2R (dval (d_s b) (d_m1 b) AS i k) in
  Rabs (s 0%nat + s 1%nat + s 2%nat) <= / 10 ^ 15 * (Rabs (s 0%nat) + Rabs (s 1%nat) + Rabs (s 2%nat)) + / 10 ^ 320.
Proof.
  intros TR LM G Hi HU MP MI HA. destruct (dcall_finite L TR LM hs c b i pars G Hi HU MP MI HA) as [F _].
  exact (dcall_trace L hs c b i G Hi (F 0%nat ltac:(lia)) (F 1%nat ltac:(lia)) (F 2%nat ltac:(lia))).
Qed.
(** In the Voce models the slip rates, the effective shear rate and the accumulated shear are finite too, when the rate
    sensitivity is between 1e-6 and 1, the reference rate and the accumulated shear so far are moderate, and the hardness the
    call stores is at least 1e-30.  The overflow and underflow guards of the power law are what makes this true. *)
Theorem C57_rates L hs c b i pars : trig_ok L -> libm_ok L -> dgood L hs c b -> (i < d_n b)%nat -> voce_class L hs c ->
  @in_use dbl (DNum L) c (d_s b) pars -> moderate_params c pars -> moderate_rates pars -> moderate_point b i ->
  moderate_answers (d_solver b) -> moderate_last (d_solver b) ->
  let o := dval (d_s b) (d_m1 b) in
  is_finite (o AH i 13%nat) = true -> / 10 ^ 30 <= B2R (o AH i 13%nat) -> moderate (dval (d_s b) (d_m b) AH i 1) ->
  (forall k, (k < 12)%nat -> is_finite (o AH i (14 + k)%nat) = true) /\ is_finite (o AH i 0%nat) = true /\ is_finite (o AH i 1%nat) = true.
Proof. intros TR LM. exact (dcall_rates L LM hs c b i pars). Qed.
(** Two points, stressed and strained, deforming; the second one is looked at. *)
Example C57_case : trig_ok xlm /\ libm_ok xlm /\ dgood xlm zsol x_c (x_call (Z2D 1) y_m) /\ (1 < d_n (x_call (Z2D 1) y_m))%nat /\
  voce_class xlm zsol x_c /\ @in_use dbl (DNum xlm) x_c x_s x_pars /\ moderate_params x_c x_pars /\ moderate_rates x_pars /\
  moderate_point (x_call (Z2D 1) y_m) 1 /\ moderate_answers zsol /\ moderate_last zsol /\
  (let h := dval x_s (d_m1 (x_call (Z2D 1) y_m)) AH 1 13 in is_finite h = true /\ / 10 ^ 30 <= B2R h) /\
  moderate (dval x_s y_m AH 1 1).
Proof.
  split; [exact xlm_ok|]. split; [exact xlm_libm|]. split; [exact (x_good _ _ y_pos)|]. split; [cbn; lia|]. split; [now left|].
  split; [exact x_in_use|]. split; [exact y_params|]. split; [exact y_rates|]. split; [apply y_point; apply z_mod; lia|].
  split; [exact zsol_moderate|]. split; [exact zsol_last|]. split; [exact (y_hard _)|]. exact y_acc.
Qed.

Print Assumptions C57_finite.
Print Assumptions C57_trace.
Print Assumptions C57_rates.
