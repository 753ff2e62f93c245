(** Runs of the mini-app for C69. *)
From Coq Require Import String List ZArith Bool Lia PeanoNat Reals Lra Permutation.
From Verif Require Import Num Arr NumR Util SlipGeom Eos Hard KinVoce KinKMBalD Elast Evptn MatModel Cases Miniapp SpecTensor
  P_Tensor P_Sngl P_Batch P_Batch3 P_Batch4 P_Api P_Api2 P_Builtin SpecApi SpecKinApi SpecStep SpecObj P_Hist P_Call P_Slip P_Demo P_Demo2 P_Demo3 P_Demo6 SpecMini SpecMini2
  P_Mini P_Mini2 P_Mini3 P_Demo8.
Import ListNotations.
Local Open Scope R_scope.

(** every run of the Voce model with a solver that accepts its starting point succeeds *)
Lemma computes_any s n ori N : app_main echo true true "voce" "OpenMP" demo_pars = Ready demo_c s 28 OPENMP -> few n ->
  exists a', computes echo anyLU demo_c s 28 (/ 10) n ori N a'.
Proof.
  intros HM F.
  destruct (main_start _ _ _ _ _ _ _ _ _ _ n ori (rev (seq 0 n)) (fresh n) HM (fresh_sized n) (visits_rev n)) as (h & a & E1 & E2 & E3 & E4).
  set (orders := repeat (seq 0 n, rev (seq 0 n)) N).
  assert (OK : orders_ok n orders).
  { intros o Ho. apply repeat_spec in Ho. subst o. split; [apply visits_seq|apply visits_rev]. }
  assert (HH : hard_ok n a).
  { intros q Hq. destruct E3 as [_ E3]. destruct (E3 q Hq) as (_ & _ & _ & _ & _ & X). rewrite X by lia.
    destruct (app_ready _ _ _ _ _ _ _ _ _ _ HM) as (HB & _ & HU & _).
    destruct (P_Api2.hist_in_use echo demo_c s demo_pars HB HU) as (nm & HI & _). rewrite HI in E1. apply some_inj in E1. subst h.
    cbn. lra. }
  destruct (run_total s OPENMP HM n (/ 10) F orders a (proj1 E3) OK HH) as [a' E].
  exists a', (fresh n), (rev (seq 0 n)), orders, a.
  exact (conj (fresh_sized n) (conj (visits_rev n) (conj OK (conj (repeat_length _ _) (conj E2 E))))).
Qed.
Definition co_q (k : nat) : list R := [INR k; 1; 0; 2].
Lemma co_case : exists s, app_main echo true true "voce" "OpenMP" demo_pars = Ready demo_c s 28 OPENMP /\
  (exists a', computes echo anyLU demo_c s 28 (/ 10) 3 (concat [co_q 1; co_q 2; co_q 3]) 4 a') /\
  (exists b', computes echo anyLU demo_c s 28 (/ 10) 3 (concat [co_q 3; co_q 1; co_q 2]) 4 b') /\
  (forall q, exists b', computes echo anyLU demo_c s 28 (/ 10) 1 (crystal (concat [co_q 1; co_q 2; co_q 3]) q) 4 b').
Proof.
  destruct (voce_ready echo true true "OpenMP" OPENMP eq_refl) as [s HM]. exists s. split; [exact HM|].
  split; [|split]; [| |intros q]; apply computes_any; try exact HM; unfold few; lia.
Qed.
