(** Property theorems about undefined operations: C42. *)
From Coq Require Import List ZArith Bool Lia Reals Lra String.
From Verif Require Import Num NumR NumO Util Eos Hard KinVoce Evptn MatModel Cases SpecTensor SpecApi SpecDef SpecDefApi
  P_Builtin P_Demo P_Demo2 P_Demo3 P_Demo4 P_Def6.
Import ListNotations.
Local Open Scope R_scope.

Section D.
Variable u : bool.
Local Hint Extern 0 (Num (option R)) => exact (ONum u) : typeclass_instances.

(** ** C42. Valid inputs never meet an undefined operation. *)
(** Over the numbers of NumO.v, in which every division by zero, logarithm of a non-positive number, root or non-integer power of
    a negative number is undefined and stays so, initialisation with valid parameters ends as it ends over R; and a call on valid
    points ends as it ends over R, with a defined number in every cell of every buffer, the one computed over R.  This holds for
    either answer of comparisons with undefined numbers. *)
Theorem C42_call hso hsr pars co cr oo orr opts strs : same_solver hso hsr -> valid_class u hso hsr pars co cr -> fresh u co cr oo orr ->
  let io := mm_init co oo opts (L pars) strs in let ir := mm_init cr orr opts pars strs in
  fst io = fst ir /\
  (fst ir = Done -> forall so sr luo lur dt mtan n m, same_solver so sr -> same_lu luo lur -> dt <> 0 ->
   let s := mm_doComplete (snd ir) in
   batch_ok cr s mtan n m -> (forall i, (i < n)%nat -> valid_point cr pars s m i) ->
   mm_getResponse so luo co (mm_doComplete (snd io)) (Some dt) mtan (Z.of_nat n) (liftM m) =
   liftB (mm_getResponse sr lur cr s dt mtan (Z.of_nat n) m)).
Proof. intros H. exact (call_L u hso hsr H pars co cr oo orr opts strs). Qed.

(** The equations of a point and their derivatives are defined at every vector of unknowns a solver may try, however far from the
    solution. *)
Theorem C42_iterate hso hsr pars co cr oo orr opts strs : same_solver hso hsr -> valid_class u hso hsr pars co cr -> fresh u co cr oo orr ->
  fst (mm_init cr orr opts pars strs) = Done ->
  exists mo mr tol, mm_ready (snd (mm_init co oo opts (L pars) strs)) = Some (mo, Some tol) /\ mm_ready (snd (mm_init cr orr opts pars strs)) = Some (mr, tol) /\
  forall dt d w vr pt, dt <> 0 -> List.length d = 7%nat -> List.length w = 3%nat -> List.length vr = 4%nat ->
  List.length (pt_eInt pt) = 1%nat -> List.length (pt_stress pt) = 7%nat -> List.length (pt_hist pt) = mm_numHist cr ->
  nth 0 vr 0 <> 0 -> 0 < nth 1 vr 0 -> norm2 (sub (pt_hist pt) 9 4) <> 0 -> 0 < (nth 0 (pt_eInt pt) 0 - p_ec0 cr pars) / p_cv pars ->
  forall g h_new n, List.length g = c_nslip cr -> k_updateH (m_kin mr) (sub (pt_hist pt) 13 (c_nH cr)) dt g = Some (h_new, n) ->
  k_valsOk (m_kin mr) (u_press (snglUpd mr vr (pt_eInt pt) (pt_stress pt))) (snglTkelv mr vr (pt_eInt pt)) h_new = true ->
  forall x, List.length x = 8%nat ->
  computeRJ (snglProb mo (Some dt) (L d) (L w) (L vr) (liftPt pt) (L h_new)) (L x) = L2 (computeRJ (snglProb mr dt d w vr pt h_new) x).
Proof. intros H. exact (iterate_call u hso hsr H pars co cr oo orr opts strs). Qed.

(** Without the condition on the exponent of the nonlinear Voce law the property fails: with all parameters, the strength and the
    slip rates positive or zero, exponent 3/2 and a strength above its saturation value, the rate of hardening is undefined. *)
Theorem C42_nonlinear_voce_refuted : exists P g h, List.length P = voce_nParams true /\ (forall k, (k < 10)%nat -> 0 < nth k P 0) /\
  List.length g = 12%nat /\ (forall k, (k < 12)%nat -> 0 <= nth k g 0) /\ 0 < h /\
  let v := voce_setParams true (L P) in fst (voce_getSdot1 v (voce_getEvolVals v 12 (L g)) (Some h)) = None.
Proof.
  exists nl_pars, nl_rates, 3. split; [reflexivity|]. split.
  { intros k Hk. unfold nl_pars. do 10 (destruct k as [|k]; [cbn; lra|]). lia. }
  split; [reflexivity|]. split.
  { intros k Hk. unfold nl_rates. do 12 (destruct k as [|k]; [cbn; lra|]). lia. }
  split; [lra|]. exact (nl_undefined u).
Qed.

(** the spinning FCC crystal of C24: the parameters and the point are valid, the call succeeds *)
Example C42_case : let c := d2_c checked in let co := cls_FCC_A (ochecked u) in let ir := mm_init c (mm_new c) [] demo_pars [] in
  same_solver (ochecked u) checked /\ valid_class u (ochecked u) checked demo_pars co c /\ fresh u co c (mm_new co) (mm_new c) /\ fst ir = Done /\
  same_solver (ooffer8 u d42_x) (offer8 d42_x) /\ same_lu (fun _ _ _ _ => None) noLU /\
  batch_ok c (mm_doComplete (snd ir)) false 1 (d4_m d4_w) /\ (forall i, (i < 1)%nat -> valid_point c demo_pars (mm_doComplete (snd ir)) (d4_m d4_w) i) /\
  fst (mm_getResponse (offer8 d42_x) noLU c (mm_doComplete (snd ir)) (/ 10) false (Z.of_nat 1) (d4_m d4_w)) = BRet Done.
Proof.
  intros c co ir. unfold ir, c. rewrite <- d42_s.
  split; [apply checked_same|]. split; [apply d42_class|]. split; [apply fresh_new|].
  split; [destruct (d2_init checked) as [s1 ->]; reflexivity|]. split; [apply offer8_same; exact d42_len|]. split; [apply noLU_same|].
  split; [apply d4_batch; reflexivity|]. split; [intros i Hi; assert (i = 0%nat) by lia; subst i; exact d42_point|].
  exact (f_equal fst (proj2 (proj2 (proj2 d42_good)))).
Qed.
End D.

Print Assumptions C42_call.
Print Assumptions C42_iterate.
Print Assumptions C42_nonlinear_voce_refuted.
