(** Property theorems about hardening with one strength per slip system: C59.  The laws are in SpecKin.v and SpecAniso.v. *)
From Coq Require Import String List ZArith Bool Lia Reals Lra.
From Coquelicot Require Import Coquelicot.
From Verif Require Import Num Arr NumR Util SlipGeom Eos Hard KinVoce Elast Evptn MatModel Cases SpecKin SpecAniso KinAniso P_Sngl
  P_Hard P_Demo P_Demo2 P_Aniso P_Demo17.
Import ListNotations.
Local Open Scope R_scope.

(** The vector update, for any law: a converged answer solves the coupled implicit equations ... *)
Theorem C59_many hs n (sd : SdotN R) ho dt h nf : accurate hs -> updateHN hs n sd ho dt = Some (h, nf) ->
  implicit_step_n n (fun h => fst (sd h)) dt ho h.
Proof. intros HA HU. exact (updateHN_spec hs n sd ho dt h nf HU HA). Qed.
(** ... and for one strength it is the scalar update, whatever the solver. *)
Theorem C59_one hs (sd : Sdot1 R) ho dt :
  updateHN hs 1 (fun h => let '(s, d) := sd (get h 0) in ([s], [d])) [ho] dt =
  match updateH1 hs sd ho dt with Some (h, n) => Some ([h], n) | None => None end.
Proof. exact (updateHN_one hs sd ho dt). Qed.

(** Linear Voce law per system: every strength is within the tolerance of the only solution of its own equation, which lies
    between its old value and saturation. *)
Theorem C59_update hs n P g ho dt h nf i : accurate hs -> length g = n -> (i < n)%nat -> 0 <= dt -> 0 <= nth 3 P 0 -> 0 < nth (6 + n) P 0 ->
  k_updateH (aniso_kinetics hs (aniso_setParams false n P)) ho dt g = Some (h, nf) ->
  let shr := shear_sum g in let sat := an_sat false n P shr in
  exists e, implicit_step (an_rate n P shr i) dt (nth i ho 0) e /\
    (forall e', implicit_step (an_rate n P shr i) dt (nth i ho 0) e' -> e' = e) /\
    Rmin (nth i ho 0) sat <= e <= Rmax (nth i ho 0) sat /\
    Rabs (nth i h 0 - e) <= / 10 ^ 10 * Rmax (nth i ho 0) 1.
Proof. intros HA HL Hi HD H0 HG HU shr sat. exact (an_lin_near n P g hs ho dt h nf HL HG HA HD H0 HU i Hi). Qed.
Theorem C59_no_slip hs n P g ho dt h nf i : accurate hs -> length g = n -> (i < n)%nat -> 0 < nth (6 + n) P 0 ->
  k_updateH (aniso_kinetics hs (aniso_setParams false n P)) ho dt g = Some (h, nf) -> shear_sum g = 0 ->
  Rabs (nth i h 0 - nth i ho 0) <= / 10 ^ 10 * Rmax (nth i ho 0) 1.
Proof. intros HA HL Hi HG HU HZ. exact (an_lin_noslip n P g hs ho dt h nf HL HG HA HU i Hi HZ). Qed.
(** Nonlinear law, strengths below saturation. *)
Theorem C59_nonlinear hs n P g ho dt h nf i : accurate hs -> length g = n -> (i < n)%nat -> 0 <= dt -> 0 <= nth 3 P 0 -> 0 < nth (5 + n) P 0 -> 0 < nth (7 + n) P 0 ->
  k_updateH (aniso_kinetics hs (aniso_setParams true n P)) ho dt g = Some (h, nf) ->
  let shr := shear_sum g in let sat := an_sat true n P shr in nth (4 + i) P 0 < sat -> nth i ho 0 < sat ->
  exists e, implicit_step (an_rate_nl n P shr i) dt (nth i ho 0) e /\ nth i ho 0 <= e < sat /\
    (forall e', e' < sat -> implicit_step (an_rate_nl n P shr i) dt (nth i ho 0) e' -> e' = e) /\
    (nth i h 0 < sat -> Rabs (nth i h 0 - e) <= / 10 ^ 10 * Rmax (nth i ho 0) 1).
Proof. intros HA HL Hi HD H0 Hm HG HU shr sat HT HS. exact (an_nl_near n P g hs ho dt h nf HL HG HA HD H0 Hm HU i Hi HT HS). Qed.

(** The Jacobian handed to the solver is the derivative of the residual, entry by entry; for the linear law it is diagonal with
    entries at least one, so that the Newton step always exists. *)
Theorem C59_jacobian (nl : bool) n P g ho (dt : R) x i j : length g = n -> 0 < nth (6 + n + (if nl then 1 else 0))%nat P 0 -> length ho = n -> length x = n ->
  (i < n)%nat -> (j < n)%nat ->
  (nl = true -> forall k, (k < n)%nat -> nth (4 + k) P 0 < an_sat nl n P (shear_sum g) /\ nth k ho 0 + nth k x 0 * Rmax (nth k ho 0) 1 < an_sat nl n P (shear_sum g)) ->
  let a := aniso_setParams nl n P in let sd := aniso_getSdotN a (aniso_getEvolVals a g) in
  is_derive (fun t : R => get (fst (hn_computeRJ n sd ho dt (with_entry x j t))) i) (get x j) (get2 n (snd (hn_computeRJ n sd ho dt x)) i j).
Proof. exact (an_jacobian nl n P g ho dt x i j). Qed.
Theorem C59_diagonal n P g ho (dt : R) x i j : length g = n -> 0 < nth (6 + n) P 0 -> 0 <= nth 3 P 0 -> 0 <= dt -> (i < n)%nat -> (j < n)%nat ->
  let a := aniso_setParams false n P in let sd := aniso_getSdotN a (aniso_getEvolVals a g) in
  let J := get2 n (snd (hn_computeRJ n sd ho dt x)) i j in (i <> j -> J = 0) /\ (i = j -> 1 <= J).
Proof. exact (an_jac_entries n P g ho dt x i j). Qed.

(** Every system slips by the power law at its own strength. *)
Theorem C59_rates hs nl n P p tK h tau i : (i < n)%nat -> 0 < nth i h 0 -> 0 <= nth 2 P 0 ->
  let k := aniso_kinetics hs (aniso_setParams nl n P) in
  nth i (fst (fst (k_evalGdots k tau (fst (k_getVals k p tK h))))) 0 = voce_law (nth 2 P 0) (nth 1 P 0) (nth i h 0) (nth i tau 0).
Proof.
  intros Hi Hh HG k. assert (E : nth i (fst (k_getVals k p tK h)) 0 = nth i h 0) by exact (get_tab n (get h) i Hi).
  rewrite <- E. apply (an_rates nl n P (fst (k_getVals k p tK h)) tau i Hi); [rewrite E; exact Hh|exact HG].
Qed.

(** A successful update of a material point stores the updated strengths after the lattice orientation; all are positive. *)
Theorem C59_point solver lu m dt tol d w vr pt pt' hs nl n P :
  m_kin m = aniso_kinetics hs (aniso_setParams nl n P) -> sg_nslip (m_sg m) = n -> pt_shapes m pt ->
  getResponseSngl solver lu m dt tol d w vr pt = (Done, pt') ->
  (exists nf, k_updateH (m_kin m) (sub (pt_hist pt) 13 n) dt (sub (pt_hist pt) (13 + n) n) = Some (sub (pt_hist pt') 13 n, nf)) /\
  (forall i, (i < n)%nat -> 0 < nth i (sub (pt_hist pt') 13 n) 0).
Proof. intros EK EN SH H. rewrite EK. exact (an_point solver lu m dt tol d w vr pt pt' hs nl n P EK EN SH H). Qed.
(** The class reports a single history variable, so a material model built on it rejects every parameter set. *)
Theorem C59_no_model hs nl c s opts pars strs : (2 <= c_nslip c)%nat -> fst (mm_init (aniso_class hs nl c) s opts pars strs) <> Done.
Proof. exact (an_init hs nl c s opts pars strs). Qed.
(** getParams gives back what setParams was given (linear law) *)
Theorem C59_params n P : length P = (8 + n)%nat -> aniso_getParams (aniso_setParams false n P) = P.
Proof. exact (an_getset n P). Qed.
(** The strength scale of the point is the mean of the strengths: they average to it and it lies between any bounds on them. *)
Theorem C59_scale hs nl n P p tK h : (0 < n)%nat ->
  let sc := snd (k_getVals (aniso_kinetics hs (aniso_setParams nl n P)) p tK h) in
  sc * INR n = fold_right Rplus 0 (map (fun i => nth i h 0) (seq 0 n)) /\
  forall lo hi, (forall i, (i < n)%nat -> lo <= nth i h 0 <= hi) -> lo <= sc <= hi.
Proof. exact (an_scale hs nl n P p tK h). Qed.
(** The number of parameters, and the one announced history variable: name, initial value (the last parameter), plotted, part of the state. *)
Theorem C59_info hs nl c P : c_kinNP (aniso_class hs nl c) = (8 + c_nslip c + if nl then 1 else 0)%nat /\
  (length P = (8 + c_nslip c + if nl then 1 else 0)%nat -> option_map snd (c_kinSet (aniso_class hs nl c) P) = Some [("h"%string, last P 0, true, true)]).
Proof. exact (an_info8 hs nl c P). Qed.

(** Twelve strengths in two families, one backward-Euler step: the strengths go from 1 to 4/3 and to 3/2, with saturation at 2. *)
Example C59_case : let hs := offer an_x in accurate hs /\ length an_g = 12%nat /\ 0 <= nth 3 an_P 0 /\ 0 < nth (6 + 12) an_P 0 /\
  k_updateH (aniso_kinetics hs (aniso_setParams false 12 an_P)) an_ho (/ 2) an_g = Some (an_h, 1%nat) /\ length an_P = (8 + 12)%nat /\
  shear_sum an_g = 2 /\ an_sat false 12 an_P 2 = 2 /\
  forall d w vr, exists sg, slipGeomFCC = Some sg /\ sg_nslip (m_sg (an_mat sg)) = 12%nat /\ pt_shapes (an_mat sg) an_pt /\
    exists pt', getResponseSngl echo noLU (an_mat sg) (/ 2) (/ 100) d w vr an_pt = (Done, pt').
Proof.
  cbv zeta. refine (conj (offer_accurate _) (conj eq_refl (conj _ (conj _ (conj an_update (conj eq_refl (conj an_shear (conj an_sat2 _)))))))); [cbn; lra|cbn; lra|].
  intros d w vr. exact (an_done d w vr).
Qed.
(** Two systems with exponent 2: from 3/4 to 1 and from 5/4 to 3/2. *)
Example C59_nonlinear_case : let hs := offer an2_x in accurate hs /\ length an2_g = 2%nat /\ 0 <= nth 3 an2_P 0 /\ 0 < nth (5 + 2) an2_P 0 /\ 0 < nth (7 + 2) an2_P 0 /\
  k_updateH (aniso_kinetics hs (aniso_setParams true 2 an2_P)) an2_ho (/ 2) an2_g = Some (an2_h, 1%nat) /\
  let sat := an_sat true 2 an2_P (shear_sum an2_g) in
  forall k, (k < 2)%nat -> nth (4 + k) an2_P 0 < sat /\ nth k an2_ho 0 < sat /\ nth k an2_h 0 < sat /\ nth k an2_ho 0 + nth k an2_x 0 * Rmax (nth k an2_ho 0) 1 < sat.
Proof.
  cbv zeta. refine (conj (offer_accurate _) (conj eq_refl (conj _ (conj _ (conj _ (conj an2_update _)))))); [cbn; lra|cbn; lra|cbn; lra|].
  rewrite an2_shear, an2_sat2. intros k Hk. destruct k as [|[|k]]; [| |lia]; cbn.
  - rewrite Rmax_right; lra.
  - rewrite Rmax_left; lra.
Qed.

Print Assumptions C59_many.
Print Assumptions C59_one.
Print Assumptions C59_update.
Print Assumptions C59_nonlinear.
Print Assumptions C59_jacobian.
Print Assumptions C59_rates.
Print Assumptions C59_point.
Print Assumptions C59_no_model.
Print Assumptions C59_scale.
Print Assumptions C59_info.
