(** Property theorems about exact solutions of a step: C74. End states and the equations are in SpecReach.v and SpecStep.v. *)
From Coq Require Import List ZArith Bool Lia Reals Lra.
From Verif Require Import Num NumR Hard MatModel Cases P_Api P_Builtin SpecTensor SpecElast SpecSlip SpecApi SpecKin SpecKinApi SpecStress SpecStep SpecEnergy SpecReach
  SpecKin P_Tensor P_Call P_Stress P_Demo P_Demo2 P_Demo3 P_Demo4 P_Rigid2 P_Rest P_Step2 P_Reach P_Reach2 P_Demo35.
Import ListNotations.
Local Open Scope R_scope.

(** ** C74. The code accepts every exact solution of the step equations, and every end state can be reached. *)
(** If end states solve the equations of the step exactly and the solver finds them, the call succeeds and ends in exactly these
    elastic strains, orientations and slip rates, and in the strengths of the hardening step. (C45 is the converse: what a successful call returns solves the equations.) *)
Theorem C74_accepts hs c s pars bs lu n dt m md sd h1 C0 law ref E1 xi : builtin hs c -> in_use c s pars -> mm_complete s = true ->
  batch_ok c s false n m -> systems hs c pars md sd -> pos_def (p_hooke c pars) -> 0 < dt -> 0 <= nth 2 pars 0 ->
  (forall i, (i < n)%nat -> startable hs c pars s m i dt (h1 i) (C0 i) (law i) (ref i) /\ exact_step c pars s m i dt md sd (C0 i) (law i) (E1 i) (xi i) /\
                            finds bs (step_x (dev_strain s m i) (E1 i) (xi i))) ->
  let b := call_of c s bs lu false n dt m in let m1 := b_m1 b in good hs c b /\ forall i, (i < n)%nat ->
    dev_strain s m1 i = E1 i /\ rotates (quat s m1 i) (mul3 (C0 i) (turn (xi i))) /\ strength s m1 i = h1 i /\
    (forall k, (k < c_nslip c)%nat -> val s m1 AH i (14 + k) = end_rate c pars s m i md sd (law i) (E1 i) k).
Proof.
  intros HB U HC HO HS HPD Hdt Htol HR b m1.
  assert (G : good hs c b) by exact (reach_good hs c s pars HB U HC bs lu n dt m HO md sd HS HPD Hdt Htol h1 C0 E1 law ref xi (fun i Hi => proj1 (HR i Hi))
    (fun i Hi => proj1 (proj2 (HR i Hi))) (fun i Hi => proj2 (proj2 (HR i Hi)))).
  split; [exact G|]. intros i Hi. destruct (HR i Hi) as (H1 & H2 & H3).
  destruct (reach_state hs c b i pars G Hi U md sd HS Hdt Htol (h1 i) (C0 i) (E1 i) (law i) (ref i) (xi i) H1 H2 H3) as (A1 & A2 & A3 & A4).
  refine (conj A2 (conj _ (conj A1 A4))). rewrite <- A3. apply rotq_rotates. reflexivity.
Qed.
(** For any elastic strain and lattice rotation there is a deformation rate without volume change and a spin which make them the exact
    solution of the step. *)
Theorem C74_reachable hs c s pars dt m md sd i h1 C0 law ref E1 xi : builtin hs c -> in_use c s pars -> systems hs c pars md sd -> dt <> 0 ->
  startable hs c pars s m i dt h1 C0 law ref -> is_dev E1 ->
  exists D w, is_dev D /\ forall m', (forall x, x <> AD -> x <> AW -> m' x = m x) -> devRate s m' i = D -> spin s m' i = w ->
    startable hs c pars s m' i dt h1 C0 law ref /\ exact_step c pars s m' i dt md sd C0 law E1 xi.
Proof.
  intros HB U HS Hdt HR HE. pose proof HR as (_ & _ & Q & _ & HC & _).
  destruct (in_use_all hs c s pars HB U) as (_ & HL & _ & sg & kin & hi & E1s & _).
  destruct (systems_data hs c pars md sd sg HS HL E1s) as [_ [SL _]].
  assert (HO : forall k, (k < c_nslip c)%nat -> dotv (md k) (sd k) = 0) by (intros k Hk; apply (SL k Hk)).
  destruct (load_inputs c pars s m i dt md sd C0 E1 law xi Q HC HE HO) as (D & w & HD & ED & EW). exists D, w. split; [exact HD|].
  intros m' HM E2 E3. split; [exact (load_startable hs c pars s m m' i dt C0 law ref HM h1 HR)|].
  apply (load_exact c pars s m m' i dt md sd C0 E1 law xi HM Hdt Q HC HE HO); [now rewrite E2|now rewrite E3].
Qed.
(** The deformation rate and the spin that lead to an end state are unique. *)
Theorem C74_determined hs c s pars dt m m' md sd i h1 C0 law ref E1 xi : dt <> 0 -> startable hs c pars s m i dt h1 C0 law ref ->
  (forall x, x <> AD -> x <> AW -> m' x = m x) ->
  exact_step c pars s m i dt md sd C0 law E1 xi -> exact_step c pars s m' i dt md sd C0 law E1 xi ->
  devRate s m i = devRate s m' i /\ spin s m i = spin s m' i.
Proof. intros Hdt (_ & _ & Q & _ & HC & _) HM. exact (load_det c pars s m m' i dt md sd C0 E1 law xi HM Hdt Q HC). Qed.
(** an FCC crystal whose first system ends loaded and slipping, while the lattice turns *)
Example C74_case : let c := d35_c in let s := d35_s in
  builtin checked c /\ in_use c s demo_pars /\ mm_complete s = true /\ batch_ok c s false 1 d35_m /\ systems checked c demo_pars d35_md d35_sd /\
  pos_def (p_hooke c demo_pars) /\ 0 <= nth 2 demo_pars 0 /\ startable checked c demo_pars s d35_m 0 (/ 10) d35_h d35_C d35_law d35_ref /\
  exact_step c demo_pars s d35_m 0 (/ 10) d35_md d35_sd d35_C d35_law d35_E d35_xi /\
  finds (b_solver d35_call) (step_x (dev_strain s d35_m 0) d35_E d35_xi) /\ good checked c d35_call /\
  accurate (b_solver d35_call) /\ last_at_answer (b_solver d35_call) /\ val s (b_m1 d35_call) AH 0 14 <> 0.
Proof.
  intros c s.
  assert (H1 : startable checked c demo_pars s d35_m 0 (/ 10) d35_h d35_C d35_law d35_ref) by exact (load_startable _ _ _ _ _ _ _ _ _ _ _ d35_same _ d35_start).
  assert (A0 : 0 <= nth 2 demo_pars 0) by (cbn; lra). assert (A1 : 0 < / 10) by lra.
  destruct (C74_accepts checked c s demo_pars (b_solver d35_call) noLU 1 (/ 10) d35_m d35_md d35_sd (fun _ => d35_h) (fun _ => d35_C) (fun _ => d35_law) (fun _ => d35_ref) (fun _ => d35_E) (fun _ => d35_xi)
    (d2_builtin checked) (d2_in_use checked) (d2_complete checked) d35_batch d35_systems (d4_pd checked) A1 A0) as [G R].
  { intros i Hi. assert (i = 0%nat) by lia. subst i. exact (conj H1 (conj d35_exact d35_finds)). }
  destruct (R 0%nat (le_n 1)) as (_ & _ & _ & S). pose proof (S 0%nat ltac:(cbn; lia)) as S0.
  refine (conj (d2_builtin checked) (conj (d2_in_use checked) (conj (d2_complete checked) (conj d35_batch (conj d35_systems (conj (d4_pd checked) (
    (conj A0 (conj H1 (conj d35_exact (conj d35_finds (conj G (conj (offer_accurate _) (conj (offer_last _) _)))))))))))))).
  intros Z. apply d35_slips. etransitivity; [|exact Z]. symmetry. exact S0.
Qed.
(** an FCC crystal that slipped in the step before and hardens *)
Example C74_hardening_case : let c := P_Demo2.d2_c d36_hs in
  builtin d36_hs c /\ in_use c d36_s demo_pars /\ val d36_s d36_m AH 0 14 <> 0 /\ strength d36_s d36_m 0 = 1 /\
  startable d36_hs c demo_pars d36_s d36_m 0 1 (3004 / 3001) (rotq (unit4 (quat d36_s d36_m 0))) (fun _ => voce_law 1 (/ 10) (3004 / 3001)) 1.
Proof.
  refine (conj (d2_builtin _) (conj (d2_in_use _) (conj _ (conj _ d36_start)))).
  - unfold val, d36_s. rewrite d2_strides. cbn. lra.
  - unfold strength, val, d36_s. rewrite d2_strides. reflexivity.
Qed.

Print Assumptions C74_accepts.
Print Assumptions C74_reachable.
Print Assumptions C74_determined.
