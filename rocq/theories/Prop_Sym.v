(** C22: crystallographically equivalent orientations of a cubic or hexagonal crystal give the same response. *)
From Coq Require Import List ZArith Bool Lia Reals Lra.
From Verif Require Import Num NumR Hard MatModel Cases SpecTensor SpecElast SpecSlip SpecApi SpecStress SpecStep SpecKinApi SpecJac SpecFrame SpecSym
  P_Api P_Builtin P_Demo P_Demo2 P_Demo4 P_Demo10 P_Demo11 P_Jac3 P_Sym5 P_SymH P_Sym9 P_Sym10 P_Demo16 SpecTrust P_Trust P_Trust2 P_Tiny
  SpecTan SpecSym2 P_Demo3 P_Lu P_Demo6 P_Demo7 P_Sym13 P_Demo23.
Import ListNotations.
Local Open Scope R_scope.

(** Every rotation of the cube takes the slip systems of FCC, and those of BCC (12, 24 or 48), to slip systems of the same
    set, up to the sign of the slip direction. *)
Theorem C22_systems S : cubic_rot S -> forall t, t = sys_fcc \/ t = sys_bcc 12 \/ t = sys_bcc 24 \/ t = sys_bcc 48 ->
  exists sg ep, matches (List.length t) S sg ep (fun i => unitv (cub (fst (nth i t d3)))) (fun i => unitv (cub (snd (nth i t d3)))).
Proof. exact (all_match S). Qed.
(** So it does for the slip systems of the six cubic models of the library. *)
Theorem C22_class_systems hs c pars md sd S : builtin hs c -> c <> cls_HCP_A hs -> systems hs c pars md sd -> cubic_rot S ->
  exists sg ep, matches (c_nslip c) S sg ep md sd.
Proof. intros HB HC HS. exact (class_match hs c pars md sd S HB HC HS). Qed.

(** Every rotation of the hexagonal lattice takes the 24 slip systems of the hexagonal model to slip systems of the same
    family, for every ratio c/a. *)
Theorem C22_hex_systems hs c pars md sd S : c = cls_HCP_A hs -> systems hs c pars md sd -> hex_rot S -> families_alike c pars ->
  exists sg ep, matches (c_nslip c) S sg ep md sd /\ lattice_rot hs c pars S sg.
Proof. exact (class_match_hex hs c pars md sd S). Qed.

(** Two successful calls of a model whose points [i] and [i'] describe the same crystal by the orientations C and CS,
    S a rotation of the lattice: of the cube for the cubic models; of the hexagonal lattice for the hexagonal model, with the
    same constants for the slip systems of a family ([equivalent_in], [lattice_rot]).  The systems of equations [f] and [f'] that the two calls solve are the same
    system in different orthonormal coordinates; and if the solver does not depend on the choice of such coordinates, the
    results describe the same crystal again ([equivalent_out]): same stress, energy, pressure, temperature, moduli,
    strength, shear rate, shear, flow strength and evaluation count; lattice orientation, elastic strain and slip rates
    correspond.  Not covered: solvers that depend on the coordinates, and runs that evaluate rotation increments that are not
    zero but at most 1e-90 ([off_tiny]), where the code turns about a fixed axis. *)
Theorem C22_call_partial hs c pars b b' i i' S sg ep md sd law ref ok : good hs c b -> good hs c b' -> in_use c (b_s b) pars -> in_use c (b_s b') pars ->
  (i < b_n b)%nat -> (i' < b_n b')%nat -> same_setting b b' -> systems hs c pars md sd ->
  smooth_law hs c pars (tKel (b_s b) (b_m1 b) i) (strength (b_s b) (b_m1 b) i) law ref ok ->
  lattice_rot hs c pars S sg -> matches (c_nslip c) S sg ep md sd -> equivalent_in c S sg ep b i b' i' ->
  0 < vNew (b_s b) (b_m b) i -> 0 < b_dt b -> trace (devRate (b_s b) (b_m b) i) = 0 ->
  norm2 (quat (b_s b) (b_m b) i) <> 0 -> norm2 (quat (b_s b') (b_m b') i') <> 0 ->
  exists (f f' : list R -> list R * list R) (C0 : M3),
    let tol := nth 2 pars 0 in let x0 := [0; 0; 0; 0; 0; 0; 0; 0] in
    let r := b_solver b 8%nat f tol 200%nat x0 in let r' := b_solver b 8%nat f' tol 200%nat x0 in
    rotates (unit4 (quat (b_s b) (b_m b) i)) C0 /\ rotates (unit4 (quat (b_s b') (b_m b') i')) (mul3 C0 S) /\
    (forall x, fst (f x) = trial_eqs c pars b i md sd law ref C0 x) /\
    (forall x, fst (f' x) = trial_eqs c pars b' i' md sd law ref (mul3 C0 S) x) /\
    dev_strain (b_s b) (b_m1 b) i = trial_strain (dev_strain (b_s b) (b_m b) i) (so_x r) /\
    dev_strain (b_s b') (b_m1 b') i' = trial_strain (dev_strain (b_s b') (b_m b') i') (so_x r') /\
    (forall x, List.length x = 8%nat -> off_tiny x -> related_at 8 (sym_map S) f f' x) /\
    (coordinate_free (b_solver b) -> stays_in (b_solver b) 8 f' off_tiny tol 200 x0 -> off_tiny (so_x r) ->
     equivalent_out c S sg ep b i b' i').
Proof.
  intros G G' U U' Hi Hi' HST HSys HL HS HM HT Hv Hdt Htr Hq Hq'.
  exact (sym_all hs c pars b b' i i' S sg ep md sd law ref ok G G' U U' Hi Hi' (proj2 HST) HSys HL HS HM HT Hv Hdt Htr Hq Hq' (proj1 HST)).
Qed.

(** Whatever the solvers of the two calls are: a point and the corresponding point leave residuals of the same length, so
    that one is as good an answer as the other; and when the solvers answer with corresponding points, the results describe
    the same crystal. *)
Theorem C22_answers hs c pars b b' i i' S sg ep md sd law ref ok : good hs c b -> good hs c b' -> in_use c (b_s b) pars -> in_use c (b_s b') pars ->
  (i < b_n b)%nat -> (i' < b_n b')%nat -> same_step b b' -> systems hs c pars md sd ->
  smooth_law hs c pars (tKel (b_s b) (b_m1 b) i) (strength (b_s b) (b_m1 b) i) law ref ok ->
  lattice_rot hs c pars S sg -> matches (c_nslip c) S sg ep md sd -> equivalent_in c S sg ep b i b' i' ->
  0 < vNew (b_s b) (b_m b) i -> 0 < b_dt b -> trace (devRate (b_s b) (b_m b) i) = 0 ->
  norm2 (quat (b_s b) (b_m b) i) <> 0 -> norm2 (quat (b_s b') (b_m b') i') <> 0 ->
  exists (f f' : list R -> list R * list R) (C0 : M3),
    let tol := nth 2 pars 0 in let x0 := [0; 0; 0; 0; 0; 0; 0; 0] in
    let r := b_solver b 8%nat f tol 200%nat x0 in let r' := b_solver b' 8%nat f' tol 200%nat x0 in
    rotates (unit4 (quat (b_s b) (b_m b) i)) C0 /\ rotates (unit4 (quat (b_s b') (b_m b') i')) (mul3 C0 S) /\
    (forall x, fst (f x) = trial_eqs c pars b i md sd law ref C0 x) /\
    (forall x, fst (f' x) = trial_eqs c pars b' i' md sd law ref (mul3 C0 S) x) /\
    dev_strain (b_s b) (b_m1 b) i = trial_strain (dev_strain (b_s b) (b_m b) i) (so_x r) /\
    dev_strain (b_s b') (b_m1 b') i' = trial_strain (dev_strain (b_s b') (b_m b') i') (so_x r') /\
    (forall x, List.length x = 8%nat -> off_tiny x -> norm2 (fst (f' (sym_map S x))) = norm2 (fst (f x))) /\
    (answers_correspond S r r' -> equivalent_out c S sg ep b i b' i').
Proof.
  intros G G' U U' Hi Hi' HST HSys HL HS HM HT Hv Hdt Htr Hq Hq'.
  exact (sym_ans hs c pars b b' i i' S sg ep md sd law ref ok G G' U U' Hi Hi' HST HSys HL HS HM HT Hv Hdt Htr Hq Hq').
Qed.

(** The exception is real: with answers that correspond and turn the lattice by more than nothing and at most 1e-90, two calls on the
    same crystal leave orientations that are not equivalent. *)
Theorem C22_tiny_refuted : exists hs c b b' S x, good hs c b /\ good hs c b' /\ same_step b b' /\ c <> cls_HCP_A hs /\ cubic_rot S /\
  (forall sg ep, equivalent_in c S sg ep b 0 b' 0) /\
  (forall n f tol it x0, b_solver b n f tol it x0 = {| so_converged := true; so_x := x; so_xlast := x; so_nfev := 1; so_nfev_rj := 1 |} /\
     b_solver b' n f tol it x0 = {| so_converged := true; so_x := sym_map S x; so_xlast := sym_map S x; so_nfev := 1; so_nfev_rj := 1 |}) /\
  0 < norm3 (trial_rot x) <= / 10 ^ 90 /\ forall sg ep, ~ equivalent_out c S sg ep b 0 b' 0.
Proof.
  exists checked, (d2_c checked), t_b, t_b', d11_S, t_x. split; [exact (fixed_good t_x d10_m (d10_batch checked) (d10_slow checked))|].
  split; [exact (fixed_good (sym_map d11_S t_x) d11_m (d11_batch checked) d11_slow)|]. split; [split; reflexivity|].
  split; [intros E; apply (f_equal c_nslip) in E; vm_compute in E; discriminate|]. split; [exact d11_cubic|]. split; [exact t_equiv|].
  split; [intros n f tol it x0; split; reflexivity|]. split; [exact t_range|exact t_differ].
Qed.

(** Newton's method that stops on the root mean square of the residual, with exact linear solves, is such a solver; so are
    damped fixed-point iteration and accepting or rejecting the starting point. *)
Theorem C22_newton ls : exact_solve ls -> coordinate_free (newton ls).
Proof. exact (newton_cf ls). Qed.
Theorem C22_damped w : coordinate_free (damped w).
Proof. exact (damped_cf w). Qed.

(** Every trust region solver with dogleg steps ([trust]), whatever its rules for the size of the region, for rejecting trial points, for
    placing the step and for stopping, as long as they look at lengths and inner products of residual, gradient and Newton step. *)
Theorem C22_trust A small choose judge ls a0 : exact_solve ls -> coordinate_free (trust A small choose judge ls a0).
Proof. intros H. exact (trust_cf A small choose judge ls H a0). Qed.
(** Powell's dogleg is one; here it takes a step cut at the border of the trust region and then a Newton step. *)
Example C22_trust_case : (exists ls, exact_solve ls) /\ forall ls, exact_solve ls -> coordinate_free (powell ls 4) /\
  powell ls 4 2%nat tr_f (/ 10) 5%nat [0; 0] = {| so_converged := true; so_x := [3; 4]; so_xlast := [3; 4]; so_nfev := 3; so_nfev_rj := 3 |}.
Proof. split; [exists the_ls; exact the_ls_exact|]. intros ls H. split; [exact (C22_trust R small_norm powell_choose powell_judge ls 4 H)|exact (tr_run ls H)]. Qed.

(** A slowly deforming FCC crystal and the same crystal with its axes relabelled by a quarter turn. *)
Example C22_case : let c := d2_c checked in let b := d11_b in let b' := d11_b' in exists sg ep,
  good checked c b /\ good checked c b' /\ same_setting b b' /\ cubic_rot d11_S /\ d11_S <> I3 /\
  devRate (b_s b) (b_m b) 0 <> Z3 /\ equivalent_in c d11_S sg ep b 0 b' 0 /\ equivalent_out c d11_S sg ep b 0 b' 0.
Proof.
  intros c b b'. destruct d11_good as [G G'].
  set (md := fun i => unitv (cub (fst (nth i sys_fcc d3)))). set (sd := fun i => unitv (cub (snd (nth i sys_fcc d3)))).
  assert (HC : c <> cls_HCP_A checked) by (intros E; apply (f_equal c_nslip) in E; vm_compute in E; discriminate).
  assert (A2 : systems checked c demo_pars md sd) by (apply sys_F; now left).
  destruct (C22_class_systems checked c demo_pars md sd d11_S (d2_builtin checked) HC A2 d11_cubic) as (sg & ep & HM).
  exists sg, ep. pose proof (d11_equiv sg ep) as HT. fold c b b' in G, G', HT.
  destruct (d10_slow checked) as (A & B & C & D & E & F & HU & W & L). destruct d11_slow as (_ & _ & _ & _ & E' & _).
  assert (HST : same_setting b b') by (repeat split).
  refine (conj G (conj G' (conj HST (conj d11_cubic (conj _ (conj _ (conj HT _))))))).
  { intros X. apply (f_equal a00) in X. cbn in X. lra. }
  { pose proof (d10_norm checked) as [_ N]. intros X. change (devRate (d2_s checked) d10_m 0 = Z3) in X. rewrite X in N.
    unfold norm3t in N. replace (inner Z3 Z3) with 0 in N by (unfold inner, Z3; cbn; ring). rewrite sqrt_0 in N. lra. }
  assert (HL : exists law ref ok, smooth_law checked c demo_pars (tKel (b_s b) (b_m1 b) 0) (strength (b_s b) (b_m1 b) 0) law ref ok).
  { do 3 eexists. apply sm_V; [now left| |]; cbn; lra. }
  destruct HL as (law & ref & ok & HL). assert (A1 : 0 < / 10) by lra.
  destruct (C22_call_partial checked c demo_pars b b' 0 0 d11_S sg ep md sd law ref ok G G' (d2_in_use checked) (d2_in_use checked) ltac:(cbn; lia) ltac:(cbn; lia)
    HST A2 HL (or_introl (conj HC d11_cubic)) HM HT D A1 A E E') as (f & f' & C0 & H). cbv zeta in H. destruct H as (_ & _ & _ & _ & _ & _ & _ & H).
  apply H; [exact start_cf|apply start_stays|].
  change (b_solver b) with at_start. rewrite (proj1 (start_x _ _ _ _ _)).
  left. unfold trial_rot, scalv, norm3, dotv. cbn [nth v0 v1 v2]. transitivity (sqrt 0); [f_equal; ring|apply sqrt_0].
Qed.
(** A slowly deforming hexagonal crystal, and the same crystal turned by a sixth of a turn about its c axis. *)
Example C22_hex_case : let c := d16_c in let b := d16_b in let b' := d16_b' in exists sg ep,
  good checked c b /\ good checked c b' /\ same_setting b b' /\ lattice_rot checked c d16_pars d16_S sg /\ d16_S <> I3 /\
  devRate (b_s b) (b_m b) 0 <> Z3 /\ equivalent_in c d16_S sg ep b 0 b' 0 /\ equivalent_out c d16_S sg ep b 0 b' 0.
Proof.
  intros c b b'. destruct d16_good as [G G'].
  destruct d16_systems as (md & sd & A2).
  destruct (C22_hex_systems checked c d16_pars md sd d16_S eq_refl A2 d16_hex d16_alike) as (sg & ep & HM & HR).
  exists sg, ep. pose proof (d16_equiv sg ep) as HT. fold c b b' in G, G', HT.
  destruct d16_qn as [N N'].
  destruct (d16_slow [1; 2; 0; 0] eq_refl N) as (A & B & C & D & E & F & HU & W & L). destruct (d16_slow [sqrt 3; 2 * sqrt 3; -2; 1] eq_refl N') as (_ & _ & _ & _ & E' & _).
  assert (HST : same_setting b b') by (repeat split).
  refine (conj G (conj G' (conj HST (conj HR (conj _ (conj _ (conj HT _))))))).
  { intros X. apply (f_equal a00) in X. cbn in X. lra. }
  { intros X. apply (f_equal a22) in X. change (val d16_s (d16_m0 [1; 2; 0; 0]) AD 0 2 = 0) in X. rewrite d16_val in X. cbn in X. pose proof d10_pos. lra. }
  assert (HL : exists law ref ok, smooth_law checked c d16_pars (tKel (b_s b) (b_m1 b) 0) (strength (b_s b) (b_m1 b) 0) law ref ok).
  { exact d16_smooth. }
  destruct HL as (law & ref & ok & HL). assert (A1 : 0 < / 10) by lra.
  destruct (C22_call_partial checked c d16_pars b b' 0 0 d16_S sg ep md sd law ref ok G G' d16_in_use d16_in_use ltac:(cbn; lia) ltac:(cbn; lia)
    HST A2 HL HR HM HT D A1 A E E') as (f & f' & C0 & H). cbv zeta in H. destruct H as (_ & _ & _ & _ & _ & _ & _ & H).
  apply H; [exact start_cf|apply start_stays|].
  change (b_solver b) with at_start. rewrite (proj1 (start_x _ _ _ _ _)).
  left. unfold trial_rot, scalv, norm3, dotv. cbn [nth v0 v1 v2]. transitivity (sqrt 0); [f_equal; ring|apply sqrt_0].
Qed.
(** When the solver gives corresponding answers and the linear solver is exact, the two calls report the same tangent, entry by entry: the tangent
    is in the frame of the sample, which the choice between equivalent orientations does not touch. *)
Theorem C22_tangent hs c pars b b' i i' S sg ep md sd law ref ok :
  good hs c b -> good hs c b' -> in_use c (b_s b) pars -> in_use c (b_s b') pars -> (i < b_n b)%nat -> (i' < b_n b')%nat -> same_step b b' ->
  systems hs c pars md sd -> smooth_law hs c pars (tKel (b_s b) (b_m1 b) i) (strength (b_s b) (b_m1 b) i) law ref ok ->
  lattice_rot hs c pars S sg -> matches (c_nslip c) S sg ep md sd -> equivalent_in c S sg ep b i b' i' ->
  0 < vNew (b_s b) (b_m b) i -> 0 < b_dt b -> trace (devRate (b_s b) (b_m b) i) = 0 ->
  norm2 (quat (b_s b) (b_m b) i) <> 0 -> norm2 (quat (b_s b') (b_m b') i') <> 0 ->
  exists (f f' : list R -> list R * list R) (C0 : M3),
    let tol := nth 2 pars 0 in let x0 := [0; 0; 0; 0; 0; 0; 0; 0] in let r := b_solver b 8%nat f tol 200%nat x0 in let r' := b_solver b' 8%nat f' tol 200%nat x0 in
    rotates (unit4 (quat (b_s b) (b_m b) i)) C0 /\ rotates (unit4 (quat (b_s b') (b_m b') i')) (mul3 C0 S) /\
    (forall x, fst (f x) = trial_eqs c pars b i md sd law ref C0 x) /\
    (forall x, fst (f' x) = trial_eqs c pars b' i' md sd law ref (mul3 C0 S) x) /\
    (forall x, List.length x = 8%nat -> off_tiny x -> related_at 8 (sym_map S) f f' x) /\
    (answers_correspond S r r' -> b_mtan b = true -> solves_exactly (b_lu b) -> solves_exactly (b_lu b') ->
     forall j k, (j < 6)%nat -> (k < 6)%nat -> tangent (b_s b') (b_m1 b') i' j k = tangent (b_s b) (b_m1 b) i j k).
Proof. exact (sym_tan hs c pars b b' i i' S sg ep md sd law ref ok). Qed.
(** A call succeeds when each of its points describes, in an equivalent orientation, a point of a successful call, and its solvers follow those
    of that call ([follows], [lu_follows]). *)
Theorem C22_success hs c pars b s' sv' lu' n' m' :
  let b' := call_of c s' sv' lu' (b_mtan b) n' (b_dt b) m' in
  good hs c b -> in_use c (b_s b) pars -> in_use c s' pars -> mm_complete s' = true -> batch_ok c s' (b_mtan b) n' m' -> 0 < b_dt b -> (0 < n')%nat ->
  (forall i', (i' < n')%nat -> exists i S sg ep md sd law ref ok, (i < b_n b)%nat /\ systems hs c pars md sd /\
    smooth_law hs c pars (tKel (b_s b) (b_m1 b) i) (strength (b_s b) (b_m1 b) i) law ref ok /\
    lattice_rot hs c pars S sg /\ matches (c_nslip c) S sg ep md sd /\ equivalent_in c S sg ep b i b' i' /\
    0 < vNew (b_s b) (b_m b) i /\ trace (devRate (b_s b) (b_m b) i) = 0 /\ norm2 (quat (b_s b) (b_m b) i) <> 0 /\ norm2 (quat s' m' i') <> 0 /\
    follows c pars b i S md sd law ref sv' /\ (b_mtan b = true -> lu_follows S (b_lu b) lu')) ->
  good hs c b'.
Proof. exact (sym_succeeds hs c pars b s' sv' lu' n' m'). Qed.
(** A spinning crystal, and the same crystal by the axes turned a third of a turn about (1,1,1): both calls succeed and report the same tangent. *)
Example C22_tangent_case : let c := d2_c checked in let b := d23_b in let b' := d23_b' in exists sg ep,
  good checked c b /\ good checked c b' /\ cubic_rot d7_Q /\ equivalent_in c d7_Q sg ep b 0 b' 0 /\ d23_x <> [0; 0; 0; 0; 0; 0; 0; 50] /\
  b_mtan b = true /\ solves_exactly (b_lu b) /\ solves_exactly (b_lu b') /\
  forall j k, (j < 6)%nat -> (k < 6)%nat -> tangent (b_s b') (b_m1 b') 0 j k = tangent (b_s b) (b_m1 b) 0 j k.
Proof.
  intros c b b'.
  assert (G : good checked c b) by exact (d6_good true).
  assert (U : in_use c (b_s b) demo_pars) by exact (d2_in_use checked).
  set (md := fun i => unitv (cub (fst (nth i sys_fcc d3)))). set (sd := fun i => unitv (cub (snd (nth i sys_fcc d3)))).
  assert (HC : c <> cls_HCP_A checked) by (intros E; apply (f_equal c_nslip) in E; vm_compute in E; discriminate).
  assert (A2 : systems checked c demo_pars md sd) by (apply sys_F; now left).
  destruct (C22_class_systems checked c demo_pars md sd d7_Q (d2_builtin checked) HC A2 d23_cubic) as (sg & ep & HM).
  exists sg, ep. pose proof (d23_equiv sg ep) as HT.
  assert (HR : lattice_rot checked c demo_pars d7_Q sg) by exact (or_introl (conj HC d23_cubic)).
  assert (HL : exists law ref ok, smooth_law checked c demo_pars (tKel (b_s b) (b_m1 b) 0) (strength (b_s b) (b_m1 b) 0) law ref ok).
  { do 3 eexists. apply sm_V; [now left| |]; cbn; lra. }
  destruct HL as (law & ref & ok & HL).
  assert (A1 : 0 < b_dt b) by (change (0 < / 10); lra).
  assert (V : 0 < vNew (b_s b) (b_m b) 0) by (unfold vNew, val; change (b_s b) with (d2_s checked); rewrite d2_strides; cbn; lra).
  assert (Q : norm2 (quat (b_s b) (b_m b) 0) <> 0) by (change (norm2 (quat (d2_s checked) d6_m 0) <> 0); rewrite d6_quat; cbn; lra).
  assert (Q' : norm2 (quat (b_s b') (b_m b') 0) <> 0) by (change (norm2 (quat (d2_s checked) d23_m 0) <> 0); rewrite d23_quat; cbn; lra).
  assert (G' : good checked c b').
  { refine (C22_success checked c demo_pars b (d2_s checked) d23_solver d23_lu 1%nat d23_m G U U (d2_complete checked) d23_batch A1 ltac:(lia) _).
    intros i Hi. assert (i = 0%nat) by lia. subst i. exists 0%nat, d7_Q, sg, ep, md, sd, law, ref, ok.
    exact (conj Hi (conj A2 (conj HL (conj HR (conj HM (conj HT (conj V (conj (d6_trace true) (conj Q (conj Q' (conj (d23_follows md sd law ref) (fun _ => lu_turn d7_Q _ (proj1 (proj1 d23_cubic)))))))))))))). }
  assert (I1 : (0 < b_n b)%nat) by (cbn; lia). assert (I2 : (0 < b_n b')%nat) by (cbn; lia).
  refine (conj G (conj G' (conj d23_cubic (conj HT (conj d23_turns (conj eq_refl (conj (lu_by_exact _) (conj (lu_by_exact _) _)))))))).
  destruct (C22_tangent checked c demo_pars b b' 0 0 d7_Q sg ep md sd law ref ok G G' U U I1 I2 (conj eq_refl eq_refl) A2 HL HR HM HT V A1 (d6_trace true) Q Q') as (f & f' & C0 & H).
  cbv zeta in H. destruct H as (_ & _ & _ & _ & _ & H). apply H; [|reflexivity|apply lu_by_exact|apply lu_by_exact].
  exact (d23_corr f f' _ _ _).
Qed.

Print Assumptions C22_systems.
Print Assumptions C22_class_systems.
Print Assumptions C22_hex_systems.
Print Assumptions C22_call_partial.
Print Assumptions C22_answers.
Print Assumptions C22_newton.
Print Assumptions C22_tiny_refuted.
Print Assumptions C22_damped.
Print Assumptions C22_trust.
Print Assumptions C22_case.
Print Assumptions C22_hex_case.
Print Assumptions C22_tangent.
Print Assumptions C22_success.
Print Assumptions C22_tangent_case.
