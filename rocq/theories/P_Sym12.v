(** Two equivalent orientations: tangents of whole calls, and success (C22). *)
From Coq Require Import List ZArith Bool Lia PeanoNat Reals Lra.
From Verif Require Import P_Demo.
From Verif Require Import Num Arr NumR Util SlipGeom Eos Hard KinVoce KinKMBalD Elast Evptn MatModel Cases SpecTensor
  SpecElast SpecSlip P_Tensor P_Elast P_Eos P_Sngl P_Sngl2 P_Sngl3 P_Batch P_Batch2 P_Batch3 P_Batch4 P_Api P_Builtin SpecApi P_Hist SpecStress P_Stress
  SpecKin SpecKinApi SpecStep P_KinV P_Kin4 P_Call P_Slip P_SlipH P_Step P_Step2 P_Energy P_Rigid3 P_Demo3 P_Deriv P_Jac P_Jac2 SpecJac P_Jac3 SpecFrame P_Frame P_Frame2 P_Frame3
  SpecSym P_Sym P_Sym1 P_Sym2 P_Sym3 P_Sym4 P_SymH P_Sym5 P_Sym6 P_Sym7 P_Sym8
  SpecTan P_Tan P_Frame4 P_Frame5 P_Demo6 P_Sym11.
Import ListNotations.
Local Open Scope R_scope.

(** the matrix of the linear system of the tangent in the other coordinates *)
Lemma jac0_sym p q sg ep x u : sym_ok p q sg ep -> List.length x = 8%nat -> off_tiny x -> List.length u = 8%nat ->
  mv 8 (jacobian0 (sym_prob q p) (evalEv (sym_prob q p) (sym_map (rotq q) x))) (sym_map (rotq q) u) = sym_map (rotq q) (mv 8 (jacobian0 p (evalEv p x)) u).
Proof.
  intros HH Lx Ho Lu. pose proof (so_orth p q sg ep HH) as OS. assert (SO : off (toV3 (ev_xi (evalEv p x)))) by (rewrite xi_trial by exact Lx; exact Ho).
  destruct HH. set (y := tab 8 (fun k => get u k / sc k)). assert (Ly : List.length y = 8%nat) by reflexivity.
  assert (EY : forall k, (k < 8)%nat -> sc k * get y k = get u k) by (intros k Hk; unfold y; rewrite get_tab by exact Hk; field; apply sc_pos).
  assert (ES : forall k, (k < 8)%nat -> get (sym_map (rotq q) u) k = sc k * get (sym_map (rotq q) y) k).
  { intros k Hk. destruct (Nat.lt_ge_cases k 5) as [L|L].
    - rewrite !get_map5 by assumption. rewrite <- rm_scal. apply rm_ext. intros j Hj. rewrite <- EY by lia. f_equal. unfold sc. apply Nat.ltb_lt in L, Hj. rewrite L, Hj. reflexivity.
    - replace k with (5 + (k - 5))%nat by lia. assert (L3 : (k - 5 < 3)%nat) by lia. rewrite !get_map3 by assumption. rewrite <- rm_scal. apply rm_ext. intros j Hj. rewrite <- EY by lia. reflexivity. }
  apply map_ext8; [exact OS|reflexivity|reflexivity| |].
  - intros i Hi. rewrite mv_get by lia.
    rewrite (sum_ext 8 _ (fun j => get2 8 (jacobian0 (sym_prob q p) (evalEv (sym_prob q p) (sym_map (rotq q) x))) i j * (sc j * get (sym_map (rotq q) y) j))) by (intros j Hj; rewrite ES by exact Hj; reflexivity).
    refine (eq_trans (act5 p q sg ep y_Lq y_Nq y_HQ y_Ld y_Lw y_Le y_sg y_ep y_HP y_HK y_hex y_law x Lx SO y Ly i Hi) _).
    apply rm_ext. intros j Hj. rewrite mv_get by lia. apply sum_ext. intros k Hk. rewrite EY by exact Hk. reflexivity.
  - intros i Hi. rewrite mv_get by lia.
    rewrite (sum_ext 8 _ (fun j => get2 8 (jacobian0 (sym_prob q p) (evalEv (sym_prob q p) (sym_map (rotq q) x))) (5 + i) j * (sc j * get (sym_map (rotq q) y) j))) by (intros j Hj; rewrite ES by exact Hj; reflexivity).
    refine (eq_trans (act3 p q sg ep y_Lq y_Nq y_HQ y_Ld y_Lw y_Le y_sg y_ep y_HP y_HW y_HK y_hex y_law x Lx SO y Ly i Hi) _).
    apply rm_ext. intros j Hj. rewrite mv_get by lia. apply sum_ext. intros k Hk. rewrite EY by exact Hk. reflexivity.
Qed.

(** a stiffness is known from what it does with six strains *)
Lemma stiff_entries K K' : (forall E, is_sym E -> stiff K E = stiff K' E) -> forall r q, (r < 6)%nat -> (q < 6)%nat -> K r q = K' r q.
Proof.
  intros H.
  assert (P : forall E r, is_sym E -> (r < 6)%nat -> fold_right Rplus 0 (map (fun q => K r q * nth q (eng E) 0) [0; 1; 2; 3; 4; 5]%nat) = fold_right Rplus 0 (map (fun q => K' r q * nth q (eng E) 0) [0; 1; 2; 3; 4; 5]%nat)).
  { intros E r HE Hr. specialize (H E HE). unfold stiff in H. set (f := fun r => fold_right Rplus 0 (map (fun q => K r q * nth q (eng E) 0) [0; 1; 2; 3; 4; 5]%nat)) in *.
    set (g := fun r => fold_right Rplus 0 (map (fun q => K' r q * nth q (eng E) 0) [0; 1; 2; 3; 4; 5]%nat)) in *. change (f r = g r). clearbody f g. unfold sym6 in H.
    injection H. intros. do 6 (destruct r as [|r]; [assumption|]). lia. }
  clear H. intros r q Hr Hq.
  pose proof (P (mk3 1 0 0 0 0 0 0 0 0) r eq_refl Hr) as P0. pose proof (P (mk3 0 0 0 0 1 0 0 0 0) r eq_refl Hr) as P1. pose proof (P (mk3 0 0 0 0 0 0 0 0 1) r eq_refl Hr) as P2.
  pose proof (P (mk3 0 0 0 0 0 1 0 1 0) r eq_refl Hr) as P3. pose proof (P (mk3 0 0 1 0 0 0 1 0 0) r eq_refl Hr) as P4. pose proof (P (mk3 0 1 0 1 0 0 0 0 0) r eq_refl Hr) as P5.
  cbn [map fold_right eng nth a00 a01 a02 a10 a11 a12 a20 a21 a22] in P0, P1, P2, P3, P4, P5. clear P.
  do 6 (destruct q as [|q]; [lra|]). lia.
Qed.

Section Both.
  Variables (hs : Solver R) (c : MClass R) (pars : list R) (b b' : BCall) (i i' : nat) (S : M3) (sg : nat -> nat) (ep : nat -> R).
  Variables (md sd : nat -> V3) (law : nat -> R -> R) (ref : R).
  Hypothesis G : good hs c b.
  Hypothesis U : in_use c (b_s b) pars.
  Hypothesis Hi : (i < b_n b)%nat.
  Hypothesis Hi' : (i' < b_n b')%nat.
  Hypothesis HST : same_step b b'.
  Hypothesis HT : equivalent_in c S sg ep b i b' i'.
  Hypothesis HSys : systems hs c pars md sd.
  Hypothesis HLaw : slip_law hs c pars (tKel (b_s b) (b_m1 b) i) (strength (b_s b) (b_m1 b) i) law ref.
  Hypothesis HM : matches (c_nslip c) S sg ep md sd.
  Hypothesis HS : lattice_rot hs c pars S sg.
  Hypothesis Hq : norm2 (quat (b_s b) (b_m b) i) <> 0.
  Hypothesis Hq' : norm2 (quat (b_s b') (b_m b') i') <> 0.
  Hypothesis G' : good hs c b'.
  Hypothesis U' : in_use c (b_s b') pars.

  Theorem call_tan p p' : is_prob c b i pars p -> is_prob c b' i' pars p' ->
    answers_correspond S (b_solver b 8%nat (computeRJ p) (nth 2 pars 0) 200%nat [0; 0; 0; 0; 0; 0; 0; 0])
      (b_solver b' 8%nat (computeRJ p') (nth 2 pars 0) 200%nat [0; 0; 0; 0; 0; 0; 0; 0]) ->
    b_mtan b = true -> solves_exactly (b_lu b) -> solves_exactly (b_lu b') ->
    forall r q, (r < 6)%nat -> (q < 6)%nat -> tangent (b_s b') (b_m1 b') i' r q = tangent (b_s b) (b_m1 b) i r q.
  Proof.
    intros IP IP' (Lx & Ll & Ex & El & En & Enj & OT) Hm LX1 LX2.
    destruct HST as (ED & EM). pose proof G as (HB & _ & HO & _). pose proof G' as (_ & _ & HO' & _).
    destruct (pair_probs hs c pars b b' i i' S sg ep md sd law ref G U Hi HO' Hi' ED HT HSys HLaw HM HS Hq Hq' p p' IP IP') as (EPr & SY & NS).
    destruct IP as (g & kin & hi & h_u & nh & E1 & E2 & UH & EP).
    destruct IP' as (g' & kin' & hi' & h_u' & nh' & E1' & E2' & UH' & EP').
    rewrite E1 in E1'. apply some_inj in E1'. subst g'.
    assert (EK : kin' = kin) by (rewrite E2 in E2'; apply (f_equal (option_map fst)) in E2'; cbn [option_map fst] in E2'; clear - E2'; congruence).
    subst kin'. clear E2'.
    destruct (call_parts hs c b i pars G Hi U) as (g0 & kin0 & hi0 & h0 & v & nf & gm & E10 & E20 & N1 & N2 & K & HL & PS1 & PS2 & Rs).
    destruct (call_parts hs c b' i' pars G' Hi' U') as (g1 & kin1 & hi1 & h1 & v' & nf' & gm' & E11 & E21 & _ & _ & _ & _ & PS1' & PS2' & Rs').
    cbv zeta in Rs, Rs'. rewrite E1 in E10, E11. apply some_inj in E10. apply some_inj in E11. subst g0 g1.
    assert (EK : kin0 = kin) by (rewrite E2 in E20; apply (f_equal (option_map fst)) in E20; cbn [option_map fst] in E20; clear - E20; congruence).
    subst kin0. clear E20.
    assert (EK : kin1 = kin) by (rewrite E2 in E21; apply (f_equal (option_map fst)) in E21; cbn [option_map fst] in E21; clear - E21; congruence).
    subst kin1. clear E21.
    assert (Eh0 : h0 = h_u).
    { destruct (r_updH _ _ _ _ _ _ _ _ _ _ _ _ _ _ Rs) as [n1 X1]. cbn [mat_of m_kin m_sg] in X1. rewrite UH in X1. clear - X1. congruence. }
    assert (Eh1 : h1 = h_u').
    { destruct (r_updH _ _ _ _ _ _ _ _ _ _ _ _ _ _ Rs') as [n1 X1]. cbn [mat_of m_kin m_sg] in X1. rewrite UH' in X1. clear - X1. congruence. }
    subst h0 h1.
    set (mat := mat_of c pars g kin) in *.
    rewrite <- EP in Rs. rewrite <- EP' in Rs'. change (tab 8 (fun _ : nat => 0)) with [0; 0; 0; 0; 0; 0; 0; 0] in Rs, Rs'.
    change (P_in c b i) with (P c b i) in *. change (P_in c b' i') with (P c b' i') in *.
    change (in_cell c b i) with (C c b i) in *. change (in_cell c b' i') with (C c b' i') in *.
    set (q := qS b b' i i') in *.
    assert (RQ : rotq q = S) by exact (qS_rot c b b' i i' S sg ep HT Hq Hq').
    set (r := b_solver b 8%nat (computeRJ p) (nth 2 pars 0) 200%nat [0; 0; 0; 0; 0; 0; 0; 0]) in *.
    set (r' := b_solver b' 8%nat (computeRJ p') (nth 2 pars 0) 200%nat [0; 0; 0; 0; 0; 0; 0; 0]) in *.
    pose proof (pr_upd c b b' i i' S sg ep HO HO' Hi Hi' HT mat) as EUp.
    pose proof (r_mtan _ _ _ _ _ _ _ _ _ _ _ _ _ _ Rs) as T1. pose proof (r_mtan _ _ _ _ _ _ _ _ _ _ _ _ _ _ Rs') as T2.
    assert (Q1 : exists l, pt_mtan (P c b i) = Some l) by (unfold P, pt_of, pt_at; cbn [pt_mtan]; rewrite Hm; eexists; reflexivity).
    assert (Q2 : exists l, pt_mtan (P c b' i') = Some l) by (unfold P, pt_of, pt_at; cbn [pt_mtan]; rewrite EM, Hm; eexists; reflexivity).
    destruct Q1 as (l1 & Q1). destruct Q2 as (l2 & Q2). rewrite Q1 in T1. rewrite Q2 in T2.
    destruct T1 as (mv & T1 & O1). destruct T2 as (mv' & T2 & O2). rewrite EUp in O2.
    rewrite Ex, <- RQ, EPr in T2. rewrite EPr in O2.
    assert (LU1 : exists sol, b_lu b 8%nat (jacobian0 p (evalEv p (so_x r))) (mtan_rhs_T (evalEv p (so_x r))) 5%nat = Some sol).
    { unfold mtan_vecds in T1. destruct (b_lu b 8%nat _ _ _) as [sol|]; [exists sol; reflexivity|discriminate]. }
    set (pp := sym_prob q p) in *. set (xx := sym_map (rotq q) (so_x r)) in *.
    assert (LU2 : exists sol, b_lu b' 8%nat (jacobian0 pp (evalEv pp xx)) (mtan_rhs_T (evalEv pp xx)) 5%nat = Some sol).
    { unfold mtan_vecds in T2. destruct (b_lu b' 8%nat _ _ _) as [sol|]; [exists sol; reflexivity|discriminate]. }
    destruct LU1 as (sol & L1). destruct LU2 as (sol' & L2).
    set (bk := u_bulkNew (snglUpd mat (C c b i AV) (pt_eInt (P c b i)) (pt_stress (P c b i)))) in *.
    assert (FIN : forall E, is_sym E -> stiff (fun r q => get (mtanSD_of pp bk mv') (6 * r + q)) E = stiff (fun r q => get (mtanSD_of p bk mv) (6 * r + q)) E).
    { intros E HE. exact (stiff_sym p q sg ep (so_x r) (b_lu b) (b_lu b') sol sol' mv mv' bk E SY Lx OT LX1 LX2 L1 L2 T1 T2 HE). }
    intros r0 q0 Hr0 Hq0.
    transitivity (get (mtanSD_of pp bk mv') (6 * r0 + q0)); [|transitivity (get (mtanSD_of p bk mv) (6 * r0 + q0))].
    - unfold tangent. rewrite (vval hs c b' i' G' Hi') by (cbn [per_point]; rewrite EM, Hm; lia).
      unfold P_out, pt_of, pt_at in O2. cbn [pt_mtan] in O2. rewrite EM, Hm in O2. apply some_inj in O2. unfold cell_of. rewrite EM, Hm, O2. reflexivity.
    - exact (stiff_entries _ _ FIN r0 q0 Hr0 Hq0).
    - symmetry. unfold tangent. rewrite (vval hs c b i G Hi) by (cbn [per_point]; rewrite Hm; lia).
      unfold P_out, pt_of, pt_at in O1. cbn [pt_mtan] in O1. rewrite Hm in O1. apply some_inj in O1. unfold cell_of. rewrite Hm, O1. reflexivity.
  Qed.
End Both.
