(** Whole calls for equivalent orientations: equations and results together (C22). *)
From Coq Require Import List ZArith Bool Lia PeanoNat Reals Lra String.
From Verif Require Import P_Demo.
From Verif Require Import Num Arr NumR Util SlipGeom Eos Hard KinVoce KinKMBalD Elast Evptn MatModel Cases SpecTensor
  SpecElast SpecSlip P_Tensor P_Elast P_Eos P_Sngl P_Sngl2 P_Sngl3 P_Batch P_Batch2 P_Batch3 P_Batch4 P_Api P_Builtin SpecApi P_Hist SpecStress P_Stress
  SpecKin SpecKinApi SpecStep P_KinV P_Kin4 P_Call P_Slip P_SlipH P_Step P_Step2 P_Energy P_Rigid3 P_Demo3 P_Deriv P_Jac P_Jac2 SpecJac P_Jac3 SpecFrame P_Frame P_Frame2 P_Frame3
  SpecSym P_Sym P_Sym1 P_Sym2 P_Sym3 P_Sym4 P_SymH P_Sym5 P_Sym6 P_Sym7 P_Sym8.
Import ListNotations.
Local Open Scope R_scope.

Section All.
  Variables (hs : Solver R) (c : MClass R) (pars : list R) (b b' : BCall) (i i' : nat) (S : M3) (sg : nat -> nat) (ep : nat -> R).
  Variables (md sd : nat -> V3) (law : nat -> R -> R) (ref : R) (ok : nat -> R -> Prop).
  Hypothesis G : good hs c b.
  Hypothesis G' : good hs c b'.
  Hypothesis U : in_use c (b_s b) pars.
  Hypothesis U' : in_use c (b_s b') pars.
  Hypothesis Hi : (i < b_n b)%nat.
  Hypothesis Hi' : (i' < b_n b')%nat.
  Hypothesis HST : same_step b b'.
  Hypothesis HSys : systems hs c pars md sd.
  Hypothesis HLaw : smooth_law hs c pars (tKel (b_s b) (b_m1 b) i) (strength (b_s b) (b_m1 b) i) law ref ok.
  Hypothesis HS : lattice_rot hs c pars S sg.
  Hypothesis HM : matches (c_nslip c) S sg ep md sd.
  Hypothesis HT : equivalent_in c S sg ep b i b' i'.
  Hypothesis Hv : 0 < vNew (b_s b) (b_m b) i.
  Hypothesis Hdt : 0 < b_dt b.
  Hypothesis Htr : trace (devRate (b_s b) (b_m b) i) = 0.
  Hypothesis Hq : norm2 (quat (b_s b) (b_m b) i) <> 0.
  Hypothesis Hq' : norm2 (quat (b_s b') (b_m b') i') <> 0.

  Lemma same_Th : tKel (b_s b') (b_m1 b') i' = tKel (b_s b) (b_m1 b) i /\ strength (b_s b') (b_m1 b') i' = strength (b_s b) (b_m1 b) i.
  Proof.
    destruct HST as (ED & EM). pose proof G as (HB & _ & HO & _). pose proof G' as (_ & _ & HO' & _).
    destruct (call_parts hs c b i pars G Hi U) as (g & kin & hi & h_u & v & nf & gm & E1 & E2 & N1 & N2 & K & HL & PS1 & PS2 & Rs).
    destruct (call_parts hs c b' i' pars G' Hi' U') as (g1 & kin1 & hi1 & h1 & v' & nf' & gm' & E11 & E21 & _ & _ & _ & _ & PS1' & PS2' & Rs').
    cbv zeta in Rs, Rs'. rewrite E1 in E11. apply some_inj in E11. subst g1.
    assert (EK : kin1 = kin) by (rewrite E2 in E21; apply (f_equal (option_map fst)) in E21; cbn [option_map fst] in E21; clear - E21; congruence).
    subst kin1. clear E21. assert (NH : c_nH c = 1%nat) by exact (nH1 hs c HB).
    set (mat := mat_of c pars g kin) in *.
    change (P_in c b i) with (P c b i) in *. change (P_in c b' i') with (P c b' i') in *.
    change (in_cell c b i) with (C c b i) in *. change (in_cell c b' i') with (C c b' i') in *.
    assert (MS : sg_nslip (m_sg mat) = c_nslip c) by exact N1. assert (MH : k_nH (m_kin mat) = c_nH c) by exact N2.
    split.
    - unfold tKel. rewrite (vval hs c b i G Hi AT 0), (vval hs c b' i' G' Hi' AT 0) by (cbn [per_point]; lia).
      change (pt_tkelv (P_out c b' i') = pt_tkelv (P_out c b i)).
      rewrite (r_tkelv _ _ _ _ _ _ _ _ _ _ _ _ _ _ Rs), (r_tkelv _ _ _ _ _ _ _ _ _ _ _ _ _ _ Rs'). exact (pr_tk c b b' i i' S sg ep HO HO' Hi Hi' HT mat).
    - pose proof (r_H _ _ _ _ _ _ _ _ _ _ _ _ _ _ Rs) as X1. pose proof (r_H _ _ _ _ _ _ _ _ _ _ _ _ _ _ Rs') as X2.
      destruct (r_updH _ _ _ _ _ _ _ _ _ _ _ _ _ _ Rs) as [n1 UH]. destruct (r_updH _ _ _ _ _ _ _ _ _ _ _ _ _ _ Rs') as [n2 UH'].
      assert (Ehu : h1 = h_u).
      { rewrite MS, MH, NH in UH, UH'. rewrite ED in UH'. rewrite (pr_h hs c b b' i i' S sg ep HB HO HO' Hi Hi' HT) in UH'.
        change (m_kin mat) with kin in UH, UH'.
        rewrite (updH_sym hs c (sub pars (3 + c_sgNP c + c_elNP c) (c_kinNP c)) kin hi (c_nslip c) sg ep _ (b_dt b) _ _ HB E2 eq_refl (proj1 HM)
          (fun k Hk => proj1 (proj2 HM k Hk)) (pr_g hs c b b' i i' S sg ep HB HO HO' Hi Hi' HT (proj1 HM))) in UH'.
        rewrite UH in UH'. clear - UH'. congruence. }
      rewrite Ehu, <- X1 in X2. rewrite MH, NH in X2. change iHistLbH with 13%nat in X2.
      rewrite (hist_out_sub hs c b i G Hi mat) in X2; try assumption; [|lia]. rewrite (hist_out_sub hs c b' i' G' Hi' mat) in X2; try assumption; [|lia].
      apply (f_equal (fun l => get l 0)) in X2. rewrite !get_tab in X2 by lia. exact X2.
  Qed.

  Theorem sym_base : exists p p' (C0 : M3),
    let f := computeRJ p in let f' := computeRJ p' in
    let tol := nth 2 pars 0 in let x0 := [0; 0; 0; 0; 0; 0; 0; 0] in let r := b_solver b 8%nat f tol 200%nat x0 in let r' := b_solver b' 8%nat f' tol 200%nat x0 in
    (is_prob c b i pars p /\ is_prob c b' i' pars p') /\
    rotates (unit4 (quat (b_s b) (b_m b) i)) C0 /\ rotates (unit4 (quat (b_s b') (b_m b') i')) (mul3 C0 S) /\
    (forall x, fst (f x) = trial_eqs c pars b i md sd law ref C0 x) /\
    (forall x, fst (f' x) = trial_eqs c pars b' i' md sd law ref (mul3 C0 S) x) /\
    dev_strain (b_s b) (b_m1 b) i = trial_strain (dev_strain (b_s b) (b_m b) i) (so_x r) /\
    dev_strain (b_s b') (b_m1 b') i' = trial_strain (dev_strain (b_s b') (b_m b') i') (so_x r') /\
    (forall x, List.length x = 8%nat -> off_tiny x -> related_at 8 (sym_map S) f f' x).
  Proof.
    destruct HST as (ED & EM). pose proof G' as (HB & _ & HO' & _). destruct same_Th as [ET EH].
    assert (HLaw' : smooth_law hs c pars (tKel (b_s b') (b_m1 b') i') (strength (b_s b') (b_m1 b') i') law ref ok) by (rewrite ET, EH; exact HLaw).
    assert (Hv' : 0 < vNew (b_s b') (b_m b') i').
    { replace (vNew (b_s b') (b_m b') i') with (vNew (b_s b) (b_m b) i); [exact Hv|]. destruct HT as (_ & _ & _ & _ & TV & _). symmetry. apply (TV 1%nat). lia. }
    assert (Htr' : trace (devRate (b_s b') (b_m b') i') = 0) by (rewrite (proj1 HT); exact Htr).
    assert (Hdt' : 0 < b_dt b') by (rewrite ED; exact Hdt).
    destruct (call_jac_full hs c b i pars G Hi U md sd law ref ok HSys HLaw Hv Hdt Hq Htr) as (p & C0 & IP & RC & (_ & DE & _) & EQ & _).
    destruct (call_jac_full hs c b' i' pars G' Hi' U' md sd law ref ok HSys HLaw' Hv' Hdt' Hq' Htr') as (p' & C0' & IP' & RC' & (_ & DE' & _) & EQ' & _).
    pose proof (smooth_slip _ _ _ _ _ _ _ _ HLaw) as HSl.
    destruct (pair_probs hs c pars b b' i i' S sg ep md sd law ref G U Hi HO' Hi' ED HT HSys HSl HM HS Hq Hq' p p' IP IP') as (EPr & SY & NS).
    assert (EC : C0' = mul3 C0 S).
    { destruct HT as (_ & _ & _ & (C & R1 & R2) & _).
      pose proof (proj1 (unit4_unit (quat (b_s b) (b_m b) i) eq_refl Hq)) as L. pose proof (proj1 (unit4_unit (quat (b_s b') (b_m b') i') eq_refl Hq')) as L'.
      apply rotates_rotq in R1; [|exact L]. apply rotates_rotq in R2; [|exact L']. pose proof (rotates_rotq _ _ L RC) as Q1. pose proof (rotates_rotq _ _ L' RC') as Q2.
      rewrite Q2, Q1, <- R1, <- R2. reflexivity. }
    rewrite EC in RC', EQ'.
    exists p, p', C0. cbv zeta.
    refine (conj (conj IP IP') (conj RC (conj RC' (conj EQ (conj EQ' (conj DE (conj DE' _))))))).
    intros x Lx Ox. rewrite <- (qS_rot c b b' i i' S sg ep HT Hq Hq'), EPr. exact (so_related p _ sg ep SY x Lx Ox).
  Qed.
  Theorem sym_all : b_solver b' = b_solver b -> exists (f f' : list R -> list R * list R) (C0 : M3),
    let tol := nth 2 pars 0 in let x0 := [0; 0; 0; 0; 0; 0; 0; 0] in let r := b_solver b 8%nat f tol 200%nat x0 in let r' := b_solver b 8%nat f' tol 200%nat x0 in
    rotates (unit4 (quat (b_s b) (b_m b) i)) C0 /\ rotates (unit4 (quat (b_s b') (b_m b') i')) (mul3 C0 S) /\
    (forall x, fst (f x) = trial_eqs c pars b i md sd law ref C0 x) /\
    (forall x, fst (f' x) = trial_eqs c pars b' i' md sd law ref (mul3 C0 S) x) /\
    dev_strain (b_s b) (b_m1 b) i = trial_strain (dev_strain (b_s b) (b_m b) i) (so_x r) /\
    dev_strain (b_s b') (b_m1 b') i' = trial_strain (dev_strain (b_s b') (b_m b') i') (so_x r') /\
    (forall x, List.length x = 8%nat -> off_tiny x -> related_at 8 (sym_map S) f f' x) /\
    (coordinate_free (b_solver b) -> stays_in (b_solver b) 8 f' off_tiny tol 200 x0 -> off_tiny (so_x r) -> equivalent_out c S sg ep b i b' i').
  Proof.
    intros ES. destruct HST as (ED & EM). pose proof G' as (HB & _ & HO' & _). pose proof (smooth_slip _ _ _ _ _ _ _ _ HLaw) as HSl.
    destruct sym_base as (p & p' & C0 & (IP & IP') & H1 & H2 & H3 & H4 & H5 & H6 & H7). rewrite ES in H6.
    exists (computeRJ p), (computeRJ p'), C0. cbv zeta.
    refine (conj H1 (conj H2 (conj H3 (conj H4 (conj H5 (conj H6 (conj H7 _))))))).
    intros CF SI OT. exact (call_sym hs c pars b b' i i' S sg ep md sd law ref G U Hi HO' Hi' ED HT HSys HSl HM HS Hq Hq' G' U' EM ES p p' CF IP IP' SI OT).
  Qed.
  Theorem sym_ans : exists (f f' : list R -> list R * list R) (C0 : M3),
    let tol := nth 2 pars 0 in let x0 := [0; 0; 0; 0; 0; 0; 0; 0] in let r := b_solver b 8%nat f tol 200%nat x0 in let r' := b_solver b' 8%nat f' tol 200%nat x0 in
    rotates (unit4 (quat (b_s b) (b_m b) i)) C0 /\ rotates (unit4 (quat (b_s b') (b_m b') i')) (mul3 C0 S) /\
    (forall x, fst (f x) = trial_eqs c pars b i md sd law ref C0 x) /\
    (forall x, fst (f' x) = trial_eqs c pars b' i' md sd law ref (mul3 C0 S) x) /\
    dev_strain (b_s b) (b_m1 b) i = trial_strain (dev_strain (b_s b) (b_m b) i) (so_x r) /\
    dev_strain (b_s b') (b_m1 b') i' = trial_strain (dev_strain (b_s b') (b_m b') i') (so_x r') /\
    (forall x, List.length x = 8%nat -> off_tiny x -> norm2 (fst (f' (sym_map S x))) = norm2 (fst (f x))) /\
    (answers_correspond S r r' -> equivalent_out c S sg ep b i b' i').
  Proof.
    destruct HST as (ED & EM). pose proof G' as (HB & _ & HO' & _). pose proof (smooth_slip _ _ _ _ _ _ _ _ HLaw) as HSl.
    destruct sym_base as (p & p' & C0 & (IP & IP') & H1 & H2 & H3 & H4 & H5 & H6 & H7).
    assert (RS : is_rot S) by exact (S_is_rot c b b' i i' S sg ep HT Hq Hq').
    exists (computeRJ p), (computeRJ p'), C0. cbv zeta.
    refine (conj H1 (conj H2 (conj H3 (conj H4 (conj H5 (conj H6 (conj _ _))))))).
    - intros x Lx Ox. rewrite (proj1 (H7 x Lx Ox)).
      exact (proj2 (proj2 (proj2 (proj2 (proj1 (map_isometry S (proj1 RS)) _ (proj1 (so_sized p x Lx))))))).
    - exact (call_ans hs c pars b b' i i' S sg ep md sd law ref G U Hi HO' Hi' ED HT HSys HSl HM HS Hq Hq' G' U' EM p p' IP IP').
  Qed.
End All.

Lemma class_match hs c pars md sd S : builtin hs c -> c <> cls_HCP_A hs -> systems hs c pars md sd -> cubic_rot S ->
  exists sg ep, matches (c_nslip c) S sg ep md sd.
Proof.
  intros HB HC HSys HS. destruct tables_closed as (_ & F & B & _).
  destruct (cubic_el hs c pars HB HC) as (_ & _ & _ & _ & EN). rewrite EN.
  destruct HSys as [H|H|H _]; [exact (table_match sys_fcc S F HS)|exact (table_match (sys_bcc 12) S B HS)|contradiction].
Qed.
Lemma class_match_hex hs c pars md sd S : c = cls_HCP_A hs -> systems hs c pars md sd -> hex_rot S -> families_alike c pars ->
  exists sg ep, matches (c_nslip c) S sg ep md sd /\ lattice_rot hs c pars S sg.
Proof.
  intros HC HSys HS FA. assert (EN : c_nslip c = 24%nat) by (rewrite HC; reflexivity). rewrite EN.
  destruct HSys as [H|H|_ H];
    [exfalso; destruct H as [H|[H|H]]; rewrite H in EN; discriminate|exfalso; destruct H as [H|[H|H]]; rewrite H in EN; discriminate|].
  destruct (hex_match (nth 3 pars 0) S HS) as (sg & ep & HM & HF). exists sg, ep. split; [exact HM|].
  right. exact (conj HC (conj HS (conj FA HF))).
Qed.
Lemma all_match S : cubic_rot S -> forall t, t = sys_fcc \/ t = sys_bcc 12 \/ t = sys_bcc 24 \/ t = sys_bcc 48 ->
  exists sg ep, matches (List.length t) S sg ep (fun i => unitv (cub (fst (nth i t d3)))) (fun i => unitv (cub (snd (nth i t d3)))).
Proof.
  intros HS t Ht. destruct tables_closed as (_ & F & B1 & B2 & B3).
  destruct Ht as [E | [E | [E | E]]]; rewrite E; [exact (table_match _ S F HS)|exact (table_match _ S B1 HS)|exact (table_match _ S B2 HS)|exact (table_match _ S B3 HS)].
Qed.
