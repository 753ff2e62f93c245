(** Equivalent orientations: the second call succeeds (C22). *)
From Coq Require Import List ZArith Bool Lia PeanoNat Reals Lra.
From Verif Require Import P_Demo.
From Verif Require Import Num Arr NumR Util SlipGeom Eos Hard KinVoce KinKMBalD Elast Evptn MatModel Cases SpecTensor
  SpecElast SpecSlip P_Tensor P_Elast P_Eos P_Sngl P_Sngl2 P_Sngl3 P_Batch P_Batch2 P_Batch3 P_Batch4 P_Api P_Builtin SpecApi P_Hist SpecStress P_Stress
  SpecKin SpecKinApi SpecStep P_KinV P_Kin4 P_Call P_Slip P_SlipH P_Step P_Step2 P_Energy P_Rigid3 P_Demo3 P_Deriv P_Jac P_Jac2 SpecJac P_Jac3 SpecFrame P_Frame P_Frame2 P_Frame3
  SpecSym P_Sym P_Sym1 P_Sym2 P_Sym3 P_Sym4 P_SymH P_Sym5 P_Sym6 P_Sym7 P_Sym8 P_Sym9
  SpecTan P_Tan P_Frame4 P_Frame5 P_Demo6 P_Sym11 P_Sym12 SpecSym2.
Import ListNotations.
Local Open Scope R_scope.

(** the tangent, with everything the statement needs *)
Section Tan.
  Variables (hs : Solver R) (c : MClass R) (pars : list R) (b b' : BCall) (i i' : nat) (S : M3) (sg : nat -> nat) (ep : nat -> R).
  Variables (md sd : nat -> V3) (law : nat -> R -> R) (ref : R) (ok : nat -> R -> Prop).
  Hypothesis G : good hs c b.
  Hypothesis G' : good hs c b'.
  Hypothesis U : in_use c (b_s b) pars.
  Hypothesis U' : in_use c (b_s b') pars.
  Hypothesis Hi : (i < b_n b)%nat.
  Hypothesis Hi' : (i' < b_n b')%nat.
  Hypothesis HST : same_step b b'.
  Hypothesis HSys : systems hs c pars md sd.
  Hypothesis HLaw : smooth_law hs c pars (tKel (b_s b) (b_m1 b) i) (strength (b_s b) (b_m1 b) i) law ref ok.
  Hypothesis HS : lattice_rot hs c pars S sg.
  Hypothesis HM : matches (c_nslip c) S sg ep md sd.
  Hypothesis HT : equivalent_in c S sg ep b i b' i'.
  Hypothesis Hv : 0 < vNew (b_s b) (b_m b) i.
  Hypothesis Hdt : 0 < b_dt b.
  Hypothesis Htr : trace (devRate (b_s b) (b_m b) i) = 0.
  Hypothesis Hq : norm2 (quat (b_s b) (b_m b) i) <> 0.
  Hypothesis Hq' : norm2 (quat (b_s b') (b_m b') i') <> 0.

  Theorem sym_tan : exists (f f' : list R -> list R * list R) (C0 : M3),
    let tol := nth 2 pars 0 in let x0 := [0; 0; 0; 0; 0; 0; 0; 0] in let r := b_solver b 8%nat f tol 200%nat x0 in let r' := b_solver b' 8%nat f' tol 200%nat x0 in
    rotates (unit4 (quat (b_s b) (b_m b) i)) C0 /\ rotates (unit4 (quat (b_s b') (b_m b') i')) (mul3 C0 S) /\
    (forall x, fst (f x) = trial_eqs c pars b i md sd law ref C0 x) /\
    (forall x, fst (f' x) = trial_eqs c pars b' i' md sd law ref (mul3 C0 S) x) /\
    (forall x, List.length x = 8%nat -> off_tiny x -> related_at 8 (sym_map S) f f' x) /\
    (answers_correspond S r r' -> b_mtan b = true -> solves_exactly (b_lu b) -> solves_exactly (b_lu b') ->
     forall j k, (j < 6)%nat -> (k < 6)%nat -> tangent (b_s b') (b_m1 b') i' j k = tangent (b_s b) (b_m1 b) i j k).
  Proof.
    destruct (sym_base hs c pars b b' i i' S sg ep md sd law ref ok G G' U U' Hi Hi' HST HSys HLaw HS HM HT Hv Hdt Htr Hq Hq')
      as (p & p' & C0 & (IP & IP') & H1 & H2 & H3 & H4 & _ & _ & H7).
    exists (computeRJ p), (computeRJ p'), C0. cbv zeta. refine (conj H1 (conj H2 (conj H3 (conj H4 (conj H7 _))))).
    intros AC Hm L1 L2. exact (call_tan hs c pars b b' i i' S sg ep md sd law ref G U Hi Hi' HST HT HSys (smooth_slip _ _ _ _ _ _ _ _ HLaw) HM HS Hq Hq' G' U' p p' IP IP' AC Hm L1 L2).
  Qed.
End Tan.

Section Success.
  Variables (hs : Solver R) (c : MClass R) (pars : list R) (b : BCall) (s' : MM R) (sv' : Solver R) (lu' : LUSolver R) (n' : nat) (m' : Mem R).
  Let b' := call_of c s' sv' lu' (b_mtan b) n' (b_dt b) m'.
  Hypothesis G : good hs c b.
  Hypothesis U : in_use c (b_s b) pars.
  Hypothesis U' : in_use c s' pars.
  Hypothesis HC : mm_complete s' = true.
  Hypothesis HO' : batch_ok c s' (b_mtan b) n' m'.
  Hypothesis Hdt : 0 < b_dt b.
  Hypothesis Hn : (0 < n')%nat.
  Hypothesis HI : forall i', (i' < n')%nat -> exists i S sg ep md sd law ref ok, (i < b_n b)%nat /\ systems hs c pars md sd /\
    smooth_law hs c pars (tKel (b_s b) (b_m1 b) i) (strength (b_s b) (b_m1 b) i) law ref ok /\
    lattice_rot hs c pars S sg /\ matches (c_nslip c) S sg ep md sd /\ equivalent_in c S sg ep b i b' i' /\
    0 < vNew (b_s b) (b_m b) i /\ trace (devRate (b_s b) (b_m b) i) = 0 /\ norm2 (quat (b_s b) (b_m b) i) <> 0 /\ norm2 (quat s' m' i') <> 0 /\
    follows c pars b i S md sd law ref sv' /\ (b_mtan b = true -> lu_follows S (b_lu b) lu').

  Lemma point i' : (i' < n')%nat -> exists g kin hi gm, c_sgSet c (sub pars 3 (c_sgNP c)) = Some g /\ c_kinSet c (sub pars (3 + c_sgNP c + c_elNP c) (c_kinNP c)) = Some (kin, hi) /\
    sg_nslip g = c_nslip c /\ k_nH kin = 1%nat /\ el_getGmod (el_of c pars) = Some gm /\ exists h nh,
    k_updateH kin [strength s' m' i'] (b_dt b) (slip_rates c s' m' i') = Some (h, nh) /\
    k_valsOk kin (u_press (snglUpd (mat_of c pars g kin) (C c b' i' AV) (pt_eInt (P c b' i')) (pt_stress (P c b' i'))))
      (snglTkelv (mat_of c pars g kin) (C c b' i' AV) (pt_eInt (P c b' i'))) h = true /\
    let p := snglProb (mat_of c pars g kin) (b_dt b) (C c b' i' AD) (C c b' i' AW) (C c b' i' AV) (P c b' i') h in
    let r := sv' 8%nat (computeRJ p) (nth 2 pars 0) 200%nat (tab 8 (fun _ => 0)) in
    so_converged r = true /\ (b_mtan b = true -> mtan_vecds lu' p (so_x r) <> None).
  Proof.
    intros Hi'. destruct (HI i' Hi') as (i & S & sg & ep & md & sd & law & ref & ok & Hi & HSys & HLaw & HS & HM & HT & Hv & Htr & Hq & Hq' & FO & LF).
    pose proof G as (HB & _ & HO & _).
    destruct (call_jac_full hs c b i pars G Hi U md sd law ref ok HSys HLaw Hv Hdt Hq Htr) as (p & C0 & IP & RC & (CV & _) & EQ & _).
    destruct (call_parts hs c b i pars G Hi U) as (g & kin & hi & h_u & v & nf & gm & E1 & E2 & N1 & N2 & K & HL & PS1 & PS2 & Rs).
    cbv zeta in Rs. assert (NH : c_nH c = 1%nat) by exact (nH1 hs c HB).
    assert (Eip : exists nh, k_updateH kin (sub (pt_hist (P_in c b i)) iHistLbH (k_nH kin)) (b_dt b) (sub (pt_hist (P_in c b i)) (iHistLbGdot (k_nH kin)) (sg_nslip g)) = Some (h_u, nh)
      /\ p = snglProb (mat_of c pars g kin) (b_dt b) (in_cell c b i AD) (in_cell c b i AW) (in_cell c b i AV) (P_in c b i) h_u).
    { destruct IP as (g0 & kin0 & hi0 & h0 & nh & F1 & F2 & UH & EP). rewrite E1 in F1. apply some_inj in F1. subst g0.
      assert (EK : kin0 = kin) by (rewrite E2 in F2; apply (f_equal (option_map fst)) in F2; cbn [option_map fst] in F2; clear - F2; congruence). subst kin0.
      assert (Eh0 : h0 = h_u). { destruct (r_updH _ _ _ _ _ _ _ _ _ _ _ _ _ _ Rs) as [n1 X1]. cbn [mat_of m_kin m_sg] in X1. rewrite UH in X1. clear - X1. congruence. }
      subst h0. exists nh. exact (conj UH EP). }
    destruct Eip as (nh & UH & EP).
    assert (HOb : batch_ok c (b_s b') (b_mtan b') (b_n b') (b_m b')) by exact HO'.
    assert (Hib : (i' < b_n b')%nat) by exact Hi'. assert (Hqb : norm2 (quat (b_s b') (b_m b') i') <> 0) by exact Hq'.
    assert (UHb : k_updateH kin (sub (pt_hist (P_in c b' i')) iHistLbH (k_nH kin)) (b_dt b') (sub (pt_hist (P_in c b' i')) (iHistLbGdot (k_nH kin)) (sg_nslip g)) = Some (h_u, nh)).
    { rewrite N1, N2, NH in UH |- *. change (b_dt b') with (b_dt b). change (P_in c b i) with (P c b i) in UH. change (P_in c b' i') with (P c b' i').
      rewrite (pr_h hs c b b' i i' S sg ep HB HO HOb Hi Hib HT).
      rewrite (updH_sym hs c (sub pars (3 + c_sgNP c + c_elNP c) (c_kinNP c)) kin hi (c_nslip c) sg ep _ (b_dt b) _ _ HB E2 eq_refl (proj1 HM) (fun k Hk => proj1 (proj2 HM k Hk))
        (pr_g hs c b b' i i' S sg ep HB HO HOb Hi Hib HT (proj1 HM))).
      exact UH. }
    set (p' := snglProb (mat_of c pars g kin) (b_dt b') (in_cell c b' i' AD) (in_cell c b' i' AW) (in_cell c b' i' AV) (P_in c b' i') h_u).
    assert (IP' : is_prob c b' i' pars p') by (exists g, kin, hi, h_u, nh; exact (conj E1 (conj E2 (conj UHb eq_refl)))).
    destruct (pair_probs hs c pars b b' i i' S sg ep md sd law ref G U Hi HOb Hib eq_refl HT HSys (smooth_slip _ _ _ _ _ _ _ _ HLaw) HM HS Hq Hqb p p' IP IP') as (EPr & SY & NS).
    assert (RQ : rotq (qS b b' i i') = S) by exact (qS_rot c b b' i i' S sg ep HT Hq Hqb).
    assert (RL : forall x, List.length x = 8%nat -> off_tiny x -> related_at 8 (sym_map S) (computeRJ p) (computeRJ p') x).
    { intros x Lx Ox. rewrite <- RQ, EPr. exact (so_related p _ sg ep SY x Lx Ox). }
    destruct (FO (computeRJ p) (computeRJ p') C0 RC EQ (so_sized p) (so_sized p') RL CV) as (CV' & AC).
    exists g, kin, hi, gm. refine (conj E1 (conj E2 (conj N1 (conj _ (conj (r_gmod _ _ _ _ _ _ _ _ _ _ _ _ _ _ Rs) _))))); [rewrite N2; exact NH|].
    exists h_u, nh. split; [|split].
    - rewrite <- UHb. rewrite N1, N2, NH. f_equal.
      + symmetry. apply list_get_ext; [rewrite sub_length by (change (P_in c b' i') with (P c b' i'); rewrite (len_H hs c b' i' HB HOb Hib); unfold iHistLbH; lia); reflexivity|].
        intros k Hk. rewrite sub_length in Hk by (change (P_in c b' i') with (P c b' i'); rewrite (len_H hs c b' i' HB HOb Hib); unfold iHistLbH; lia).
        assert (k = 0%nat) by lia. subst k. rewrite get_sub by lia. change (P_in c b' i') with (P c b' i').
        rewrite (get_H hs c b' i' HB HOb Hib) by (unfold iHistLbH; lia). reflexivity.
      + symmetry. apply list_get_ext; [rewrite sub_length by (change (P_in c b' i') with (P c b' i'); rewrite (len_H hs c b' i' HB HOb Hib); unfold iHistLbGdot, iHistLbH; lia); unfold slip_rates; now rewrite map_length, seq_length|].
        intros k Hk. rewrite sub_length in Hk by (change (P_in c b' i') with (P c b' i'); rewrite (len_H hs c b' i' HB HOb Hib); unfold iHistLbGdot, iHistLbH; lia).
        rewrite get_sub by lia. change (P_in c b' i') with (P c b' i').
        change (slip_rates c s' m' i') with (tab (c_nslip c) (fun k => val s' m' AH i' (14 + k))). rewrite get_tab by lia.
        rewrite (get_H hs c b' i' HB HOb Hib) by (unfold iHistLbGdot, iHistLbH; lia). reflexivity.
    - pose proof (r_valsOk _ _ _ _ _ _ _ _ _ _ _ _ _ _ Rs) as VK. cbn [mat_of m_kin] in VK.
      change (P_in c b i) with (P c b i) in VK. change (in_cell c b i) with (C c b i) in VK.
      rewrite <- (pr_upd c b b' i i' S sg ep HO HOb Hi Hib HT (mat_of c pars g kin)) in VK. rewrite <- (pr_tk c b b' i i' S sg ep HO HOb Hi Hib HT (mat_of c pars g kin)) in VK. exact VK.
    - cbv zeta. change (tab 8 (fun _ : nat => 0)) with [0; 0; 0; 0; 0; 0; 0; 0].
      change (so_converged (sv' 8%nat (computeRJ p') (nth 2 pars 0) 200%nat [0; 0; 0; 0; 0; 0; 0; 0]) = true /\
        (b_mtan b = true -> mtan_vecds lu' p' (so_x (sv' 8%nat (computeRJ p') (nth 2 pars 0) 200%nat [0; 0; 0; 0; 0; 0; 0; 0])) <> None)).
      split; [exact CV'|]. intros Hm. destruct AC as (Lx & Ll & Ex & El & En & Enj & OT). rewrite Ex.
      pose proof (r_mtan _ _ _ _ _ _ _ _ _ _ _ _ _ _ Rs) as T1. rewrite <- EP in T1. change (tab 8 (fun _ : nat => 0)) with [0; 0; 0; 0; 0; 0; 0; 0] in T1.
      set (r := b_solver b 8%nat (computeRJ p) (nth 2 pars 0) 200%nat [0; 0; 0; 0; 0; 0; 0; 0]) in *.
      assert (Q1 : exists l, pt_mtan (P_in c b i) = Some l) by (unfold P_in, pt_of, pt_at; cbn [pt_mtan]; rewrite Hm; eexists; reflexivity).
      destruct Q1 as (l1 & Q1). rewrite Q1 in T1. destruct T1 as (mv0 & T1 & _).
      assert (LU1 : b_lu b 8%nat (jacobian0 p (evalEv p (so_x r))) (mtan_rhs_T (evalEv p (so_x r))) 5%nat <> None).
      { intros Z. unfold mtan_vecds in T1. rewrite Z in T1. discriminate. }
      assert (JS : forall u, List.length u = 8%nat -> mv 8 (jacobian0 p' (evalEv p' (sym_map S (so_x r)))) (sym_map S u) = sym_map S (mv 8 (jacobian0 p (evalEv p (so_x r))) u)).
      { intros u Lu. rewrite <- RQ, EPr. exact (jac0_sym p _ sg ep (so_x r) u SY Lx OT Lu). }
      pose proof (LF Hm _ _ _ (mtan_rhs_T (evalEv p' (sym_map S (so_x r)))) 5%nat JS LU1) as LU2.
      unfold mtan_vecds. destruct (lu' 8%nat _ _ _) as [sol|]; [|congruence]. destruct (dxi_parts p' _) as [[? ?] ?]. discriminate.
  Qed.
  Theorem sym_succeeds : good hs c b'.
  Proof.
    pose proof G as (HB & _). destruct (point 0%nat Hn) as (g & kin & hi & gm & E1 & E2 & N1 & N2 & Hg & _).
    pose proof point as PT. unfold b' in *. clear b'. destruct (b_mtan b) eqn:Hm.
    - apply (good_intro_t hs c s' pars HB U' HC sv' lu' n' (b_dt b) m' HO' g kin hi E1 E2 N1 N2 gm Hg).
      intros i' Hi'. destruct (PT i' Hi') as (g0 & kin0 & hi0 & gm0 & F1 & F2 & _ & _ & _ & h & nh & A1 & A2 & A3 & A4).
      rewrite E1 in F1. apply some_inj in F1. subst g0.
      assert (EK : kin0 = kin) by (rewrite E2 in F2; apply (f_equal (option_map fst)) in F2; cbn [option_map fst] in F2; clear - F2; congruence). subst kin0.
      exists h, nh. split; [exact A1|]. split; [exact A2|]. cbv zeta. split; [exact A3|exact (A4 eq_refl)].
    - apply (good_intro hs c s' pars HB U' HC sv' lu' n' (b_dt b) m' HO' g kin hi E1 E2 N1 N2 gm Hg).
      intros i' Hi'. destruct (PT i' Hi') as (g0 & kin0 & hi0 & gm0 & F1 & F2 & _ & _ & _ & h & nh & A1 & A2 & A3 & _).
      rewrite E1 in F1. apply some_inj in F1. subst g0.
      assert (EK : kin0 = kin) by (rewrite E2 in F2; apply (f_equal (option_map fst)) in F2; cbn [option_map fst] in F2; clear - F2; congruence). subst kin0.
      exists h, nh. split; [exact A1|]. split; [exact A2|]. exact A3.
  Qed.
End Success.
