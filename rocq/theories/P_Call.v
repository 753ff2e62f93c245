(** Everything known about one successful call on an object whose parameters are known. *)
From Coq Require Import List ZArith Bool Lia PeanoNat Reals Lra String.
From Verif Require Import Num Arr NumR Util SlipGeom Eos Hard KinVoce KinKMBalD Elast Evptn MatModel Cases SpecTensor
  P_Tensor P_Eos P_Sngl P_Sngl2 P_Sngl3 P_Batch P_Batch2 P_Batch3 P_Api P_Builtin SpecApi P_Hist P_KinV.
Import ListNotations.
Local Open Scope R_scope.

Definition p_eos (c : MClass R) (pars : list R) : Eos R :=
  eos_setParams false [nth 0 pars 0; p_bulk c pars; p_cv pars; p_gamma c pars; p_ec0 c pars].
Definition mat_of (c : MClass R) (pars : list R) (sg : SlipGeom R) (kin : Kinetics R) : Mat R :=
  {| m_sg := sg; m_kin := kin; m_el := el_of c pars; m_eos := p_eos c pars |}.

Lemma in_use_all hs c s pars : builtin hs c -> in_use c s pars ->
  reachable c s /\ List.length pars = mm_nParams c /\ 0 < p_bulk c pars /\ exists sg kin hi,
    c_sgSet c (sub pars 3 (c_sgNP c)) = Some sg /\
    c_kinSet c (sub pars (3 + c_sgNP c + c_elNP c) (c_kinNP c)) = Some (kin, hi) /\
    mm_ready s = Some (mat_of c pars sg kin, nth 2 pars 0).
Proof.
  intros HB [s0 o pars' st s1 ops HR HI HF].
  pose proof (reach_init c s0 o pars' st Done s1 HR HI) as HR1.
  split; [now apply reach_run|].
  destruct (init_done _ _ _ _ _ _ HI) as ((HL & _) & a & (P1 & P2 & P3 & P4) & _ & ES).
  split; [assumption|]. change (pa_el a = el_of c pars') in P2. rewrite P2 in P4.
  destruct (bulk_of hs c pars' _ HB HL P4) as [EB PB]. unfold mat_of, p_eos. rewrite <- EB. split; [assumption|].
  exists (pa_sg a), (pa_kin a), (pa_hist a). split; [assumption|]. split; [assumption|].
  destruct (run_harmless c ops s1 HF) as (E & _). rewrite E, ES. unfold mm_ready, with_parts, with_scalars, with_vecs.
  cbn [mm_sg mm_kin mm_el mm_eos mm_tol]. rewrite P2. unfold parts_eos.
  destruct (builtin_parts hs c HB) as (_ & _ & EI). rewrite EI.
  rewrite sub2 by (rewrite HL; unfold mm_nParams, eos_nParams; lia).
  unfold p_gamma, p_ec0, p_cv.
  replace (mm_nParams c - 2)%nat with (3 + c_sgNP c + c_elNP c + c_kinNP c)%nat by (unfold mm_nParams, eos_nParams; lia).
  replace (mm_nParams c - 1)%nat with (S (3 + c_sgNP c + c_elNP c + c_kinNP c))%nat by (unfold mm_nParams, eos_nParams; lia).
  reflexivity.
Qed.

Section Call.
  Variables (hs : Solver R) (c : MClass R) (b : BCall) (i : nat) (pars : list R).
  Hypothesis G : good hs c b.
  Hypothesis Hi : (i < b_n b)%nat.
  Hypothesis U : in_use c (b_s b) pars.
  Let s := b_s b. Let m := b_m b. Let m1 := b_m1 b.
  Definition P_in := pt_of c s (b_mtan b) m i.
  Definition P_out := pt_of c s (b_mtan b) m1 i.
  Definition in_cell a := cell_of c s (b_mtan b) m a i.

  Lemma call_parts : exists sg kin hi h_u v nf gm,
    c_sgSet c (sub pars 3 (c_sgNP c)) = Some sg /\
    c_kinSet c (sub pars (3 + c_sgNP c + c_elNP c) (c_kinNP c)) = Some (kin, hi) /\
    sg_nslip sg = c_nslip c /\ k_nH kin = c_nH c /\ kin_shapes kin (c_nslip c) /\ List.length pars = mm_nParams c /\
    let mat := mat_of c pars sg kin in
    pt_shapes mat P_in /\ pt_shapes mat P_out /\
    let p := snglProb mat (b_dt b) (in_cell AD) (in_cell AW) (in_cell AV) P_in h_u in
    let r := b_solver b 8%nat (computeRJ p) (nth 2 pars 0) 200%nat (tab 8 (fun _ => 0)) in
    Result mat (b_lu b) (b_dt b) (in_cell AD) (in_cell AW) (in_cell AV) P_in P_out h_u p r v nf gm.
  Proof.
    destruct (good_point hs c b i G Hi) as (mat & tol & HM & HMo & K & S & E). cbv zeta in *.
    destruct G as (HB & _).
    destruct (in_use_all hs c (b_s b) pars HB U) as (HR & HL & PB & sg & kin & hi & E1 & E2 & HM').
    rewrite HM' in HM. 
    assert (X : mat = mat_of c pars sg kin) by (apply (f_equal (option_map fst)) in HM; cbn [option_map fst] in HM; clear - HM; congruence).
    assert (Y : tol = nth 2 pars 0) by (apply (f_equal (option_map snd)) in HM; cbn [option_map snd] in HM; clear - HM; congruence).
    subst mat tol. clear HM HM'.
    destruct (sngl_done _ _ _ _ _ _ _ _ _ _ K S E) as (h_u & v & nf & gm & Rs). cbv zeta in Rs.
    destruct HMo as (M1 & M2 & M3 & _). cbn [m_sg m_kin mat_of] in M1, M2, M3. rewrite M1 in M3.
    exists sg, kin, hi, h_u, v, nf, gm. refine (conj E1 (conj E2 (conj M1 (conj M2 (conj M3 (conj HL _)))))).
    cbv zeta. exact (conj S (conj (r_shapes _ _ _ _ _ _ _ _ _ _ _ _ _ _ Rs) Rs)).
  Qed.

  (** reading the arrays *)
  Lemma in_val a k : (k < per_point (c_nH c) (c_nslip c) (b_mtan b) a)%nat -> get (in_cell a) k = val s m a i k.
  Proof. exact (vin hs c b i G Hi a k). Qed.
  Lemma hist_in k : (k < 13 + c_nH c + c_nslip c)%nat -> get (pt_hist P_in) k = val s m AH i k.
  Proof. intros H. unfold P_in, pt_of, pt_at. cbn [pt_hist]. apply (vin hs c b i G Hi AH k). exact H. Qed.
  Lemma hist_out_val k : (k < 13 + c_nH c + c_nslip c)%nat -> get (pt_hist P_out) k = val s m1 AH i k.
  Proof. intros H. unfold P_out, pt_of, pt_at. cbn [pt_hist]. apply (vout hs c b i G Hi AH k). exact H. Qed.

  (** values of consecutive history entries *)
  Lemma hist_in_sub mat j n : pt_shapes mat P_in -> k_nH (m_kin mat) = c_nH c -> sg_nslip (m_sg mat) = c_nslip c ->
    (j + n <= 13 + c_nH c + c_nslip c)%nat -> sub (pt_hist P_in) j n = tab n (fun k => val s m AH i (j + k)).
  Proof.
    intros (_ & _ & L & _) E1 E2 H. rewrite E1, E2 in L. unfold numHist, iHistLbH in L.
    apply list_get_ext; [rewrite sub_length, tab_length by lia; reflexivity|].
    intros k Hk. rewrite sub_length in Hk by lia. rewrite get_sub, get_tab by lia. apply hist_in. lia.
  Qed.
  Lemma hist_out_sub mat j n : pt_shapes mat P_out -> k_nH (m_kin mat) = c_nH c -> sg_nslip (m_sg mat) = c_nslip c ->
    (j + n <= 13 + c_nH c + c_nslip c)%nat -> sub (pt_hist P_out) j n = tab n (fun k => val s m1 AH i (j + k)).
  Proof.
    intros (_ & _ & L & _) E1 E2 H. rewrite E1, E2 in L. unfold numHist, iHistLbH in L.
    apply list_get_ext; [rewrite sub_length, tab_length by lia; reflexivity|].
    intros k Hk. rewrite sub_length in Hk by lia. rewrite get_sub, get_tab by lia. apply hist_out_val. lia.
  Qed.
  Lemma builtin_nH : c_nH c = 1%nat.
  Proof. destruct G as (HB & _). destruct HB as [ -> | [ -> | [ -> | [ -> | [ -> | [ -> | -> ]]]]]]; reflexivity. Qed.

  (** the hardness update of the call: old strength, old slip rates, time step *)
  Definition old_rates : list R := tab (c_nslip c) (fun k => val s m AH i (14 + k)).
  Lemma call_hard : exists kin hi n,
    c_kinSet c (sub pars (3 + c_sgNP c + c_elNP c) (c_kinNP c)) = Some (kin, hi) /\
    k_updateH kin [val s m AH i 13] (b_dt b) old_rates = Some ([val s m1 AH i 13], n).
  Proof.
    destruct call_parts as (sg & kin & hi & h_u & v & nf & gm & E1 & E2 & N1 & N2 & K & HL & S & S' & Rs). cbv zeta in *.
    destruct (r_updH _ _ _ _ _ _ _ _ _ _ _ _ _ _ Rs) as [n EU]. pose proof (r_H _ _ _ _ _ _ _ _ _ _ _ _ _ _ Rs) as EH.
    cbn [m_kin m_sg mat_of] in EU, EH. rewrite N1, N2, builtin_nH in EU. rewrite N2, builtin_nH in EH.
    change (iHistLbGdot 1) with 14%nat in EU. change iHistLbH with 13%nat in EU, EH.
    rewrite (hist_in_sub (mat_of c pars sg kin)) in EU by (try assumption; rewrite builtin_nH; lia).
    rewrite (hist_in_sub (mat_of c pars sg kin)) in EU by (try assumption; rewrite builtin_nH; lia).
    rewrite (hist_out_sub (mat_of c pars sg kin)) in EH by (try assumption; rewrite builtin_nH; lia).
    exists kin, hi, n. split; [assumption|]. fold old_rates in EU.
    change (tab 1 (fun k => val s m AH i (13 + k))) with [val s m AH i 13] in EU.
    change (tab 1 (fun k => val s m1 AH i (13 + k))) with [val s m1 AH i 13] in EH. rewrite EH. exact EU.
  Qed.
End Call.
