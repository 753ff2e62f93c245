(** Frame change: the tangent of whole calls (C21). *)
From Coq Require Import List ZArith Bool Lia PeanoNat Reals Lra.
From Verif Require Import P_Demo.
From Verif Require Import Num Arr NumR Util SlipGeom Eos Hard KinVoce KinKMBalD Elast Evptn MatModel Cases SpecTensor
  SpecElast SpecSlip P_Tensor P_Elast P_Eos P_Sngl P_Sngl2 P_Sngl3 P_Batch P_Batch2 P_Batch3 P_Batch4 P_Api P_Builtin SpecApi P_Hist SpecStress P_Stress
  SpecKin SpecKinApi SpecStep P_Call P_Step P_Step2 P_Energy P_Rigid3 P_Demo3 SpecFrame P_Frame P_Frame2 P_Frame3 SpecTan P_Tan P_Sym5 P_Sym6 P_Jac P_Frame4 P_Demo6.
Import ListNotations.
Local Open Scope R_scope.

Lemma split5 T : is_sym T -> T = add3 (ten5 (vec5 T)) (scal3 (inner T (basis 5)) (basis 5)).
Proof. intros H. rewrite <- (ten6_vec6 T H) at 1. unfold ten6, vec6. rewrite ten5_app by reflexivity. reflexivity. Qed.
Lemma cong_b5 Q : is_orth Q -> cong Q (basis 5) = basis 5.
Proof. intros H. change (basis 5) with (scal3 (/ sqrt 3) I3). rewrite SpecTensor.cong_scal, cong_I by exact H. reflexivity. Qed.
Lemma proj_turn Q T : is_orth Q -> is_sym T -> vec5 (cong Q T) = vec5 (cong Q (ten5 (vec5 T))).
Proof.
  intros HQ HT. rewrite (split5 T HT) at 1. rewrite SpecTensor.cong_add, SpecTensor.cong_scal, cong_b5 by exact HQ.
  generalize (cong Q (ten5 (vec5 T))) (inner T (basis 5)). intros M z.
  unfold vec5. rewrite !add3_comp.
  assert (E : forall k, (k < 5)%nat -> inner (scal3 z (basis 5)) (basis k) = 0).
  { intros k Hk. do 5 (destruct k as [|k]; [clear; specR; ring|]). lia. }
  rewrite !E by lia. rewrite !Rplus_0_r. reflexivity.
Qed.
Lemma tr_turn Q T : is_orth Q -> inner (cong Q T) (basis 5) = inner T (basis 5).
Proof. intros HQ. rewrite <- (cong_b5 Q HQ) at 1. apply cong_inner. exact HQ. Qed.

(** the stress the returned stiffness gives, as a tensor *)
Section Stiff.
  Variables (p : Prob R) (x : list R) (lu : LUSolver R) (sol mt : list R) (bulk : R) (E : M3).
  Let v := evalEv p x.
  Hypothesis HQ : List.length (pb_Cn_quat p) = 4%nat /\ norm2 (pb_Cn_quat p) = 1.
  Hypothesis HS : lu 8%nat (jacobian0 p v) (mtan_rhs_T v) 5%nat = Some sol.
  Hypothesis HM : mtan_vecds lu p x = Some mt.
  Hypothesis HE : is_sym E.
  Let y := act_y sol (vec5 E).
  Lemma stiff_act : stiff (fun r q => get (mtanSD_of p bulk mt) (6 * r + q)) E =
    ten6 (vec5 (scal3 (pb_dt_ri p) (add3 (act_A p v y) (cong (rotq (ev_C_quat v)) (ten5 (act_sig p y))))) ++
          [pb_dt_ri p * get (act_sig p y) 5 + 3 * bulk * inner E (basis 5)]).
  Proof.
    unfold mtanSD_of. rewrite conv_R by exact HE. f_equal.
    apply list_get_ext; [reflexivity|]. change (List.length (mv6 ?a ?b)) with 6%nat. intros i Hi. unfold mv6. rewrite get_tab by exact Hi.
    rewrite sum6. unfold vec6. rewrite (get_app2 (vec5 E)) by (change (List.length (vec5 E)) with 5%nat; lia). change (get [inner E (basis 5)] (5 - List.length (vec5 E))) with (inner E (basis 5)).
    set (M := upd _ _ _).
    assert (S5 : sum 5 (fun j => get2 6 M i j * get (vec5 E ++ [inner E (basis 5)]) j) = pb_dt_ri p * sum 5 (fun j => get2 6 mt i j * get (vec5 E) j)).
    { rewrite <- sum_scal_l. apply sum_ext. intros j Hj. rewrite get_app1 by (change (List.length (vec5 E)) with 5%nat; lia).
      unfold M, get2. rewrite get_upd_other by (unfold iSvecS; lia). rewrite get_tab by lia. rops. ring. }
    rewrite S5. rewrite (mt_act p x (vec5 E) lu sol mt HQ HS HM i Hi). fold v y. destruct (Nat.eqb_spec i 5).
    - subst i. rewrite (get_app2 (vec5 _)) by (change (List.length (vec5 ?a)) with 5%nat; lia).
      change (List.length (vec5 ?a)) with 5%nat. change (get [?a] (5 - 5)) with a.
      unfold M, get2. unfold iSvecS. rewrite get_upd_same by (rewrite tab_length; lia). reflexivity.
    - rewrite (get_app1 (vec5 _)) by (change (List.length (vec5 ?a)) with 5%nat; lia).
      unfold M, get2. rewrite get_upd_other by (unfold iSvecS; lia). rewrite get_tab by lia. change (get mt (i * 6 + 5)) with (get2 6 mt i 5).
      rewrite (mt_col5 lu p x mt i HM) by lia. rops.
      generalize (act_A p v y) (cong (rotq (ev_C_quat v)) (ten5 (act_sig p y))). clear - Hi n. intros A B.
      rewrite !vec5_get by lia. rewrite inner_scal_l, add3_comp. ring.
  Qed.
  Lemma A_sym : is_sym (act_A p v y).
  Proof.
    unfold act_A. cbv zeta. set (S := ten5 _). assert (HS0 : is_sym S) by apply (ten5_dev _). clearbody S.
    generalize (dR (ev_C_quat v) (act_q p v y)) (rotq (ev_C_quat v)). intros B C. clear - HS0. symc S HS0. destruct B, C. unfold is_sym. spec. meq; ring.
  Qed.
End Stiff.

Section TurnS.
  Variables (p : Prob R) (q x : list R) (lu lu' : LUSolver R) (sol sol' mt mt' : list R) (bulk : R) (E : M3).
  Hypothesis Lq : List.length q = 4%nat.
  Hypothesis Nq : SpecTensor.norm2 q = 1.
  Hypothesis HQ : List.length (pb_Cn_quat p) = 4%nat /\ SpecTensor.norm2 (pb_Cn_quat p) = 1.
  Hypothesis Ld : List.length (pb_d_vecd_sm p) = 5%nat.
  Hypothesis Lw : List.length (pb_w_veccp_sm p) = 3%nat.
  Let p' := turn_prob q p.
  Let Q := rotq q.
  Let v := evalEv p x.
  Let v' := evalEv p' x.
  Hypothesis LE : solves_exactly lu.
  Hypothesis LE' : solves_exactly lu'.
  Hypothesis HS : lu 8%nat (jacobian0 p v) (mtan_rhs_T v) 5%nat = Some sol.
  Hypothesis HS' : lu' 8%nat (jacobian0 p' v') (mtan_rhs_T v') 5%nat = Some sol'.
  Hypothesis HM : mtan_vecds lu p x = Some mt.
  Hypothesis HM' : mtan_vecds lu' p' x = Some mt'.
  Hypothesis HE : is_sym E.
  Lemma stiff_turn : stiff (fun r q => get (mtanSD_of p' bulk mt') (6 * r + q)) (cong Q E) = cong Q (stiff (fun r q => get (mtanSD_of p bulk mt) (6 * r + q)) E).
  Proof.
    assert (OQ : is_orth Q) by exact (t4_orth q Lq Nq).
    assert (HE' : is_sym (cong Q E)) by (apply SpecTensor.cong_sym; exact HE).
    rewrite (stiff_act p' x lu' sol' mt' bulk (cong Q E) (t4_HQ p q Lq Nq HQ) HS' HM' HE').
    rewrite (stiff_act p x lu sol mt bulk E HQ HS HM HE).
    rewrite (proj_turn Q E OQ HE). rewrite tr_turn by exact OQ.
    set (w := vec5 E). assert (L5 : List.length w = 5%nat) by reflexivity.
    fold v v'.
    pose proof (t4_sig p q x lu lu' sol sol' w Lq Nq HQ Ld Lw LE LE' HS HS' L5) as ES. fold Q p' in ES.
    pose proof (t4_A p q x lu lu' sol sol' w Lq Nq HQ Ld Lw LE LE' HS HS' L5) as EA. fold Q p' v v' in EA.
    pose proof (t4_C p q x Lq HQ) as EC. fold Q p' v v' in EC.
    rewrite ES, EA, EC. change (pb_dt_ri p') with (pb_dt_ri p).
    rewrite cong_mul, <- SpecTensor.cong_add, <- SpecTensor.cong_scal.
    set (T := scal3 _ _).
    assert (HT : is_sym T).
    { pose proof (A_sym p x sol E) as H1. fold v w in H1. unfold T. revert H1. generalize (act_A p v (act_y sol w)). intros A HA.
      assert (HB : is_sym (cong (rotq (ev_C_quat v)) (ten5 (act_sig p (act_y sol w))))) by (apply SpecTensor.cong_sym; apply (ten5_dev _)).
      revert HB. generalize (cong (rotq (ev_C_quat v)) (ten5 (act_sig p (act_y sol w)))). intros B HB. clear - HA HB. symc A HA. symc B HB. reflexivity. }
    rewrite (proj_turn Q T OQ HT).
    replace Q with (tr3 (tr3 Q)) by (clear; destruct Q; reflexivity). apply ten6_turn; [apply orth_tr; exact OQ|reflexivity].
  Qed.
End TurnS.

Lemma stiff_ext K K' E : (forall r q, (r < 6)%nat -> (q < 6)%nat -> K r q = K' r q) -> stiff K E = stiff K' E.
Proof.
  intros H. unfold stiff. apply sym6_ext. intros r Hr. cbn [map fold_right].
  rewrite !(H r) by lia. reflexivity.
Qed.
(** ** Whole calls *)
Section Both.
  Variables (hs : Solver R) (c : MClass R) (pars : list R) (b b' : BCall) (i i' : nat) (Q : M3).
  Hypothesis G : good hs c b.
  Hypothesis G' : good hs c b'.
  Hypothesis U : in_use c (b_s b) pars.
  Hypothesis U' : in_use c (b_s b') pars.
  Hypothesis Hi : (i < b_n b)%nat.
  Hypothesis Hi' : (i' < b_n b')%nat.
  Hypothesis HST : same_setting b b'.
  Hypothesis HT : turned_in c Q b i b' i'.
  Hypothesis Htr : trace (devRate (b_s b) (b_m b) i) = 0.
  Hypothesis Hq : norm2 (quat (b_s b) (b_m b) i) <> 0.
  Hypothesis Hq' : norm2 (quat (b_s b') (b_m b') i') <> 0.

  Theorem call_turn_tan : b_mtan b = true -> solves_exactly (b_lu b) -> solves_exactly (b_lu b') -> forall E, is_sym E ->
    stiff (tangent (b_s b') (b_m1 b') i') (cong Q E) = cong Q (stiff (tangent (b_s b) (b_m1 b) i) E).
  Proof.
    intros Hm LX1 LX2 E HE.
    destruct HST as (ES & ED & EM).
    pose proof G as (HB & _ & HO & _). pose proof G' as (_ & _ & HO' & _).
    destruct (call_parts hs c b i pars G Hi U) as (sg & kin & hi & h_u & v & nf & gm & E1 & E2 & N1 & N2 & K & HL & S & So & Rs).
    destruct (call_parts hs c b' i' pars G' Hi' U') as (sg' & kin' & hi' & h_u' & v' & nf' & gm' & E1' & E2' & N1' & N2' & K' & HL' & S' & So' & Rs').
    cbv zeta in Rs, Rs'. rewrite E1 in E1'. apply some_inj in E1'. subst sg'.
    assert (EK : kin' = kin) by (rewrite E2 in E2'; apply (f_equal (option_map fst)) in E2'; cbn [option_map fst] in E2'; clear - E2'; congruence).
    subst kin'. clear E2'.
    set (mat := mat_of c pars sg kin) in *.
    change (P_in c b i) with (P c b i) in *. change (P_in c b' i') with (P' c b' i') in *.
    change (in_cell c b i) with (C c b i) in *. change (in_cell c b' i') with (C' c b' i') in *.
    rewrite ED in Rs'. rewrite ES in Rs'.
    assert (MS : sg_nslip (m_sg mat) = c_nslip c) by exact N1. assert (MH : k_nH (m_kin mat) = c_nH c) by exact N2.
    pose proof (in_hard hs c b b' i i' Q HB HO HO' Hi Hi' HT mat MS MH) as IH.
    pose proof (in_rates hs c b b' i i' Q HB HO HO' Hi Hi' HT mat MS MH) as IR.
    assert (EU : h_u' = h_u).
    { destruct (r_updH _ _ _ _ _ _ _ _ _ _ _ _ _ _ Rs) as [n1 X1]. destruct (r_updH _ _ _ _ _ _ _ _ _ _ _ _ _ _ Rs') as [n2 X2].
      rewrite IH, IR in X2. rewrite X1 in X2. clear - X2. congruence. }
    subst h_u'.
    pose proof (pair_RJ hs c b b' i i' Q HB HO HO' Hi Hi' HT Htr Hq Hq' mat (b_dt b) MS MH h_u) as RJ.
    pose proof (pair_prob hs c b b' i i' Q HB HO HO' Hi Hi' HT Htr Hq Hq' mat (b_dt b) MS MH h_u) as EP.
    pose proof (prob_ok hs c b b' i i' HB HO Hi Hi' Hq mat (b_dt b) h_u) as (OK1 & OK2 & OK3).
    pose proof (pair_upd c b b' i i' Q HO HO' Hi Hi' HT mat MS MH) as EUp.
    set (p := prob c b i mat (b_dt b) h_u) in *.
    change (snglProb mat (b_dt b) (C c b i AD) (C c b i AW) (C c b i AV) (P c b i) h_u) with p in Rs.
    rewrite RJ in Rs'. rewrite EP in Rs'.
    set (r := b_solver b 8%nat (computeRJ p) (nth 2 pars 0) 200%nat (tab 8 (fun _ : nat => 0))) in *.
    set (q := qQ b b' i i') in *.
    assert (Lq : List.length q = 4%nat) by reflexivity.
    assert (Nq : SpecTensor.norm2 q = 1) by exact (qQ_unit b b' i i' Hq Hq').
    assert (RQ : rotq q = Q) by exact (qQ_rot c b b' i i' Q HT Hq Hq').
    set (p' := turn_prob q p) in *.
    pose proof (r_mtan _ _ _ _ _ _ _ _ _ _ _ _ _ _ Rs) as T1. pose proof (r_mtan _ _ _ _ _ _ _ _ _ _ _ _ _ _ Rs') as T2.
    assert (Q1 : exists l, pt_mtan (P c b i) = Some l) by (unfold P, pt_of, pt_at; cbn [pt_mtan]; rewrite Hm; eexists; reflexivity).
    assert (Q2 : exists l, pt_mtan (P' c b' i') = Some l) by (unfold P', pt_of, pt_at; cbn [pt_mtan]; rewrite EM, Hm; eexists; reflexivity).
    destruct Q1 as (l1 & Q1). destruct Q2 as (l2 & Q2). rewrite Q1 in T1. rewrite Q2 in T2.
    destruct T1 as (mv & T1 & O1). destruct T2 as (mv' & T2 & O2).
    assert (LU1 : exists sol, b_lu b 8%nat (jacobian0 p (evalEv p (so_x r))) (mtan_rhs_T (evalEv p (so_x r))) 5%nat = Some sol).
    { unfold mtan_vecds in T1. destruct (b_lu b 8%nat _ _ _) as [sol|]; [exists sol; reflexivity|discriminate]. }
    assert (LU2 : exists sol, b_lu b' 8%nat (jacobian0 p' (evalEv p' (so_x r))) (mtan_rhs_T (evalEv p' (so_x r))) 5%nat = Some sol).
    { unfold mtan_vecds in T2. destruct (b_lu b' 8%nat _ _ _) as [sol|]; [exists sol; reflexivity|discriminate]. }
    destruct LU1 as (sol & L1). destruct LU2 as (sol' & L2).
    pose proof (stiff_turn p q (so_x r) (b_lu b) (b_lu b') sol sol' mv mv' (u_bulkNew (snglUpd mat (C c b i AV) (pt_eInt (P c b i)) (pt_stress (P c b i)))) E Lq Nq OK1 OK2 OK3 LX1 LX2 L1 L2 T1 T2 HE) as FIN.
    fold p' in FIN. rewrite RQ in FIN. rewrite EUp in O2.
    assert (TG : forall r0 q0, (r0 < 6)%nat -> (q0 < 6)%nat -> tangent (b_s b) (b_m1 b) i r0 q0 = get (mtanSD_of p (u_bulkNew (snglUpd mat (C c b i AV) (pt_eInt (P c b i)) (pt_stress (P c b i)))) mv) (6 * r0 + q0)).
    { intros r0 q0 Hr0 Hq0. unfold tangent. rewrite (vval hs c b i G Hi) by (cbn [per_point]; rewrite Hm; lia).
      unfold P_out, pt_of, pt_at in O1. cbn [pt_mtan] in O1. rewrite Hm in O1. apply some_inj in O1. unfold cell_of. rewrite Hm, O1. reflexivity. }
    assert (TG' : forall r0 q0, (r0 < 6)%nat -> (q0 < 6)%nat -> tangent (b_s b') (b_m1 b') i' r0 q0 = get (mtanSD_of p' (u_bulkNew (snglUpd mat (C c b i AV) (pt_eInt (P c b i)) (pt_stress (P c b i)))) mv') (6 * r0 + q0)).
    { intros r0 q0 Hr0 Hq0. unfold tangent. rewrite (vval hs c b' i' G' Hi') by (cbn [per_point]; rewrite EM, Hm; lia).
      unfold P_out, pt_of, pt_at in O2. cbn [pt_mtan] in O2. rewrite EM, Hm in O2. apply some_inj in O2. unfold cell_of. rewrite EM, Hm, O2. reflexivity. }
    rewrite (stiff_ext _ _ _ TG), (stiff_ext _ _ _ TG'). exact FIN.
  Qed.
End Both.

(** the turned call succeeds with its tangent when the other one does *)
Section Success.
  Variables (hs : Solver R) (c : MClass R) (pars : list R) (b : BCall) (s' : MM R) (lu' : LUSolver R) (n' : nat) (m' : Mem R).
  Let b' := call_of c s' (b_solver b) lu' true n' (b_dt b) m'.
  Hypothesis G : good hs c b.
  Hypothesis U : in_use c (b_s b) pars.
  Hypothesis U' : in_use c s' pars.
  Hypothesis HC : mm_complete s' = true.
  Hypothesis HO' : batch_ok c s' true n' m'.
  Hypothesis HI : forall i', (i' < n')%nat -> exists i Q, (i < b_n b)%nat /\ turned_in c Q b i b' i' /\
    trace (devRate (b_s b) (b_m b) i) = 0 /\ norm2 (quat (b_s b) (b_m b) i) <> 0 /\ norm2 (quat s' m' i') <> 0.
  Hypothesis Hn : (0 < n')%nat.
  Hypothesis Hm : b_mtan b = true.
  Hypothesis HLU : forall A B B' k, b_lu b 8%nat A B k <> None -> lu' 8%nat A B' k <> None.

  Theorem turn_succeeds_t : good hs c b'.
  Proof.
    pose proof G as (HB & _ & HO & _).
    destruct (HI 0%nat Hn) as (i0 & Q0 & Hi0 & _).
    destruct (call_parts hs c b i0 pars G Hi0 U) as (sg & kin & hi & h_u & v & nf & gm & E1 & E2 & N1 & N2 & K & HL & S & So & Rs).
    cbv zeta in Rs. pose proof (r_gmod _ _ _ _ _ _ _ _ _ _ _ _ _ _ Rs) as Hg. clear h_u v nf S So Rs.
    assert (NH : c_nH c = 1%nat) by exact (nH1 hs c HB).
    assert (N2' : k_nH kin = 1%nat) by (rewrite N2; exact NH).
    apply (good_intro_t hs c s' pars HB U' HC (b_solver b) lu' n' (b_dt b) m' HO' sg kin hi E1 E2 N1 N2' gm Hg).
    intros i' Hi'. destruct (HI i' Hi') as (i & Q & Hi & HT & Htr & Hq & Hq').
    destruct (call_parts hs c b i pars G Hi U) as (sg0 & kin0 & hi0 & h_u & v & nf & gm0 & E10 & E20 & _ & _ & _ & _ & S & So & Rs).
    cbv zeta in Rs. rewrite E1 in E10. apply some_inj in E10. subst sg0.
    assert (EK : kin0 = kin) by (rewrite E2 in E20; apply (f_equal (option_map fst)) in E20; cbn [option_map fst] in E20; clear - E20; congruence).
    subst kin0. clear E20.
    set (mat := mat_of c pars sg kin) in *.
    assert (MS : sg_nslip (m_sg mat) = c_nslip c) by exact N1. assert (MH : k_nH (m_kin mat) = c_nH c) by exact N2.
    assert (HOb : batch_ok c (b_s b') (b_mtan b') (b_n b') (b_m b')) by exact HO'.
    assert (Hib : (i' < b_n b')%nat) by exact Hi'.
    assert (Hqb : norm2 (quat (b_s b') (b_m b') i') <> 0) by exact Hq'.
    pose proof (in_hard hs c b b' i i' Q HB HO HOb Hi Hib HT mat MS MH) as IH.
    pose proof (in_rates hs c b b' i i' Q HB HO HOb Hi Hib HT mat MS MH) as IR.
    pose proof (pair_RJ hs c b b' i i' Q HB HO HOb Hi Hib HT Htr Hq Hqb mat (b_dt b) MS MH h_u) as RJ.
    pose proof (pair_prob hs c b b' i i' Q HB HO HOb Hi Hib HT Htr Hq Hqb mat (b_dt b) MS MH h_u) as EP.
    pose proof (prob_ok hs c b b' i i' HB HO Hi Hib Hq mat (b_dt b) h_u) as (OK1 & OK2 & OK3).
    pose proof (pair_upd c b b' i i' Q HO HOb Hi Hib HT mat MS MH) as EUp.
    pose proof (pair_tk c b b' i i' Q HO HOb Hi Hib HT mat MS MH) as ETk.
    destruct (r_updH _ _ _ _ _ _ _ _ _ _ _ _ _ _ Rs) as [n X].
    exists h_u, n. split; [|split].
    - change (P_in c b i) with (P c b i) in X. rewrite <- IH, <- IR in X. rewrite <- X. rewrite MH, MS, NH. f_equal.
      + apply list_get_ext; [rewrite sub_length by (rewrite (len_H' hs c b' i' HB HOb Hib); unfold iHistLbH; lia); reflexivity|].
        intros k Hk. cbn [List.length] in Hk. assert (k = 0%nat) by lia. subst k. rewrite get_sub by lia.
        rewrite (get_H' hs c b' i' HB HOb Hib) by (unfold iHistLbH; lia). reflexivity.
      + apply list_get_ext; [rewrite sub_length by (rewrite (len_H' hs c b' i' HB HOb Hib); unfold iHistLbGdot, iHistLbH; lia); unfold slip_rates; now rewrite map_length, seq_length|].
        intros k Hk. unfold slip_rates in Hk. rewrite map_length, seq_length in Hk. rewrite get_sub by lia.
        change (slip_rates c s' m' i') with (tab (c_nslip c) (fun k => val s' m' AH i' (14 + k))). rewrite get_tab by lia.
        rewrite (get_H' hs c b' i' HB HOb Hib) by (unfold iHistLbGdot, iHistLbH; lia). reflexivity.
    - pose proof (r_valsOk _ _ _ _ _ _ _ _ _ _ _ _ _ _ Rs) as VK.
      change (P_in c b i) with (P c b i) in VK. change (in_cell c b i) with (C c b i) in VK. rewrite <- EUp, <- ETk in VK. exact VK.
    - pose proof (r_conv _ _ _ _ _ _ _ _ _ _ _ _ _ _ Rs) as VK.
      pose proof (r_mtan _ _ _ _ _ _ _ _ _ _ _ _ _ _ Rs) as T1.
      change (P_in c b i) with (P c b i) in VK, T1. change (in_cell c b i) with (C c b i) in VK, T1.
      assert (Q1 : exists l, pt_mtan (P c b i) = Some l) by (unfold P, pt_of, pt_at; cbn [pt_mtan]; rewrite Hm; eexists; reflexivity).
      destruct Q1 as (l1 & Q1). rewrite Q1 in T1. destruct T1 as (mv & T1 & _).
      change (snglProb mat (b_dt b) (C c b i AD) (C c b i AW) (C c b i AV) (P c b i) h_u) with (prob c b i mat (b_dt b) h_u) in VK, T1.
      set (p := prob c b i mat (b_dt b) h_u) in *.
      set (p' := snglProb mat (b_dt b) (C' c b' i' AD) (C' c b' i' AW) (C' c b' i' AV) (P' c b' i') h_u) in *.
      cbv zeta. change (so_converged (b_solver b 8%nat (computeRJ p') (nth 2 pars 0) 200%nat (tab 8 (fun _ => 0))) = true /\
        mtan_vecds lu' p' (so_x (b_solver b 8%nat (computeRJ p') (nth 2 pars 0) 200%nat (tab 8 (fun _ => 0)))) <> None).
      rewrite RJ. split; [exact VK|].
      set (r := b_solver b 8%nat (computeRJ p) (nth 2 pars 0) 200%nat (tab 8 (fun _ => 0))) in *.
      assert (LU1 : b_lu b 8%nat (jacobian0 p (evalEv p (so_x r))) (mtan_rhs_T (evalEv p (so_x r))) 5%nat <> None).
      { intros Z. unfold mtan_vecds in T1. rewrite Z in T1. discriminate. }
      assert (EJ : jacobian0 p' (evalEv p' (so_x r)) = jacobian0 p (evalEv p (so_x r))).
      { rewrite EP. apply turn_jac0; [reflexivity|exact (qQ_unit b b' i i' Hq Hqb)|exact OK1|exact OK2|exact OK3]. }
      rewrite <- EJ in LU1. apply (HLU _ _ (mtan_rhs_T (evalEv p' (so_x r)))) in LU1.
      unfold mtan_vecds. destruct (lu' 8%nat _ _ _) as [sol|]; [|congruence]. destruct (dxi_parts p' _) as [[? ?] ?]. discriminate.
  Qed.
End Success.
