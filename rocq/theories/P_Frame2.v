(** Frame indifference of whole calls (C21). *)
From Coq Require Import List ZArith Bool Lia PeanoNat Reals Lra String.
From Verif Require Import P_Demo.
From Verif Require Import Num Arr NumR Util SlipGeom Eos Hard KinVoce KinKMBalD Elast Evptn MatModel Cases SpecTensor
  SpecElast SpecSlip P_Tensor P_Elast P_Eos P_Sngl P_Sngl2 P_Sngl3 P_Batch P_Batch2 P_Batch3 P_Batch4 P_Api P_Builtin SpecApi P_Hist SpecStress P_Stress
  SpecKin SpecKinApi SpecStep P_Call P_Step P_Step2 P_Energy P_Rigid3 P_Demo3 SpecFrame P_Frame.
Import ListNotations.
Local Open Scope R_scope.

Definition conj4 (q : list R) : list R := [nth 0 q 0; - nth 1 q 0; - nth 2 q 0; - nth 3 q 0].
Lemma conj4_facts u : List.length u = 4%nat -> SpecTensor.norm2 u = 1 ->
  SpecTensor.norm2 (conj4 u) = 1 /\ quat_prod (conj4 u) u = [1; 0; 0; 0] /\ rotq (conj4 u) = tr3 (rotq u).
Proof.
  intros L N. explode u. unfold SpecTensor.norm2 in *. cbn [fold_right] in N. unfold conj4. cbn [nth fold_right].
  split; [|split].
  - rewrite <- N. ring.
  - rewrite qp_form. f_equal; [rewrite <- N; ring|]. f_equal; [ring|]. f_equal; [ring|]. f_equal; ring.
  - rewrite !rotq_form. unfold tr3. cbn [a00 a01 a02 a10 a11 a12 a20 a21 a22]. f_equal; ring.
Qed.
Lemma qp_one a : List.length a = 4%nat -> quat_prod a [1; 0; 0; 0] = a.
Proof. intros L. explode a. rewrite qp_form. repeat (f_equal; [ring|]). f_equal; ring. Qed.
Lemma sym6_ext f g : (forall k, (k < 6)%nat -> f k = g k) -> sym6 f = sym6 g.
Proof. intros H. unfold sym6. rewrite !H by lia. reflexivity. Qed.

Section Pair.
  Variables (hs : Solver R) (c : MClass R) (pars : list R) (b b' : BCall) (i i' : nat) (Q : M3).
  Hypothesis HB : builtin hs c.
  Hypothesis HO : batch_ok c (b_s b) (b_mtan b) (b_n b) (b_m b).
  Hypothesis HO' : batch_ok c (b_s b') (b_mtan b') (b_n b') (b_m b').
  Hypothesis Hi : (i < b_n b)%nat.
  Hypothesis Hi' : (i' < b_n b')%nat.
  Hypothesis HM : b_mtan b' = b_mtan b.
  Hypothesis HT : turned_in c Q b i b' i'.
  Hypothesis Htr : trace (devRate (b_s b) (b_m b) i) = 0.
  Hypothesis Hq : norm2 (quat (b_s b) (b_m b) i) <> 0.
  Hypothesis Hq' : norm2 (quat (b_s b') (b_m b') i') <> 0.
  Let s := b_s b. Let m := b_m b. Let s' := b_s b'. Let m' := b_m b'.
  Definition uq := unit4 (quat s m i).
  Definition uq' := unit4 (quat s' m' i').
  Definition qQ := quat_prod uq' (conj4 uq).
  Lemma uq_unit : List.length uq = 4%nat /\ SpecTensor.norm2 uq = 1.
  Proof. apply unit4_unit; [reflexivity|exact Hq]. Qed.
  Lemma uq_unit' : List.length uq' = 4%nat /\ SpecTensor.norm2 uq' = 1.
  Proof. apply unit4_unit; [reflexivity|exact Hq']. Qed.
  Lemma qQ_len : List.length qQ = 4%nat. Proof. reflexivity. Qed.
  Lemma qQ_unit : SpecTensor.norm2 qQ = 1.
  Proof.
    destruct uq_unit as [L N]. destruct uq_unit' as [L' N']. destruct (conj4_facts uq L N) as (N1 & _).
    unfold qQ. rewrite norm2_prod by (assumption || reflexivity). rewrite N', N1. ring.
  Qed.
  Lemma qQ_u : quat_prod qQ uq = uq'.
  Proof.
    destruct uq_unit as [L N]. destruct uq_unit' as [L' N']. destruct (conj4_facts uq L N) as (_ & N2 & _).
    unfold qQ. rewrite <- qp_assoc by (assumption || reflexivity). rewrite N2. now apply qp_one.
  Qed.
  Lemma qQ_rot : rotq qQ = Q.
  Proof.
    destruct uq_unit as [L N]. destruct uq_unit' as [L' N']. destruct (conj4_facts uq L N) as (_ & _ & N3).
    destruct HT as (_ & _ & _ & (C & R1 & R2) & _).
    apply rotates_rotq in R1; [|exact L]. apply rotates_rotq in R2; [|exact L'].
    unfold qQ. rewrite rotq_prod by (assumption || reflexivity). rewrite N3.
    fold s m s' m' in R1, R2. change (unit4 (quat s' m' i')) with uq' in R2. change (unit4 (quat s m i)) with uq in R1.
    rewrite <- R2, R1. rewrite mul3_assoc. destruct (rotq_rot uq L N) as [[O _] _]. rewrite O. apply mul3_1r.
  Qed.
  Lemma cin a k : (k < per_point (c_nH c) (c_nslip c) (b_mtan b) a)%nat -> get (cell_of c s (b_mtan b) m a i) k = val s m a i k.
  Proof. intros H. apply (cell_val c s (b_mtan b) (b_n b) m a i k); [apply HO|exact Hi|exact H]. Qed.
  Lemma cin' a k : (k < per_point (c_nH c) (c_nslip c) (b_mtan b') a)%nat -> get (cell_of c s' (b_mtan b') m' a i') k = val s' m' a i' k.
  Proof. intros H. apply (cell_val c s' (b_mtan b') (b_n b') m' a i' k); [apply HO'|exact Hi'|exact H]. Qed.
  Definition C a := cell_of c s (b_mtan b) m a i.
  Definition C' a := cell_of c s' (b_mtan b') m' a i'.
  Definition P := pt_of c s (b_mtan b) m i.
  Definition P' := pt_of c s' (b_mtan b') m' i'.
  Lemma nH1 : c_nH c = 1%nat.
  Proof. clear -HB. destruct HB as [ -> | [ -> | [ -> | [ -> | [ -> | [ -> | -> ]]]]]]; reflexivity. Qed.
  Lemma dev_cell : sym6 (get (C AD)) = devRate s m i.
  Proof. apply sym6_ext. intros k Hk. apply cin. cbn [per_point]. lia. Qed.
  Lemma dev_cell' : sym6 (get (C' AD)) = devRate s' m' i'.
  Proof. apply sym6_ext. intros k Hk. apply cin'. cbn [per_point]. lia. Qed.
  Lemma Q_orth : is_orth Q.
  Proof. rewrite <- qQ_rot. apply rotq_rot; [reflexivity|exact qQ_unit]. Qed.
  Lemma dR_dev : is_dev (devRate s m i). Proof. split; [reflexivity|exact Htr]. Qed.
  Lemma in_d : svecToVecd (C' AD) = vec5 (cong (rotq qQ) (ten5 (svecToVecd (C AD)))).
  Proof.
    destruct HT as (T1 & _). fold s m s' m' in T1.
    assert (E : svecToVecd (C AD) = vec5 (devRate s m i)) by (rewrite <- dev_cell; apply svec_vec5; rewrite dev_cell; exact Htr).
    assert (E' : svecToVecd (C' AD) = vec5 (devRate s' m' i')).
    { rewrite <- dev_cell'; apply svec_vec5; rewrite dev_cell', T1. rewrite cong_trace by exact Q_orth. exact Htr. }
    rewrite E, E', T1, qQ_rot. rewrite SpecTensor.ten5_vec5 by exact dR_dev. reflexivity.
  Qed.
  Lemma w_cell : C AW = ofV3 (spin s m i).
  Proof.
    apply list_get_ext; [unfold C; rewrite (cell_len c (b_mtan b) s (b_n b)) by assumption; reflexivity|].
    intros k Hk. unfold C in *. rewrite (cell_len c (b_mtan b) s (b_n b)) in Hk by assumption. cbn [per_point] in Hk.
    rewrite cin by exact Hk. do 3 (destruct k as [|k]; [reflexivity|]). lia.
  Qed.
  Lemma w_cell' : C' AW = ofV3 (spin s' m' i').
  Proof.
    apply list_get_ext; [unfold C'; rewrite (cell_len c (b_mtan b') s' (b_n b')) by assumption; reflexivity|].
    intros k Hk. unfold C' in *. rewrite (cell_len c (b_mtan b') s' (b_n b')) in Hk by assumption. cbn [per_point] in Hk.
    rewrite cin' by exact Hk. do 3 (destruct k as [|k]; [reflexivity|]). lia.
  Qed.
  Lemma in_w : C' AW = ofV3 (mulv (rotq qQ) (toV3 (C AW))).
  Proof.
    destruct HT as (_ & T2 & _). fold s m s' m' in T2. rewrite w_cell', T2, qQ_rot, w_cell.
    destruct (spin s m i) as [x y z]. reflexivity.
  Qed.
  Lemma in_V k : (k < 4)%nat -> get (C' AV) k = get (C AV) k.
  Proof.
    intros Hk. unfold C, C'. rewrite cin, cin' by (cbn [per_point]; exact Hk).
    destruct HT as (_ & _ & _ & _ & TV & _). now apply TV.
  Qed.
  Lemma in_E : get (pt_eInt P') 0 = get (pt_eInt P) 0.
  Proof.
    change (get (C' AE) 0 = get (C AE) 0). unfold C, C'. rewrite cin, cin' by (cbn [per_point]; lia).
    destruct HT as (_ & _ & _ & _ & _ & TE & _). exact TE.
  Qed.
  Lemma in_S : get (pt_stress P') 6 = get (pt_stress P) 6.
  Proof.
    change (get (C' AS) 6 = get (C AS) 6). unfold C, C'. rewrite cin, cin' by (cbn [per_point]; lia).
    destruct HT as (_ & _ & _ & _ & _ & _ & TP & _). exact TP.
  Qed.
  Lemma len_H : List.length (pt_hist P) = (14 + c_nslip c)%nat.
  Proof.
    change (List.length (C AH) = (14 + c_nslip c)%nat). unfold C. rewrite (cell_len c (b_mtan b) s (b_n b)) by assumption.
    cbn [per_point]. unfold numHist, iHistLbH. rewrite nH1. reflexivity.
  Qed.
  Lemma len_H' : List.length (pt_hist P') = (14 + c_nslip c)%nat.
  Proof.
    change (List.length (C' AH) = (14 + c_nslip c)%nat). unfold C'. rewrite (cell_len c (b_mtan b') s' (b_n b')) by assumption.
    cbn [per_point]. unfold numHist, iHistLbH. rewrite nH1. reflexivity.
  Qed.
  Lemma get_H k : (k < 14 + c_nslip c)%nat -> get (pt_hist P) k = val s m AH i k.
  Proof. intros Hk. change (get (C AH) k = val s m AH i k). unfold C. apply cin. cbn [per_point]. unfold numHist, iHistLbH. rewrite nH1. exact Hk. Qed.
  Lemma get_H' k : (k < 14 + c_nslip c)%nat -> get (pt_hist P') k = val s' m' AH i' k.
  Proof. intros Hk. change (get (C' AH) k = val s' m' AH i' k). unfold C'. apply cin'. cbn [per_point]. unfold numHist, iHistLbH. rewrite nH1. exact Hk. Qed.
  Lemma in_H j n : (j + n <= 14 + c_nslip c)%nat -> (j + n <= 9 \/ 13 <= j)%nat -> sub (pt_hist P') j n = sub (pt_hist P) j n.
  Proof.
    intros H1 H2. apply list_get_ext; [rewrite !sub_length by (rewrite ?len_H, ?len_H'; exact H1); reflexivity|].
    intros k Hk. rewrite sub_length in Hk by (rewrite len_H'; exact H1). rewrite !get_sub by exact Hk.
    rewrite get_H, get_H' by lia. destruct HT as (_ & _ & _ & _ & _ & _ & _ & TH). apply TH; lia.
  Qed.
  Lemma quat_cell : sub (pt_hist P) iHistLbQ 4 = quat s m i.
  Proof.
    apply list_get_ext; [rewrite sub_length by (rewrite len_H; unfold iHistLbQ; lia); reflexivity|].
    intros k Hk. rewrite sub_length in Hk by (rewrite len_H; unfold iHistLbQ; lia). rewrite get_sub by exact Hk.
    rewrite get_H by (unfold iHistLbQ; lia). unfold quat. do 4 (destruct k as [|k]; [reflexivity|]). lia.
  Qed.
  Lemma quat_cell' : sub (pt_hist P') iHistLbQ 4 = quat s' m' i'.
  Proof.
    apply list_get_ext; [rewrite sub_length by (rewrite len_H'; unfold iHistLbQ; lia); reflexivity|].
    intros k Hk. rewrite sub_length in Hk by (rewrite len_H'; unfold iHistLbQ; lia). rewrite get_sub by exact Hk.
    rewrite get_H' by (unfold iHistLbQ; lia). unfold quat. do 4 (destruct k as [|k]; [reflexivity|]). lia.
  Qed.
  Lemma qn : snglQuatN (pt_hist P) = uq.
  Proof. unfold snglQuatN. rewrite quat_cell. apply normalize_unit4. reflexivity. Qed.
  Lemma qn' : snglQuatN (pt_hist P') = uq'.
  Proof. unfold snglQuatN. rewrite quat_cell'. apply normalize_unit4. reflexivity. Qed.
  Lemma in_Q : snglQuatN (pt_hist P') = quat_prod qQ (snglQuatN (pt_hist P)).
  Proof. rewrite qn, qn'. symmetry. exact qQ_u. Qed.

  Section Mats.
    Variables (mat : Mat R) (dt : R).
    Hypothesis MS : sg_nslip (m_sg mat) = c_nslip c.
    Hypothesis MH : k_nH (m_kin mat) = c_nH c.
    Lemma in_hard : sub (pt_hist P') iHistLbH (k_nH (m_kin mat)) = sub (pt_hist P) iHistLbH (k_nH (m_kin mat)).
    Proof. rewrite MH, nH1. apply in_H; unfold iHistLbH; lia. Qed.
    Lemma in_rates : sub (pt_hist P') (iHistLbGdot (k_nH (m_kin mat))) (sg_nslip (m_sg mat)) = sub (pt_hist P) (iHistLbGdot (k_nH (m_kin mat))) (sg_nslip (m_sg mat)).
    Proof. rewrite MH, MS, nH1. apply in_H; unfold iHistLbGdot, iHistLbH; lia. Qed.
    Lemma pair_upd : snglUpd mat (C' AV) (pt_eInt P') (pt_stress P') = snglUpd mat (C AV) (pt_eInt P) (pt_stress P).
    Proof. apply upd_turn; [apply in_V; lia|apply in_V; lia|exact in_E|exact in_S]. Qed.
    Lemma pair_tk : snglTkelv mat (C' AV) (pt_eInt P') = snglTkelv mat (C AV) (pt_eInt P).
    Proof. apply tk_turn; [apply in_V; lia|exact in_E]. Qed.
    Definition prob h := snglProb mat dt (C AD) (C AW) (C AV) P h.
    Lemma pair_prob h : snglProb mat dt (C' AD) (C' AW) (C' AV) P' h = turn_prob qQ (prob h).
    Proof.
      apply (prob_turn mat dt qQ (C AD) (C' AD) (C AW) (C' AW) (C AV) (C' AV) P P' qQ_len qQ_unit in_d in_w
        (in_V 0 ltac:(lia)) (in_V 1 ltac:(lia)) (in_V 3 ltac:(lia)) in_E in_S).
      - apply in_H; unfold iHistLbE; lia.
      - exact in_Q.
    Qed.
    Lemma prob_ok h : (List.length (pb_Cn_quat (prob h)) = 4%nat /\ SpecTensor.norm2 (pb_Cn_quat (prob h)) = 1) /\
      List.length (pb_d_vecd_sm (prob h)) = 5%nat /\ List.length (pb_w_veccp_sm (prob h)) = 3%nat.
    Proof.
      assert (E : pb_Cn_quat (prob h) = uq) by (change (snglQuatN (pt_hist P) = uq); exact qn).
      rewrite E. split; [exact uq_unit|]. split; [reflexivity|].
      change (List.length (C AW) = 3%nat). rewrite w_cell. reflexivity.
    Qed.
    Lemma pair_RJ h : computeRJ (snglProb mat dt (C' AD) (C' AW) (C' AV) P' h) = computeRJ (prob h).
    Proof.
      rewrite pair_prob. destruct (prob_ok h) as (H1 & H2 & H3). exact (turn_RJ (prob h) qQ qQ_len qQ_unit H1 H2 H3).
    Qed.
  End Mats.
End Pair.
