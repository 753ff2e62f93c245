(** Whole calls for equivalent orientations: what they read (C22). *)
From Coq Require Import List ZArith Bool Lia PeanoNat Reals Lra String.
From Verif Require Import P_Demo.
From Verif Require Import Num Arr NumR Util SlipGeom Eos Hard KinVoce KinKMBalD Elast Evptn MatModel Cases SpecTensor
  SpecElast SpecSlip P_Tensor P_Elast P_Eos P_Sngl P_Sngl2 P_Sngl3 P_Batch P_Batch2 P_Batch3 P_Batch4 P_Api P_Builtin SpecApi P_Hist SpecStress P_Stress
  SpecKin SpecKinApi SpecStep P_KinV P_Kin4 P_Call P_Slip P_SlipH P_Step P_Step2 P_Energy P_Rigid3 P_Demo3 P_Deriv P_Jac P_Jac2 SpecJac SpecFrame P_Frame P_Frame2
  SpecSym P_Sym P_Sym1 P_Sym2 P_Sym3 P_Sym4 P_Sym5 P_Sym6.
Import ListNotations.
Local Open Scope R_scope.

Lemma conj4_right u : List.length u = 4%nat -> SpecTensor.norm2 u = 1 -> quat_prod u (conj4 u) = [1; 0; 0; 0].
Proof.
  intros L N. explode u. unfold SpecTensor.norm2 in *. cbn [fold_right] in N. unfold conj4. cbn [nth].
  rewrite qp_form. f_equal; [rewrite <- N; ring|]. f_equal; [ring|]. f_equal; [ring|]. f_equal; ring.
Qed.
Lemma one_qp a : List.length a = 4%nat -> quat_prod [1; 0; 0; 0] a = a.
Proof. intros L. explode a. rewrite qp_form. repeat (f_equal; [ring|]). f_equal; ring. Qed.
Lemma sym6_inj (f g : nat -> R) : sym6 f = sym6 g -> forall k, (k < 6)%nat -> f k = g k.
Proof. unfold sym6. intros E. injection E. intros. destruct k as [|[|[|[|[|[|]]]]]]; (assumption || congruence || lia). Qed.
Lemma svec_ext (a b : list R) : (forall k, (k < 6)%nat -> get a k = get b k) -> svecToVecd a = svecToVecd b.
Proof. intros H. unfold svecToVecd. rewrite !H by lia. reflexivity. Qed.

Lemma updH_sym hs c P kin hi n sg ep h dt g g' : builtin hs c -> c_kinSet c P = Some (kin, hi) -> n = c_nslip c ->
  renumbers n sg -> (forall k, (k < n)%nat -> ep k = 1 \/ ep k = -1) -> (forall k, (k < n)%nat -> get g' (sg k) = ep k * get g k) ->
  k_updateH kin h dt g' = k_updateH kin h dt g.
Proof.
  intros HB HK En [R1 R2] Hep Hg.
  assert (E : vecsssumabs n g' = vecsssumabs n g).
  { unfold vecsssumabs. rewrite <- (sum_perm n sg (fun k => nabs (get g' k)) R1 R2). apply sum_ext. intros k Hk. rewrite (Hg k Hk). rops. rewrite Rabs_mult.
    destruct (Hep k Hk) as [E|E]; rewrite E; [rewrite Rabs_R1|replace (-1) with (- (1)) by ring; rewrite Rabs_Ropp, Rabs_R1]; ring. }
  assert (V : forall nl, c_kinSet c = kinVoce hs nl n -> k_updateH kin h dt g' = k_updateH kin h dt g).
  { intros nl EK. rewrite EK in HK. apply (f_equal (option_map fst)) in HK. cbn [kinVoce option_map fst] in HK. apply some_inj in HK. subst kin.
    cbn [voce_kinetics k_updateH]. unfold voce_updateH, voce_getEvolVals. rewrite E. reflexivity. }
  assert (M : forall ga p1 q1 per nv, c_kinSet c = kinKM hs ga p1 q1 per nv n -> k_updateH kin h dt g' = k_updateH kin h dt g).
  { intros ga p1 q1 per nv EK. rewrite EK in HK. unfold kinKM in HK. destruct (_ && _); [|discriminate]. apply (f_equal (option_map fst)) in HK. cbn [option_map fst] in HK. apply some_inj in HK. subst kin.
    cbn [km_kinetics k_updateH]. unfold km_updateH, km_getEvolVals. rewrite E. reflexivity. }
  subst n. destruct HB as [ X | [ X | [ X | [ X | [ X | [ X | X ]]]]]]; try contradiction; rewrite X in *;
    first [apply (V false); reflexivity | apply (V true); reflexivity | eapply M; reflexivity].
Qed.

Section Pair.
  Variables (hs : Solver R) (c : MClass R) (pars : list R) (b b' : BCall) (i i' : nat) (S : M3) (sg : nat -> nat) (ep : nat -> R).
  Hypothesis HB : builtin hs c.
  Hypothesis HO : batch_ok c (b_s b) (b_mtan b) (b_n b) (b_m b).
  Hypothesis HO' : batch_ok c (b_s b') (b_mtan b') (b_n b') (b_m b').
  Hypothesis Hi : (i < b_n b)%nat.
  Hypothesis Hi' : (i' < b_n b')%nat.
  Hypothesis HE : equivalent_in c S sg ep b i b' i'.
  Hypothesis Hsg : renumbers (c_nslip c) sg.
  Hypothesis Hq : norm2 (quat (b_s b) (b_m b) i) <> 0.
  Hypothesis Hq' : norm2 (quat (b_s b') (b_m b') i') <> 0.
  Definition qS := quat_prod (conj4 (uq b i)) (uq b' i').
  Lemma qS_unit : SpecTensor.norm2 qS = 1.
  Proof.
    destruct (uq_unit b i Hq) as [L N]. destruct (uq_unit b' i' Hq') as [L' N']. destruct (conj4_facts _ L N) as (N1 & _).
    unfold qS. rewrite norm2_prod by (assumption || reflexivity). rewrite N', N1. ring.
  Qed.
  Lemma qS_u : quat_prod (uq b i) qS = uq b' i'.
  Proof.
    destruct (uq_unit b i Hq) as [L N]. destruct (uq_unit b' i' Hq') as [L' N'].
    unfold qS. rewrite qp_assoc by (assumption || reflexivity). rewrite conj4_right by assumption. now apply one_qp.
  Qed.
  Lemma qS_rot : rotq qS = S.
  Proof.
    destruct (uq_unit b i Hq) as [L N]. destruct (uq_unit b' i' Hq') as [L' N']. destruct (conj4_facts _ L N) as (_ & _ & N3).
    destruct HE as (_ & _ & _ & (C & R1 & R2) & _).
    apply rotates_rotq in R1; [|exact L]. apply rotates_rotq in R2; [|exact L'].
    unfold qS. rewrite rotq_prod by (assumption || reflexivity). rewrite N3.
    change (rotq (uq b' i')) with (rotq (unit4 (quat (b_s b') (b_m b') i'))). rewrite <- R2. rewrite R1. change (unit4 (quat (b_s b) (b_m b) i)) with (uq b i).
    rewrite <- mul3_assoc. destruct (rotq_rot (uq b i) L N) as [[_ O] _]. rewrite O. apply SpecTensor.mul3_1l.
  Qed.
  Lemma S_is_rot : is_rot S.
  Proof. rewrite <- qS_rot. apply rotq_rot; [reflexivity|exact qS_unit]. Qed.
  Lemma pr_d : svecToVecd (C c b' i' AD) = svecToVecd (C c b i AD).
  Proof.
    apply svec_ext. apply sym6_inj. rewrite (dev_cell c b b' i i' HO Hi Hi'). refine (eq_trans (dev_cell' c b b' i i' HO' Hi Hi') _).
    exact (proj1 HE).
  Qed.
  Lemma pr_w : C c b' i' AW = C c b i AW.
  Proof.
    rewrite (w_cell c b b' i i' HO Hi Hi'). refine (eq_trans (w_cell' c b b' i i' HO' Hi Hi') _). destruct HE as (_ & E & _). rewrite E. reflexivity.
  Qed.
  Lemma pr_V k : (k < 4)%nat -> get (C c b' i' AV) k = get (C c b i AV) k.
  Proof.
    intros Hk. unfold C. rewrite (cin c b i HO Hi), (cin c b' i' HO' Hi') by (cbn [per_point]; exact Hk).
    destruct HE as (_ & _ & _ & _ & TV & _). now apply TV.
  Qed.
  Lemma pr_E : get (pt_eInt (P c b' i')) 0 = get (pt_eInt (P c b i)) 0.
  Proof.
    change (get (C c b' i' AE) 0 = get (C c b i AE) 0). unfold C. rewrite (cin c b i HO Hi), (cin c b' i' HO' Hi') by (cbn [per_point]; lia).
    destruct HE as (_ & _ & _ & _ & _ & TE & _). exact TE.
  Qed.
  Lemma pr_S : get (pt_stress (P c b' i')) 6 = get (pt_stress (P c b i)) 6.
  Proof.
    change (get (C c b' i' AS) 6 = get (C c b i AS) 6). unfold C. rewrite (cin c b i HO Hi), (cin c b' i' HO' Hi') by (cbn [per_point]; lia).
    destruct HE as (_ & _ & _ & _ & _ & _ & TP & _). exact TP.
  Qed.
  Lemma pr_sub (bb : BCall) (ii : nat) (j n : nat) : batch_ok c (b_s bb) (b_mtan bb) (b_n bb) (b_m bb) -> (ii < b_n bb)%nat -> (j + n <= 14 + c_nslip c)%nat ->
    sub (pt_hist (P c bb ii)) j n = tab n (fun k => val (b_s bb) (b_m bb) AH ii (j + k)).
  Proof.
    intros HOb Hib H1. apply list_get_ext; [rewrite sub_length by (rewrite (len_H hs c bb ii HB HOb Hib); exact H1); rewrite tab_length; reflexivity|].
    intros k Hk. rewrite sub_length in Hk by (rewrite (len_H hs c bb ii HB HOb Hib); exact H1). rewrite get_sub, get_tab by exact Hk.
    apply (get_H hs c bb ii HB HOb Hib). lia.
  Qed.
  Lemma pr_e : sub (pt_hist (P c b' i')) iHistLbE 5 = vec5 (cong (tr3 S) (ten5 (sub (pt_hist (P c b i)) iHistLbE 5))).
  Proof.
    rewrite (pr_sub b i), (pr_sub b' i') by (assumption || (unfold iHistLbE; lia)).
    destruct HE as (_ & _ & _ & _ & _ & _ & _ & _ & E & _). change (ten5 (tab 5 (fun k => val (b_s b) (b_m b) AH i (iHistLbE + k)))) with (dev_strain (b_s b) (b_m b) i).
    rewrite <- E. symmetry. apply vec5_ten5. reflexivity.
  Qed.
  Lemma pr_h : sub (pt_hist (P c b' i')) iHistLbH 1 = sub (pt_hist (P c b i)) iHistLbH 1.
  Proof.
    rewrite (pr_sub b i), (pr_sub b' i') by (assumption || (unfold iHistLbH; lia)). apply tab_ext. intros k Hk. assert (k = 0%nat) by lia. subst k.
    destruct HE as (_ & _ & _ & _ & _ & _ & _ & E & _). apply E. right. reflexivity.
  Qed.
  Lemma pr_g k : (k < c_nslip c)%nat -> get (sub (pt_hist (P c b' i')) (iHistLbGdot 1) (c_nslip c)) (sg k) = ep k * get (sub (pt_hist (P c b i)) (iHistLbGdot 1) (c_nslip c)) k.
  Proof.
    intros Hk. rewrite (pr_sub b i), (pr_sub b' i') by (assumption || (unfold iHistLbGdot, iHistLbH; lia)). rewrite !get_tab by (try apply Hsg; assumption).
    destruct HE as (_ & _ & _ & _ & _ & _ & _ & _ & _ & E). apply E. exact Hk.
  Qed.
  Lemma pr_Q : snglQuatN (pt_hist (P c b' i')) = quat_prod (snglQuatN (pt_hist (P c b i))) qS.
  Proof. rewrite (qn hs c b b' i i' HB HO Hi Hi'), qS_u. exact (qn' hs c b b' i i' HB HO' Hi Hi'). Qed.
  Lemma pr_upd mat : snglUpd mat (C c b' i' AV) (pt_eInt (P c b' i')) (pt_stress (P c b' i')) = snglUpd mat (C c b i AV) (pt_eInt (P c b i)) (pt_stress (P c b i)).
  Proof. apply upd_turn; [apply pr_V; lia|apply pr_V; lia|exact pr_E|exact pr_S]. Qed.
  Lemma pr_tk mat : snglTkelv mat (C c b' i' AV) (pt_eInt (P c b' i')) = snglTkelv mat (C c b i AV) (pt_eInt (P c b i)).
  Proof. apply tk_turn; [apply pr_V; lia|exact pr_E]. Qed.
  Lemma pr_prob mat dt h : snglProb mat dt (C c b' i' AD) (C c b' i' AW) (C c b' i' AV) (P c b' i') h = sym_prob qS (prob c b i mat dt h).
  Proof.
    unfold prob, snglProb. rewrite pr_upd, pr_tk, pr_d, pr_w, pr_e, pr_Q, (pr_V 1) by lia. rewrite <- qS_rot. reflexivity.
  Qed.
End Pair.
