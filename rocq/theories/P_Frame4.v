(** Frame change: the tangent (C21), one crystal update. *)
From Coq Require Import List ZArith Bool Lia PeanoNat Reals Lra.
From Coquelicot Require Import Coquelicot.
From Verif Require Import Num Arr NumR Util SlipGeom Hard Elast Evptn MatModel SpecTensor P_Tensor P_Deriv P_Jac P_Latop P_Stress SpecApi SpecStep P_Step P_Jac2 P_Eos P_Sngl2 SpecTan P_Tan P_Frame.
Import ListNotations.
Local Open Scope R_scope.

Lemma sum6 (f : nat -> R) : sum 6 f = sum 5 f + f 5%nat.
Proof. apply sum_S_R. Qed.

(** ** What the tangent does with a direction *)
Section Act.
  Variables (p : Prob R) (x : list R) (w : list R) (lu : LUSolver R) (sol mt : list R).
  Let v := evalEv p x.
  Hypothesis HQ : List.length (pb_Cn_quat p) = 4%nat /\ norm2 (pb_Cn_quat p) = 1.
  Hypothesis HS : lu 8%nat (jacobian0 p v) (mtan_rhs_T v) 5%nat = Some sol.
  Hypothesis HM : mtan_vecds lu p x = Some mt.
  Definition act_y (sol w : list R) (q : nat) : R := sum 5 (fun j => get2 8 sol j q * get w j).
  Let y := act_y sol w.
  Definition act_sig (p : Prob R) (y : nat -> R) : list R :=
    tab 6 (fun k => if Nat.eqb k 5 then (if el_hex (pb_el p) then pb_detV_ri p * pb_a_V_ri p * el_K_sdax3 (pb_el p) * y 1%nat else 0)
      else pb_detV_ri p * pb_a_V_ri p * get (el_K_diag (pb_el p)) k * y k).
  Definition act_q (p : Prob R) (v : Ev R) (y : nat -> R) : list R :=
    tab 4 (fun q => sum 3 (fun e => get2 4 (fst (fst (dxi_parts p v))) e q * y (5 + e)%nat)).
  Definition act_A (p : Prob R) (v : Ev R) (y : nat -> R) : M3 :=
    let C := rotq (ev_C_quat v) in let B := dR (ev_C_quat v) (act_q p v y) in let S := ten5 (el_getCauchy (ev_T v) (pb_detV_ri p)) in
    add3 (mul3 (mul3 B S) (tr3 C)) (mul3 (mul3 C S) (tr3 B)).
  Lemma mt_act i : (i < 6)%nat -> sum 5 (fun j => get2 6 mt i j * get w j) =
    if Nat.eqb i 5 then get (act_sig p y) 5 else get (vec5 (act_A p v y)) i + get (vec5 (cong (rotq (ev_C_quat v)) (ten5 (act_sig p y)))) i.
  Proof.
    intros Hi. unfold mtan_vecds in HM. fold v in HM. rewrite HS in HM.
    destruct (dxi_parts p v) as [[dCq x1] x2] eqn:EP.
    cbv zeta in HM. apply (f_equal (fun o => match o with Some l => l | None => [] end)) in HM. cbv beta iota in HM.
    set (temp := el_multCauchyDif _ _ _ _) in HM. set (m0 := qr6x6_pre_mul _ _ _) in HM.
    set (dCI := tab2 4 5 _) in HM. set (dS := vecsMAB 5 4 9 _ _) in HM. rewrite <- HM. clear HM.
    assert (TM : forall q, (q < 6)%nat -> sum 5 (fun j => get2 6 temp q j * get w j) = get (act_sig p y) q).
    { intros q Hq. unfold act_sig. rewrite get_tab by assumption. unfold temp, el_multCauchyDif.
      destruct (Nat.eqb_spec q 5).
      - destruct (el_hex (pb_el p)).
        + unfold y, act_y. rewrite <- sum_scal_l. apply sum_ext. intros j Hj.
          rewrite get2_tab2 by lia. destruct (Nat.eqb_spec j 5); [lia|]. subst q. cbn [Nat.eqb]. change iTvecHex with 1%nat. rewrite get2_tab2 by lia. rops. ring.
        + apply sum_zero. intros j Hj. rewrite get2_tab2 by lia. destruct (Nat.eqb_spec j 5); [lia|]. subst q. cbn [Nat.eqb]. change (nZ 0) with 0. ring.
      - assert (Hq5 : (q < 5)%nat) by lia. unfold y, act_y. rewrite <- sum_scal_l. apply sum_ext. intros j Hj.
        rewrite get2_tab2 by lia. destruct (Nat.eqb_spec j 5); [lia|]. destruct (Nat.eqb_spec q 5); [lia|]. rewrite get2_tab2 by lia. rops. ring. }
    destruct (Nat.eqb_spec i 5).
    - subst i. rewrite <- (TM 5%nat) by lia. apply sum_ext. intros j Hj. rewrite get2_tab2 by lia. cbn [Nat.ltb Nat.leb andb].
      unfold m0, qr6x6_pre_mul, get2. rewrite get_app2 by (rewrite tab2_length; lia). rewrite tab2_length.
      replace (5 * 6 + j - 5 * 6)%nat with j by lia. rewrite get_tab by lia. reflexivity.
    - assert (Hi5 : (i < 5)%nat) by lia.
      rewrite (sum_ext 5 _ (fun j => get2 5 (vecsMAB 5 5 4 dS dCI) i j * get w j + sum 5 (fun q => get2 5 (ev_qr5x5 v) i q * (get2 6 temp q j * get w j)))).
      2:{ intros j Hj. rewrite get2_tab2 by lia. assert (Hi' := Hi5). assert (Hj' := Hj). apply Nat.ltb_lt in Hi'. apply Nat.ltb_lt in Hj'. rewrite Hi', Hj'. cbn [andb].
          unfold m0, qr6x6_pre_mul. unfold get2 at 1. rewrite get_app1 by (rewrite tab2_length; lia).
          change (get (tab2 5 6 ?f) (i * 6 + j)) with (get2 6 (tab2 5 6 f) i j). rewrite get2_tab2 by lia. rops.
          rewrite (sum_ext 5 (fun q => get2 5 (ev_qr5x5 v) i q * (get2 6 temp q j * get w j)) (fun q => get2 5 (ev_qr5x5 v) i q * get2 6 temp q j * get w j)) by (intros; ring).
          rewrite sum_scal_r. ring. }
      rewrite sum_plus, sum_exchange. f_equal.
      + rewrite mv_MAB by assumption.
        rewrite (sum_ext 4 _ (fun q => get2 4 dS i q * get (act_q p v y) q)).
        2:{ intros q Hq. f_equal. rewrite (sum_ext 5 _ (fun j => sum 3 (fun e => get2 4 dCq e q * (get2 8 sol j (5 + e) * get w j)))).
            2:{ intros j Hj. unfold dCI. rewrite get2_tab2 by assumption. rewrite <- sum_scal_r. apply sum_ext. intros; rops; ring. }
            rewrite sum_exchange. unfold act_q. rewrite get_tab by assumption. rewrite EP. cbn [fst]. apply sum_ext. intros e He. rewrite sum_scal_l. reflexivity. }
        unfold dS. rewrite mv_MAB by assumption.
        set (B := dR (ev_C_quat v) (act_q p v y)). set (sig := el_getCauchy (ev_T v) (pb_detV_ri p)).
        assert (EB : forall k, (k < 9)%nat -> sum 4 (fun e => get2 4 (d_quat_to_tensor (ev_C_quat v)) k e * get (act_q p v y) e) = get (ofM3 B) k).
        { intros k Hk. unfold B, dR. rewrite ofM3_toM3 by reflexivity. unfold vecsVMa. rewrite get_tab by assumption. reflexivity. }
        rewrite (sum_ext 9 _ (fun k => get2 9 (d_rot_mat_vecd_smop (ev_C_matx v) sig) i k * get (ofM3 B) k)).
        2:{ intros k Hk. rewrite EB by assumption. reflexivity. }
        set (s5 := tab 5 (fun k => get sig k)).
        change (d_rot_mat_vecd_smop (ev_C_matx v) sig) with (d_rot_mat_vecd_smop (ev_C_matx v) s5).
        assert (ES : sum 9 (fun k => get2 9 (d_rot_mat_vecd_smop (ev_C_matx v) s5) i k * get (ofM3 B) k) = get (vecsVMa 5 9 (d_rot_mat_vecd_smop (ev_C_matx v) s5) (ofM3 B)) i)
          by (unfold vecsVMa; rewrite get_tab by assumption; reflexivity).
        rewrite ES. unfold v at 1. rewrite ev_Cm by exact HQ. fold v. rewrite smop_R by reflexivity. reflexivity.
      + rewrite (sum_ext 5 _ (fun q => get2 5 (ev_qr5x5 v) i q * get (act_sig p y) q)).
        2:{ intros q Hq. rewrite sum_scal_l. rewrite TM by lia. reflexivity. }
        set (s5 := tab 5 (fun k => get (act_sig p y) k)).
        rewrite (sum_ext 5 _ (fun q => get2 5 (ev_qr5x5 v) i q * get s5 q)) by (intros q Hq; unfold s5; rewrite get_tab by assumption; reflexivity).
        change (ten5 (act_sig p y)) with (ten5 s5).
        assert (E5 : get (vecsVMa 5 5 (rmat (rotq (ev_C_quat v))) s5) i = sum 5 (fun q => get2 5 (rmat (rotq (ev_C_quat v))) i q * get s5 q)) by (unfold vecsVMa; rewrite get_tab by assumption; reflexivity).
        assert (EV : s5 = vec5 (ten5 s5)) by (symmetry; apply vec5_ten5; reflexivity).
        change (ev_qr5x5 v) with (get_rot_mat_vecd (ev_C_matx v)). unfold v at 1. rewrite ev_Cm by exact HQ. fold v.
        change (get_rot_mat_vecd (ofM3 (rotq (ev_C_quat v)))) with (rmat (rotq (ev_C_quat v))). rewrite <- E5, EV at 1.
        rewrite rmat_apply; [reflexivity|exact (proj1 (ev_C_rot p HQ x))|apply ten5_dev].
  Qed.
  (** right-hand side of the system that the direction leads to *)
  Lemma act_rhs i : (i < 8)%nat -> List.length w = 5%nat -> sum 5 (fun j => get2 8 (mtan_rhs_T v) j i * get w j) =
    if Nat.ltb i 5 then get (vec5 (cong (tr3 (rotq (ev_C_quat v))) (ten5 w))) i else 0.
  Proof.
    intros Hi Lw. unfold mtan_rhs_T. destruct (Nat.ltb_spec i 5) as [L|L].
    - rewrite (sum_ext 5 _ (fun j => get2 5 (ev_qr5x5 v) j i * get w j)).
      2:{ intros j Hj. rewrite get2_tab2 by lia. destruct (Nat.ltb_spec i 5); [reflexivity|lia]. }
      assert (E : get (vecsVMTa 5 (rmat (rotq (ev_C_quat v))) (vec5 (ten5 w))) i = sum 5 (fun j => get2 5 (ev_qr5x5 v) j i * get w j)).
      { rewrite vec5_ten5 by exact Lw. unfold vecsVMTa. rewrite get_tab by lia.
        change (ev_qr5x5 v) with (get_rot_mat_vecd (ev_C_matx v)). unfold v at 2. rewrite ev_Cm by exact HQ. fold v. unfold rmat. apply sum_ext. intros; rops; ring. }
      rewrite <- E. rewrite rmat_apply_T; [reflexivity|exact (proj1 (ev_C_rot p HQ x))|apply ten5_dev].
    - apply sum_zero. intros j Hj. rewrite get2_tab2 by lia. destruct (Nat.ltb_spec i 5); [lia|]. change (nZ 0) with 0. ring.
  Qed.
End Act.

Lemma act_solves (lu : LUSolver R) A B sol w i : solves_exactly lu -> lu 8%nat A B 5%nat = Some sol -> (i < 8)%nat ->
  sum 8 (fun q => get2 8 A i q * act_y sol w q) = sum 5 (fun j => get2 8 B j i * get w j).
Proof.
  intros HE HS Hi. destruct (HE _ _ _ _ _ HS) as [H1 _]. unfold act_y.
  rewrite (sum_ext 8 _ (fun q => sum 5 (fun j => get2 8 A i q * get2 8 sol j q * get w j))).
  2:{ intros q Hq. rewrite <- sum_scal_l. apply sum_ext. intros; ring. }
  rewrite sum_exchange. apply sum_ext. intros j Hj. rewrite sum_scal_r. f_equal. rewrite sum_fold. exact (H1 j i Hj Hi).
Qed.

(** ** A turned crystal *)
Section Turn4.
  Variables (p : Prob R) (q x : list R) (lu lu' : LUSolver R) (sol sol' mt mt' : list R) (w : list R).
  Hypothesis Lq : List.length q = 4%nat.
  Hypothesis Nq : SpecTensor.norm2 q = 1.
  Hypothesis HQ : List.length (pb_Cn_quat p) = 4%nat /\ SpecTensor.norm2 (pb_Cn_quat p) = 1.
  Hypothesis Ld : List.length (pb_d_vecd_sm p) = 5%nat.
  Hypothesis Lw : List.length (pb_w_veccp_sm p) = 3%nat.
  Let p' := turn_prob q p.
  Let Q := rotq q.
  Let v := evalEv p x.
  Let v' := evalEv p' x.
  Hypothesis HE : solves_exactly lu.
  Hypothesis HE' : solves_exactly lu'.
  Hypothesis HS : lu 8%nat (jacobian0 p v) (mtan_rhs_T v) 5%nat = Some sol.
  Hypothesis HS' : lu' 8%nat (jacobian0 p' v') (mtan_rhs_T v') 5%nat = Some sol'.
  Hypothesis HM : mtan_vecds lu p x = Some mt.
  Hypothesis HM' : mtan_vecds lu' p' x = Some mt'.
  Hypothesis L5 : List.length w = 5%nat.
  Let w' := vec5 (cong Q (ten5 w)).
  Lemma t4_orth : is_orth Q. Proof. apply (rotq_rot q Lq Nq). Qed.
  Lemma t4_HQ : List.length (pb_Cn_quat p') = 4%nat /\ SpecTensor.norm2 (pb_Cn_quat p') = 1.
  Proof.
    split; [reflexivity|]. change (pb_Cn_quat p') with (quat_prod q (pb_Cn_quat p)). rewrite norm2_prod by (assumption || apply HQ).
    rewrite Nq, (proj2 HQ). ring.
  Qed.
  Lemma t4_C : rotq (ev_C_quat v') = mul3 Q (rotq (ev_C_quat v)).
  Proof.
    unfold v', v, p'. rewrite (turn_C p q Lq HQ). apply rotq_prod; [exact Lq|apply (ev_C_unit p HQ x)].
  Qed.
  Lemma t4_dev : is_dev (cong Q (ten5 w)). Proof. apply cong_dev; [exact t4_orth|apply ten5_dev]. Qed.
  Lemma t4_rhs i : (i < 8)%nat -> sum 5 (fun j => get2 8 (mtan_rhs_T v') j i * get w' j) = sum 5 (fun j => get2 8 (mtan_rhs_T v) j i * get w j).
  Proof.
    intros Hi. unfold v', v. rewrite (act_rhs p' x w' t4_HQ i Hi eq_refl), (act_rhs p x w HQ i Hi L5). fold v v'. destruct (Nat.ltb i 5); [|reflexivity].
    rewrite t4_C. unfold w'. rewrite SpecTensor.ten5_vec5 by exact t4_dev. f_equal. f_equal.
    rewrite tr3_mul, cong_mul. f_equal. rewrite <- cong_mul. destruct t4_orth as [_ O2]. rewrite O2. apply cong_1.
  Qed.
  Lemma t4_y k : (k < 8)%nat -> act_y sol' w' k = act_y sol w k.
  Proof.
    intros Hk. destruct (HE _ _ _ _ _ HS) as [_ H2].
    set (z := tab 8 (fun k => act_y sol' w' k - act_y sol w k)).
    assert (Z : nth k z 0 = 0).
    { apply H2; [apply tab_length| |exact Hk]. intros i Hi. rewrite <- sum_fold.
      rewrite (sum_ext 8 _ (fun q => get2 8 (jacobian0 p v) i q * act_y sol' w' q - get2 8 (jacobian0 p v) i q * act_y sol w q)).
      2:{ intros r Hr. rewrite !nth_get. unfold z. rewrite get_tab by assumption. unfold get2. ring. }
      rewrite sum_minus. rewrite (act_solves lu _ _ sol w i HE HS Hi).
      assert (EJ : jacobian0 p' v' = jacobian0 p v) by exact (turn_jac0 p q Lq Nq HQ Ld Lw x).
      rewrite <- EJ. rewrite (act_solves lu' _ _ sol' w' i HE' HS' Hi). rewrite t4_rhs by exact Hi. ring. }
    unfold z in Z. rewrite nth_get, get_tab in Z by assumption. lra.
  Qed.
  Lemma t4_sig : act_sig p' (act_y sol' w') = act_sig p (act_y sol w).
  Proof.
    unfold act_sig. apply tab_ext. intros k Hk. change (pb_el p') with (pb_el p). change (pb_detV_ri p') with (pb_detV_ri p). change (pb_a_V_ri p') with (pb_a_V_ri p).
    rewrite (t4_y 1) by lia. rewrite (t4_y k) by lia. reflexivity.
  Qed.
  Lemma t4_q : act_q p' v' (act_y sol' w') = quat_prod q (act_q p v (act_y sol w)).
  Proof.
    assert (E : forall e k, (e < 3)%nat -> (k < 4)%nat -> get2 4 (fst (fst (dxi_parts p' v'))) e k = get (quat_prod q (dqe (ev_xi v) (pb_Cn_quat p) e)) k).
    { intros e k He Hk. change (dxi_parts p' v') with (eval_d_dxi_impl_quat (pb_d_vecd_sm p') (pb_w_veccp_sm p') (ev_xi v) (quat_prod q (pb_Cn_quat p)) (quat_to_tensor (ev_C_quat v')) (ev_C_quat v')).
      rewrite row_quat by (assumption || reflexivity). unfold dqe. rewrite qp_assoc; [reflexivity|exact Lq|apply HQ|].
      apply sub_length. rewrite demap_length. lia. }
    assert (E0 : forall e k, (e < 3)%nat -> (k < 4)%nat -> get2 4 (fst (fst (dxi_parts p v))) e k = get (dqe (ev_xi v) (pb_Cn_quat p) e) k).
    { intros e k He Hk. change (dxi_parts p v) with (eval_d_dxi_impl_quat (pb_d_vecd_sm p) (pb_w_veccp_sm p) (ev_xi v) (pb_Cn_quat p) (quat_to_tensor (ev_C_quat v)) (ev_C_quat v)).
      rewrite row_quat by (assumption || apply HQ || reflexivity). reflexivity. }
    unfold act_q. set (g := fun e => dqe (ev_xi v) (pb_Cn_quat p) e) in *.
    assert (LG : forall e, List.length (g e) = 4%nat) by reflexivity.
    rewrite (tab_ext 4 _ (fun k => sum 3 (fun e => get (quat_prod q (g e)) k * act_y sol w (5 + e)))).
    2:{ intros k Hk. apply sum_ext. intros e He. rewrite E by assumption. rewrite t4_y by lia. reflexivity. }
    rewrite (tab_ext 4 (fun k => sum 3 (fun e => get2 4 (fst (fst (dxi_parts p v))) e k * act_y sol w (5 + e))) (fun k => sum 3 (fun e => get (g e) k * act_y sol w (5 + e)))).
    2:{ intros k Hk. apply sum_ext. intros e He. rewrite E0 by assumption. reflexivity. }
    clear E E0. generalize dependent g. intros g _ _ LG || intros g LG.
    generalize (act_y sol w (5 + 0)) (act_y sol w (5 + 1)) (act_y sol w (5 + 2)). 
    pose proof (LG 0%nat) as L0. pose proof (LG 1%nat) as L1. pose proof (LG 2%nat) as L2.
    intros y0 y1 y2.
    unfold sum. cbn [seq fold_left].
    generalize dependent (g 0%nat). generalize dependent (g 1%nat). generalize dependent (g 2%nat). intros g2 L2 g1 L1 g0 L0.
    clear - Lq L0 L1 L2. explode q. explode g0. explode g1. explode g2. rewrite !qp_form. unfold tab. cbn [seq map get nth]. rewrite qp_form. rops. meq; ring.
  Qed.
  Lemma t4_A : act_A p' v' (act_y sol' w') = cong Q (act_A p v (act_y sol w)).
  Proof.
    unfold act_A. cbv zeta. rewrite t4_q, t4_C.
    change (ev_T v') with (ev_T v). change (pb_detV_ri p') with (pb_detV_ri p).
    assert (EC : ev_C_quat v' = quat_prod q (ev_C_quat v)) by exact (turn_C p q Lq HQ x). rewrite EC.
    rewrite dR_left; [|exact Lq|apply (ev_C_unit p HQ x)|reflexivity]. fold Q.
    generalize (ten5 (el_getCauchy (ev_T v) (pb_detV_ri p))) (dR (ev_C_quat v) (act_q p v (act_y sol w))) (rotq (ev_C_quat v)). clear. intros S B C.
    unfold cong. rewrite !tr3_mul, !mul3_assoc. 
    generalize Q. intros Q0. destruct Q0, S, B, C. spec. meq; ring.
  Qed.
End Turn4.
