(** Two equivalent orientations: the tangent (C22). *)
From Coq Require Import List ZArith Bool Lia PeanoNat Reals Lra.
From Verif Require Import P_Demo.
From Verif Require Import Num Arr NumR Util SlipGeom Eos Hard KinVoce KinKMBalD Elast Evptn MatModel Cases SpecTensor
  SpecElast SpecSlip P_Tensor P_Elast P_Eos P_Sngl P_Sngl2 P_Sngl3 P_Batch P_Batch2 P_Batch3 P_Batch4 P_Api P_Builtin SpecApi P_Hist SpecStress P_Stress
  SpecKin SpecKinApi SpecStep P_KinV P_Kin4 P_Call P_Slip P_SlipH P_Step P_Step2 P_Energy P_Deriv P_Jac P_Jac2 SpecJac P_Frame P_Frame2 SpecSym P_Sym P_Sym1 P_Sym2 P_Sym3 P_Sym4 P_Sym5 P_Sym6 P_Sym7 P_Sym8
  SpecTan P_Tan P_Frame4 P_Frame5.
Import ListNotations.
Local Open Scope R_scope.

Lemma sc_pos k : sc k <> 0.
Proof. unfold sc. destruct Nat.ltb; unfold e_scale, r_scale; cbn; lra. Qed.

Section SymT.
  Variables (p : Prob R) (q : list R) (sg : nat -> nat) (ep : nat -> R) (x : list R) (lu lu' : LUSolver R) (sol sol' mt mt' : list R) (w : list R).
  Hypothesis HH : sym_ok p q sg ep.
  Hypothesis Lx : List.length x = 8%nat.
  Hypothesis Ho : off_tiny x.
  Let S := rotq q.
  Let p' := sym_prob q p.
  Let x' := sym_map S x.
  Let v := evalEv p x.
  Let v' := evalEv p' x'.
  Hypothesis HE : solves_exactly lu.
  Hypothesis HE' : solves_exactly lu'.
  Hypothesis HS : lu 8%nat (jacobian0 p v) (mtan_rhs_T v) 5%nat = Some sol.
  Hypothesis HS' : lu' 8%nat (jacobian0 p' v') (mtan_rhs_T v') 5%nat = Some sol'.
  Hypothesis L5 : List.length w = 5%nat.
  Let y := act_y sol w.
  Let y' := act_y sol' w.
  Let u := tab 8 (fun k => y k / sc k).
  Let u' := sym_map S u.
  Lemma st_off : off (toV3 (ev_xi v)). Proof. unfold v. rewrite xi_trial by exact Lx. exact Ho. Qed.
  Lemma st_orth : is_orth S. Proof. exact (so_orth p q sg ep HH). Qed.
  Lemma st_u k : (k < 8)%nat -> sc k * get u k = y k.
  Proof. intros Hk. unfold u. rewrite get_tab by exact Hk. field. apply sc_pos. Qed.
  Lemma st_HQ' : List.length (pb_Cn_quat p') = 4%nat /\ SpecTensor.norm2 (pb_Cn_quat p') = 1.
  Proof. destruct HH. exact (HQ' p q y_Lq y_Nq y_HQ). Qed.
  Lemma st_C : ev_C_quat v' = quat_prod (ev_C_quat v) q.
  Proof. destruct HH. exact (C_turn p q y_Lq y_Nq y_HQ x Lx st_off). Qed.
  Lemma st_rC : rotq (ev_C_quat v') = mul3 (rotq (ev_C_quat v)) S.
  Proof. rewrite st_C. apply rotq_prod; [reflexivity|apply HH]. Qed.
  Lemma st_rhs i : (i < 5)%nat -> sum 5 (fun j => get2 8 (mtan_rhs_T v') j i * get w j) = rm 5 (rmat S) (fun k => sum 5 (fun j => get2 8 (mtan_rhs_T v) j k * get w j)) i.
  Proof.
    intros Hi. unfold v'. rewrite (act_rhs p' x' w st_HQ' i) by (lia || exact L5). fold v'. pose proof Hi as Hb. apply Nat.ltb_lt in Hb. rewrite Hb.
    rewrite st_rC. rewrite tr3_mul, cong_mul.
    rewrite (rm_ext 5 _ _ (get (vec5 (cong (tr3 (rotq (ev_C_quat v))) (ten5 w))))).
    2:{ intros j Hj. unfold v. rewrite (act_rhs p x w (y_HQ _ _ _ _ HH) j) by (lia || exact L5). apply Nat.ltb_lt in Hj. rewrite Hj. reflexivity. }
    unfold rm. rewrite <- get_lin5 by (exact st_orth || reflexivity || exact Hi).
    f_equal. f_equal. f_equal. symmetry. apply SpecTensor.ten5_vec5. apply cong_dev; [apply orth_tr; exact (proj1 (ev_C_rot p (y_HQ _ _ _ _ HH) x))|apply ten5_dev].
  Qed.
  Lemma st_rhs3 i : (i < 3)%nat -> sum 5 (fun j => get2 8 (mtan_rhs_T v') j (5 + i) * get w j) = 0.
  Proof.
    intros Hi. unfold v'. rewrite (act_rhs p' x' w st_HQ' (5 + i)) by (lia || exact L5). destruct (Nat.ltb_spec (5 + i) 5); [lia|reflexivity].
  Qed.
  Lemma st_sys i : (i < 8)%nat -> sum 8 (fun j => get2 8 (jacobian0 p' v') i j * (sc j * get u' j)) = sum 5 (fun j => get2 8 (mtan_rhs_T v') j i * get w j).
  Proof.
    intros Hi. pose proof st_off as SO. pose proof st_rhs as R1. pose proof st_rhs3 as R2. destruct HH.
    assert (A : forall k, (k < 8)%nat -> sum 8 (fun j => get2 8 (jacobian0 p v) k j * (sc j * get u j)) = sum 5 (fun j => get2 8 (mtan_rhs_T v) j k * get w j)).
    { intros k Hk. rewrite <- (act_solves lu _ _ sol w k HE HS Hk). apply sum_ext. intros j Hj. rewrite st_u by exact Hj. reflexivity. }
    assert (Lu : List.length u = 8%nat) by reflexivity.
    destruct (Nat.lt_ge_cases i 5) as [L|L].
    - rewrite R1 by exact L.
      refine (eq_trans (act5 p q sg ep y_Lq y_Nq y_HQ y_Ld y_Lw y_Le y_sg y_ep y_HP y_HK y_hex y_law x Lx SO u Lu i L) _).
      apply rm_ext. intros j Hj. apply A. lia.
    - replace i with (5 + (i - 5))%nat by lia. assert (L3 : (i - 5 < 3)%nat) by lia. rewrite R2 by exact L3.
      refine (eq_trans (act3 p q sg ep y_Lq y_Nq y_HQ y_Ld y_Lw y_Le y_sg y_ep y_HP y_HW y_HK y_hex y_law x Lx SO u Lu (i - 5)%nat L3) _).
      unfold rm. apply sum_zero. intros j Hj. fold v. rewrite A by lia. unfold v. rewrite (act_rhs p x w y_HQ (5 + j)) by (lia || exact L5).
      destruct (Nat.ltb_spec (5 + j) 5); [lia|ring].
  Qed.
  Lemma st_y k : (k < 8)%nat -> y' k = sc k * get u' k.
  Proof.
    intros Hk. destruct (HE' _ _ _ _ _ HS') as [_ H2].
    set (z := tab 8 (fun k => y' k - sc k * get u' k)).
    assert (Z : nth k z 0 = 0).
    { apply H2; [apply tab_length| |exact Hk]. intros i Hi. rewrite <- sum_fold.
      rewrite (sum_ext 8 _ (fun j => get2 8 (jacobian0 p' v') i j * y' j - get2 8 (jacobian0 p' v') i j * (sc j * get u' j))).
      2:{ intros r Hr. rewrite !nth_get. unfold z. rewrite get_tab by assumption. unfold get2. ring. }
      rewrite sum_minus. rewrite st_sys by exact Hi. unfold y'. rewrite (act_solves lu' _ _ sol' w i HE' HS' Hi). ring. }
    unfold z in Z. rewrite nth_get, get_tab in Z by assumption. lra.
  Qed.
  Lemma st_y5 k : (k < 5)%nat -> y' k = rm 5 (rmat S) y k.
  Proof.
    intros Hk. rewrite st_y by lia. unfold u'. rewrite get_map5 by (exact st_orth || reflexivity || exact Hk). rewrite <- rm_scal. apply rm_ext.
    intros j Hj. rewrite <- (st_u j) by lia. f_equal. unfold sc. apply Nat.ltb_lt in Hk, Hj. rewrite Hk, Hj. reflexivity.
  Qed.
  Lemma st_sig5 : ten5 (act_sig p' y') = cong (tr3 S) (ten5 (act_sig p y)).
  Proof.
    set (a := tab 5 (fun k => get (act_sig p y) k)). set (a' := tab 5 (fun k => get (act_sig p' y') k)).
    change (ten5 (act_sig p' y')) with (ten5 a'). change (ten5 (act_sig p y)) with (ten5 a).
    assert (E : a' = vec5 (cong (tr3 S) (ten5 a))).
    { apply list5_eq; [exact st_orth|reflexivity|reflexivity|]. intros i Hi. unfold a'. rewrite get_tab by exact Hi. unfold act_sig at 1. rewrite get_tab by lia.
      destruct (Nat.eqb_spec i 5); [lia|]. rewrite st_y5 by exact Hi. change (pb_el p') with (pb_el p). change (pb_detV_ri p') with (pb_detV_ri p). change (pb_a_V_ri p') with (pb_a_V_ri p).
      rewrite Rmult_assoc. pose proof (K_comm p q (y_HK _ _ _ _ HH) y i Hi) as KC. fold S in KC. rewrite KC.
      rewrite <- rm_scal. apply rm_ext. intros j Hj. unfold a. rewrite get_tab by exact Hj. unfold act_sig. rewrite get_tab by lia. destruct (Nat.eqb_spec j 5); [lia|]. ring. }
    rewrite E. apply SpecTensor.ten5_vec5. apply cong_dev; [apply orth_tr; exact st_orth|apply ten5_dev].
  Qed.
  Lemma st_sig6 : get (act_sig p' y') 5 = get (act_sig p y) 5.
  Proof.
    unfold act_sig. rewrite !get_tab by lia. cbn [Nat.eqb]. change (pb_el p') with (pb_el p). change (pb_detV_ri p') with (pb_detV_ri p). change (pb_a_V_ri p') with (pb_a_V_ri p).
    destruct (el_hex (pb_el p)) eqn:EX; [|reflexivity]. f_equal. rewrite st_y5 by lia.
    unfold rm, sum. cbn [fold_left seq]. rops. pose proof (y_hex _ _ _ _ HH EX) as Y. fold S in Y.
    rewrite (proj2 (Y 0%nat ltac:(lia))), (proj2 (Y 1%nat ltac:(lia))), (proj2 (Y 2%nat ltac:(lia))), (proj2 (Y 3%nat ltac:(lia))), (proj2 (Y 4%nat ltac:(lia))).
    cbn [Nat.eqb]. ring.
  Qed.
  Lemma q_dquat p0 x0 u0 y0 : (forall e, (e < 3)%nat -> y0 (5 + e)%nat = r_scale * get u0 (5 + e)) ->
    act_q p0 (evalEv p0 x0) y0 = dquat p0 x0 u0.
  Proof.
    intros H. apply list_get_ext; [reflexivity|]. change (List.length (act_q _ _ _)) with 4%nat. intros k Hk. unfold act_q. rewrite get_tab by exact Hk.
    unfold dquat. rewrite <- (pt_quat (pb_d_vecd_sm p0) (pb_w_veccp_sm p0) (ev_xi (evalEv p0 x0)) (pb_Cn_quat p0) (ev_C_quat (evalEv p0 x0)) (tab 3 (fun k => r_scale * get u0 (5 + k))) k Hk).
    apply sum_ext. intros e He. rewrite get_tab by exact He. rewrite H by exact He. reflexivity.
  Qed.
  Lemma sc3 e : (e < 3)%nat -> sc (5 + e) = r_scale.
  Proof. intros He. unfold sc. destruct (Nat.ltb_spec (5 + e) 5); [lia|reflexivity]. Qed.
  Lemma st_q : act_q p' v' y' = quat_prod (act_q p v y) q.
  Proof.
    unfold v', v. rewrite (q_dquat p' x' u' y') by (intros e He; rewrite <- (sc3 e He); apply st_y; lia).
    rewrite (q_dquat p x u y) by (intros e He; rewrite <- (sc3 e He); symmetry; apply st_u; lia).
    pose proof st_off as SO. destruct HH. assert (Lu : List.length u = 8%nat) by reflexivity. exact (dquat_turn p q y_Lq y_Nq y_HQ x Lx SO u Lu).
  Qed.
  Lemma st_cauchy : ten5 (el_getCauchy (ev_T v') (pb_detV_ri p')) = cong (tr3 S) (ten5 (el_getCauchy (ev_T v) (pb_detV_ri p))).
  Proof.
    destruct (so_cauchy p q sg ep HH x Lx) as (c & z & Lc & E1 & E2).
    change (el_getCauchy (ev_T v') (pb_detV_ri p')) with (elastNEtoC p' (fst (stateFromX p' x'))). change (el_getCauchy (ev_T v) (pb_detV_ri p)) with (elastNEtoC p (fst (stateFromX p x))).
    fold S p' x' in E2. rewrite E1, E2. rewrite !ten5_app by (exact Lc || reflexivity).
    apply SpecTensor.ten5_vec5. apply cong_dev; [apply orth_tr; exact st_orth|apply ten5_dev].
  Qed.
  Lemma st_A : act_A p' v' y' = act_A p v y.
  Proof.
    unfold act_A. cbv zeta. rewrite st_q, st_rC, st_cauchy, st_C.
    rewrite dR_right by (reflexivity || apply HH). fold S.
    generalize (ten5 (el_getCauchy (ev_T v) (pb_detV_ri p))) (dR (ev_C_quat v) (act_q p v y)) (rotq (ev_C_quat v)). intros T B C.
    destruct st_orth as [O1 O2].
    assert (Z : forall X Y, mul3 (mul3 (mul3 X S) (cong (tr3 S) T)) (tr3 (mul3 Y S)) = mul3 (mul3 X T) (tr3 Y)).
    { intros X Y. unfold cong. rewrite tr3_mul, !mul3_assoc. replace (tr3 (tr3 S)) with S by (clear; destruct S; reflexivity).
      rewrite <- (mul3_assoc S (tr3 S) (tr3 Y)), O1, SpecTensor.mul3_1l, <- (mul3_assoc S (tr3 S) (mul3 T (tr3 Y))), O1, SpecTensor.mul3_1l. reflexivity. }
    rewrite !Z. reflexivity.
  Qed.
End SymT.

Section SymS.
  Variables (p : Prob R) (q : list R) (sg : nat -> nat) (ep : nat -> R) (x : list R) (lu lu' : LUSolver R) (sol sol' mt mt' : list R) (bulk : R) (E : M3).
  Hypothesis HH : sym_ok p q sg ep.
  Hypothesis Lx : List.length x = 8%nat.
  Hypothesis Ho : off_tiny x.
  Let p' := sym_prob q p.
  Let x' := sym_map (rotq q) x.
  Hypothesis LE : solves_exactly lu.
  Hypothesis LE' : solves_exactly lu'.
  Hypothesis HS : lu 8%nat (jacobian0 p (evalEv p x)) (mtan_rhs_T (evalEv p x)) 5%nat = Some sol.
  Hypothesis HS' : lu' 8%nat (jacobian0 p' (evalEv p' x')) (mtan_rhs_T (evalEv p' x')) 5%nat = Some sol'.
  Hypothesis HM : mtan_vecds lu p x = Some mt.
  Hypothesis HM' : mtan_vecds lu' p' x' = Some mt'.
  Hypothesis HE : is_sym E.
  Lemma stiff_sym : stiff (fun r q => get (mtanSD_of p' bulk mt') (6 * r + q)) E = stiff (fun r q => get (mtanSD_of p bulk mt) (6 * r + q)) E.
  Proof.
    rewrite (stiff_act p' x' lu' sol' mt' bulk E (st_HQ' p q sg ep HH) HS' HM' HE).
    rewrite (stiff_act p x lu sol mt bulk E (y_HQ _ _ _ _ HH) HS HM HE).
    assert (L5 : List.length (vec5 E) = 5%nat) by reflexivity.
    pose proof (st_A p q sg ep x lu lu' sol sol' (vec5 E) HH Lx Ho LE LE' HS HS' L5) as EA.
    pose proof (st_sig5 p q sg ep x lu lu' sol sol' (vec5 E) HH Lx Ho LE LE' HS HS' L5) as E5.
    pose proof (st_sig6 p q sg ep x lu lu' sol sol' (vec5 E) HH Lx Ho LE LE' HS HS' L5) as E6.
    pose proof (st_rC p q sg ep x HH Lx Ho) as EC.
    fold p' x' in EA, E5, E6, EC. rewrite EA, E5, E6, EC.
    rewrite cong_back by exact (so_orth p q sg ep HH). reflexivity.
  Qed.
End SymS.
