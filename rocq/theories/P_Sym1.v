(** The residual and the Jacobian of one step for two equivalent orientations (C22). *)
From Coq Require Import List ZArith Bool Lia PeanoNat Reals Lra.
From Verif Require Import Num Arr NumR Util SlipGeom Hard Elast Evptn SpecTensor P_Tensor P_Latop P_Stress SpecStep SpecJac SpecSym P_Step P_Energy P_Jac P_Jac2 P_Frame P_Sym.
Import ListNotations.
Local Open Scope R_scope.

Lemma rm_iso5 S f g : is_orth S -> sum 5 (fun i => rm 5 (rmat S) f i * rm 5 (rmat S) g i) = sum 5 (fun j => f j * g j).
Proof.
  intros HS. unfold rm.
  rewrite (sum_ext 5 _ (fun i => sum 5 (fun j => sum 5 (fun l => f j * g l * (get2 5 (rmat S) j i * get2 5 (rmat S) l i))))).
  2:{ intros i Hi. rewrite <- sum_scal_r. apply sum_ext. intros j Hj. rewrite <- sum_scal_l. apply sum_ext. intros l Hl. ring. }
  rewrite sum_exchange. apply sum_ext. intros j Hj. rewrite sum_exchange.
  rewrite (sum_ext 5 _ (fun l => f j * g l * kron j l)).
  2:{ intros l Hl. rewrite sum_scal_l. f_equal. rewrite <- (rmat_orth S j l HS Hj Hl). unfold vecsMABT. rewrite get2_tab2 by assumption. reflexivity. }
  unfold kron. rewrite (sum_ext 5 _ (fun l => (if Nat.eqb j l then 1 else 0) * (f j * g l))) by (intros; destruct Nat.eqb; ring).
  do 5 (destruct j as [|j]; [cbn; ring|]). lia.
Qed.
Lemma ax_inj a b : axial a = axial b -> a = b.
Proof. destruct a, b. unfold axial. cbn. intros H. injection H. intros. subst. reflexivity. Qed.
Lemma comm_turn S A B : is_orth S -> commutator (cong S A) (cong S B) = cong S (commutator A B).
Proof.
  intros [_ H]. unfold commutator, sub3, cong.
  assert (E : forall X Y, mul3 (mul3 (mul3 S X) (tr3 S)) (mul3 (mul3 S Y) (tr3 S)) = mul3 (mul3 S (mul3 X Y)) (tr3 S)).
  { intros X Y. rewrite !SpecTensor.mul3_assoc. f_equal. f_equal. rewrite <- (SpecTensor.mul3_assoc (tr3 S) S), H, SpecTensor.mul3_1l. reflexivity. }
  rewrite !E. generalize (mul3 A B) (mul3 B A). intros X Y. destruct S, X, Y. spec. meq; ring.
Qed.
Lemma ee_turn S e ed : is_rot S -> List.length e = 5%nat -> List.length ed = 5%nat ->
  vecsVMa 3 5 (M35_d_AAoB_dA (vec5 (cong (tr3 S) (ten5 e)))) (vec5 (cong (tr3 S) (ten5 ed))) =
  ofV3 (mulv (tr3 S) (toV3 (vecsVMa 3 5 (M35_d_AAoB_dA e) ed))).
Proof.
  intros HS L1 L2. apply SpecTensor.rot_tr in HS. pose proof HS as [HO _].
  assert (D1 : is_dev (cong (tr3 S) (ten5 e))) by (apply cong_dev; [exact HO|apply ten5_dev]).
  assert (D2 : is_dev (cong (tr3 S) (ten5 ed))) by (apply cong_dev; [exact HO|apply ten5_dev]).
  pose proof (ee_wvec_spec (vec5 (cong (tr3 S) (ten5 e))) (vec5 (cong (tr3 S) (ten5 ed))) eq_refl eq_refl) as E.
  rewrite !SpecTensor.ten5_vec5 in E by assumption. rewrite comm_turn in E by exact HO. rewrite ee_wvec_spec in E by assumption.
  rewrite cong_axial in E by exact HS. apply ax_inj in E. rewrite E.
  set (l := vecsVMa 3 5 _ _). assert (L : List.length l = 3%nat) by apply tab_length. clearbody l. explode l. reflexivity.
Qed.

(** the rotation part of the derivative operators, applied to any direction *)
Section Parts.
  Variables (d w xi Cn Cq u : list R).
  Let parts := eval_d_dxi_impl_quat d w xi Cn (quat_to_tensor Cq) Cq.
  Let dq := quat_prod Cn (dmap xi u).
  Lemma pt_quat q : (q < 4)%nat -> sum 3 (fun e => get2 4 (fst (fst parts)) e q * get u e) = get dq q.
  Proof.
    intros Hq. unfold dq. change (fst (fst parts)) with (quat_prod Cn (sub (dquat_demap_T xi) 0 4) ++
      quat_prod Cn (sub (dquat_demap_T xi) 4 4) ++ quat_prod Cn (sub (dquat_demap_T xi) 8 4)).
    unfold dmap. set (M := dquat_demap_T xi) in *. clearbody M.
    unfold quat_prod. cbn [app]. unfold get2 in *. rewrite !get_tab by lia.
    rewrite !(get_sub M) by lia. rarr.
    destruct q as [|[|[|[|]]]]; [..|lia]; cbn [nth Nat.add Nat.mul]; ring.
  Qed.
  Let dCm := vecsMABT 9 3 4 (d_quat_to_tensor Cq) (fst (fst parts)).
  Lemma pt_mat k : (k < 9)%nat -> sum 3 (fun e => get2 3 dCm k e * get u e) = get (ofM3 (dR Cq dq)) k.
  Proof.
    intros Hk. unfold dCm. rewrite mv_MABT by assumption. unfold dR. rewrite ofM3_toM3 by reflexivity. unfold vecsVMa. rewrite get_tab by assumption.
    apply sum_ext. intros j Hj. rewrite pt_quat by assumption. reflexivity.
  Qed.
  Lemma pt_d i : List.length d = 5%nat -> List.length Cq = 4%nat -> (i < 5)%nat ->
    sum 3 (fun e => get2 3 (snd (fst parts)) i e * get u e) = get (vec5 (dcongT (rotq Cq) (dR Cq dq) (ten5 d))) i.
  Proof.
    intros Ld Lq Hi. rewrite <- latop_R by assumption. change (snd (fst parts)) with (vecsMAB 5 3 9 (d_rot_mat_vecd_latop (quat_to_tensor Cq) d) dCm).
    rewrite mv_MAB by assumption. unfold vecsVMa. rewrite get_tab by assumption.
    assert (EC : quat_to_tensor Cq = ofM3 (rotq Cq)).
    { symmetry. apply ofM3_toM3. explode Cq. reflexivity. }
    rewrite EC. apply sum_ext. intros j Hj. rewrite pt_mat by assumption. reflexivity.
  Qed.
  Lemma pt_w i : List.length w = 3%nat -> (i < 3)%nat ->
    sum 3 (fun e => get2 3 (snd parts) i e * get u e) = get (ofV3 (mulv (tr3 (dR Cq dq)) (toV3 w))) i.
  Proof.
    intros Lw Hi. rewrite <- wlatop_R. change (snd parts) with (vecsMAB 3 3 9 (d_rot_mat_wveccp_latop w) dCm).
    rewrite mv_MAB by assumption. unfold vecsVMa. rewrite get_tab by assumption.
    replace (ofV3 (toV3 w)) with w by (explode w; reflexivity).
    apply sum_ext. intros j Hj. rewrite pt_mat by assumption. reflexivity.
  Qed.
End Parts.

(** the unscaled Jacobian applied to a direction *)
Section Act.
  Variables (p : Prob R) (x u : list R).
  Hypothesis Ld : List.length (pb_d_vecd_sm p) = 5%nat.
  Hypothesis Lw : List.length (pb_w_veccp_sm p) = 3%nat.
  Let n := sg_nslip (pb_sg p).
  Let v := evalEv p x.
  Let de k := e_scale * get u k.
  Let du := tab 3 (fun k => r_scale * get u (5 + k)).
  Definition dtau (k : nat) : R := sum 5 (fun j => get (el_K_diag (pb_el p)) j * pb_a_V_ri p * get2 n (sg_P (pb_sg p)) j k * (e_scale * get u j)).
  Definition dquat : list R := quat_prod (pb_Cn_quat p) (dmap (ev_xi v) (tab 3 (fun k => r_scale * get u (5 + k)))).
  Lemma LC : List.length (ev_C_quat v) = 4%nat. Proof. reflexivity. Qed.
  Lemma parts_eq : dxi_parts p v = (fst (fst (dxi_parts p v)), snd (fst (dxi_parts p v)), snd (dxi_parts p v)).
  Proof. destruct (dxi_parts p v) as [[? ?] ?]; reflexivity. Qed.
  Lemma U k : (k < 3)%nat -> get du k = r_scale * get u (5 + k).
  Proof. intros Hk. unfold du. now rewrite get_tab. Qed.
  Lemma dg_eq m M i : (i < m)%nat -> sum 5 (fun j => get2 5 (vecsMABT m 5 n M (dgdot_deps p v)) i j * de j) =
    sum n (fun k => get2 n M i k * (get (ev_dgdot_dtau v) k * dtau k)).
  Proof.
    intros Hi. rewrite mv_MABT by assumption. apply sum_ext. intros k Hk. f_equal. unfold dtau. rewrite <- sum_scal_l. apply sum_ext. intros j Hj.
    unfold dgdot_deps. fold n. rewrite get2_tab2 by assumption. unfold el_multDTDepsT. rewrite get2_tab2 by assumption. unfold de. rops. ring.
  Qed.
  Lemma actE i : (i < 5)%nat -> sum 8 (fun j => get2 8 (jacobian0 p v) i j * (sc j * get u j)) =
    sum n (fun k => get2 n (sg_P (pb_sg p)) i k * (get (ev_dgdot_dtau v) k * dtau k)) + pb_a_V_ri p * pb_dt_ri p * de i
    - get (vec5 (dcongT (rotq (ev_C_quat v)) (dR (ev_C_quat v) dquat) (ten5 (pb_d_vecd_sm p)))) i.
  Proof.
    intros L. rewrite sum8. assert (EP := parts_eq).
    rewrite (sum_ext 5 _ (fun j => (if Nat.eqb i j then get2 5 (dpl_deps_symm p v) i j + pb_a_V_ri p * pb_dt_ri p else get2 5 (dpl_deps_symm p v) i j) * de j)).
    2:{ intros j Hj. unfold jacobian0. rewrite EP. cbv zeta beta iota. rewrite get2_tab2 by lia. assert (L' := L). apply Nat.ltb_lt in L'. rewrite L'.
        unfold sc, de. assert (Hj' := Hj). apply Nat.ltb_lt in Hj'. rewrite Hj'. reflexivity. }
    rewrite sum_kron by assumption.
    rewrite (sum_ext 3 _ (fun e => - (get2 3 (snd (fst (dxi_parts p v))) i e * get du e))).
    2:{ intros j Hj. unfold jacobian0. rewrite EP. cbv zeta beta iota. rewrite get2_tab2 by lia. assert (L' := L). apply Nat.ltb_lt in L'. rewrite L'.
        destruct (Nat.ltb_spec (5 + j) 5); [lia|]. unfold sc. destruct (Nat.ltb_spec (5 + j) 5); [lia|]. rewrite U by assumption. replace (5 + j - 5)%nat with j by lia. cbn [fst snd]. rops. ring. }
    rewrite sum_opp. change (ev_C_quat v) with (ev_C_quat v). unfold dxi_parts. change (ev_C_matx v) with (quat_to_tensor (ev_C_quat v)).
    rewrite (pt_d (pb_d_vecd_sm p) (pb_w_veccp_sm p) (ev_xi v) (pb_Cn_quat p) (ev_C_quat v) du i Ld LC L).
    change (quat_prod (pb_Cn_quat p) (dmap (ev_xi v) du)) with dquat.
    change (dpl_deps_symm p v) with (vecsMABT 5 5 n (sg_P (pb_sg p)) (dgdot_deps p v)). rewrite dg_eq by assumption. ring.
  Qed.
  Lemma actW i : (i < 3)%nat -> sum 8 (fun j => get2 8 (jacobian0 p v) (5 + i) j * (sc j * get u j)) =
    pb_dt p * sum n (fun k => get2 n (sg_Q (pb_sg p)) i k * (get (ev_dgdot_dtau v) k * dtau k))
    - pb_dt p * ev_ee_fac v * (pb_dt_ri p * get (vecsVMa 3 5 (M35_d_AAoB_dA (ev_e_f v)) (tab 5 de)) i - get (vecsVMa 3 5 (M35_d_AAoB_dA (ev_edot v)) (tab 5 de)) i)
    + get du i - pb_dt p * get (ofV3 (mulv (tr3 (dR (ev_C_quat v) dquat)) (toV3 (pb_w_veccp_sm p)))) i.
  Proof.
    intros L. rewrite sum8. assert (EP := parts_eq).
    rewrite (sum_ext 5 _ (fun j => pb_dt p * (get2 5 (dpl_deps_skew p v) i j * de j) - pb_dt p * ev_ee_fac v *
        (pb_dt_ri p * (get2 5 (M35_d_AAoB_dA (ev_e_f v)) i j * get (tab 5 de) j) - get2 5 (M35_d_AAoB_dA (ev_edot v)) i j * get (tab 5 de) j))).
    2:{ intros j Hj. unfold jacobian0. rewrite EP. cbv zeta beta iota. rewrite get2_tab2 by lia. destruct (Nat.ltb_spec (5 + i) 5); [lia|].
        replace (5 + i - 5)%nat with i by lia. rewrite get_tab by assumption.
        unfold sc, de. assert (Hj' := Hj). apply Nat.ltb_lt in Hj'. rewrite Hj'. change (ev_A_e v) with (M35_d_AAoB_dA (ev_e_f v)). rops. ring. }
    rewrite sum_minus, !sum_scal_l, sum_minus, sum_scal_l.
    rewrite (sum_ext 3 _ (fun e => (if Nat.eqb i e then - pb_dt p * get2 3 (snd (dxi_parts p v)) i e + 1 else - pb_dt p * get2 3 (snd (dxi_parts p v)) i e) * get du e)).
    2:{ intros j Hj. unfold jacobian0. rewrite EP. cbv zeta beta iota. rewrite get2_tab2 by lia. destruct (Nat.ltb_spec (5 + i) 5); [lia|].
        destruct (Nat.ltb_spec (5 + j) 5); [lia|]. unfold sc. destruct (Nat.ltb_spec (5 + j) 5); [lia|]. rewrite U by assumption. replace (5 + j - 5)%nat with j by lia.
        replace (5 + i - 5)%nat with i by lia.
        cbn [fst snd]; destruct (Nat.eqb_spec (5 + i) (5 + j)), (Nat.eqb_spec i j); try lia; reflexivity. }
    rewrite (sum_kron 3 (fun e => - pb_dt p * get2 3 (snd (dxi_parts p v)) i e)) by assumption.
    rewrite (sum_ext 3 _ (fun e => - pb_dt p * (get2 3 (snd (dxi_parts p v)) i e * get du e))) by (intros; ring). rewrite sum_scal_l.
    unfold dxi_parts. change (ev_C_matx v) with (quat_to_tensor (ev_C_quat v)).
    rewrite (pt_w (pb_d_vecd_sm p) (pb_w_veccp_sm p) (ev_xi v) (pb_Cn_quat p) (ev_C_quat v) du i Lw L).
    change (quat_prod (pb_Cn_quat p) (dmap (ev_xi v) du)) with dquat.
    change (dpl_deps_skew p v) with (vecsMABT 3 5 n (sg_Q (pb_sg p)) (dgdot_deps p v)). rewrite dg_eq by assumption.
    unfold vecsVMa. rewrite !get_tab by assumption.
    change (sum 5 (fun j => nmul (get2 5 (M35_d_AAoB_dA (ev_e_f v)) i j) (get (tab 5 de) j))) with (sum 5 (fun j => get2 5 (M35_d_AAoB_dA (ev_e_f v)) i j * get (tab 5 de) j)).
    change (sum 5 (fun j => nmul (get2 5 (M35_d_AAoB_dA (ev_edot v)) i j) (get (tab 5 de) j))) with (sum 5 (fun j => get2 5 (M35_d_AAoB_dA (ev_edot v)) i j * get (tab 5 de) j)).
    ring.
  Qed.
End Act.
