(** A spinning crystal with its tangent, and the same crystal described by axes turned by 120 degrees about (1,1,1) (C22). *)
From Coq Require Import List ZArith Bool Lia PeanoNat Reals Lra.
From Verif Require Import P_Demo.
From Verif Require Import Num Arr NumR Util SlipGeom Hard Evptn MatModel Cases SpecTensor SpecElast SpecSlip SpecApi SpecStress SpecStep SpecKinApi SpecJac SpecFrame SpecSym P_Tensor P_Sngl P_Sngl2 P_Stress
  P_Api P_Batch3 P_Builtin P_Hist P_Demo3 P_Demo5 P_Rest P_Rigid3 P_Frame P_Frame2 P_Demo2 P_Demo4 P_Step P_Jac2 SpecTan P_Lu P_Demo6 P_Demo7 P_Sym P_Sym2 P_Sym5 SpecSym2.
Import ListNotations.
Local Open Scope R_scope.

(** ** A linear solver that follows [lu_by V] into other coordinates *)
Definition Tm (S : M3) (i j : nat) : R :=
  if Nat.ltb i 5 then (if Nat.ltb j 5 then get2 5 (rmat S) j i else 0) else (if Nat.ltb j 5 then 0 else get2 3 (ofM3 S) (j - 5) (i - 5)).
Lemma Tm_get S x i : is_orth S -> List.length x = 8%nat -> (i < 8)%nat -> get (sym_map S x) i = sum 8 (fun j => Tm S i j * get x j).
Proof.
  intros HS L Hi. rewrite sum8. unfold Tm. destruct (Nat.ltb_spec i 5) as [Hl|Hl].
  - rewrite (sum_zero 3) by (intros k Hk; destruct (Nat.ltb_spec (5 + k) 5); [lia|ring]). rewrite get_map5 by assumption. rewrite Rplus_0_r.
    apply sum_ext. intros j Hj. apply Nat.ltb_lt in Hj. rewrite Hj. reflexivity.
  - rewrite (sum_zero 5) by (intros k Hk; destruct (Nat.ltb_spec k 5); [ring|lia]). rewrite Rplus_0_l. replace i with (5 + (i - 5))%nat at 1 by lia. rewrite get_map3 by (assumption || lia).
    apply sum_ext. intros j Hj. destruct (Nat.ltb_spec (5 + j) 5); [lia|]. replace (5 + j - 5)%nat with j by lia. reflexivity.
Qed.
Definition turn_V (S : M3) (V : list R) : list R := tab2 8 8 (fun i j => sum 8 (fun a => Tm S i a * sum 8 (fun d => get2 8 V a d * Tm (tr3 S) d j))).
Lemma get_mv A u i : (i < 8)%nat -> get (mv 8 A u) i = sum 8 (fun j => get2 8 A i j * get u j).
Proof. exact (mv_get A u i). Qed.
Lemma mv8_len A u : List.length (mv 8 A u) = 8%nat. Proof. reflexivity. Qed.
Lemma mv_turn S V z : is_orth S -> List.length z = 8%nat -> mv 8 (turn_V S V) z = sym_map S (mv 8 V (sym_map (tr3 S) z)).
Proof.
  intros HS L. apply list_get_ext; [reflexivity|]. rewrite mv8_len. intros i Hi. rewrite get_mv by exact Hi. rewrite Tm_get by (assumption || reflexivity).
  rewrite (sum_ext 8 _ (fun j => sum 8 (fun a => Tm S i a * sum 8 (fun d => get2 8 V a d * Tm (tr3 S) d j) * get z j))).
  2:{ intros j Hj. unfold turn_V. rewrite get2_tab2 by assumption. rewrite sum_scal_r. reflexivity. }
  rewrite sum_exchange. apply sum_ext. intros a Ha. rewrite get_mv by exact Ha.
  rewrite (sum_ext 8 _ (fun j => Tm S i a * sum 8 (fun d => get2 8 V a d * (Tm (tr3 S) d j * get z j)))).
  2:{ intros j Hj. rewrite Rmult_assoc. f_equal. rewrite <- sum_scal_r. apply sum_ext. intros d Hd. ring. }
  rewrite sum_scal_l. f_equal. rewrite sum_exchange. apply sum_ext. intros d Hd. rewrite sum_scal_l. f_equal.
  rewrite Tm_get by (try apply orth_tr; assumption). reflexivity.
Qed.
Definition unit8 (j : nat) : list R := tab 8 (fun q => if Nat.eqb j q then 1 else 0).
Lemma mv_unit A i j : (i < 8)%nat -> (j < 8)%nat -> get (mv 8 A (unit8 j)) i = get2 8 A i j.
Proof.
  intros Hi Hj. rewrite get_mv by exact Hi. rewrite (sum_ext 8 _ (fun q => (if Nat.eqb j q then 1 else 0) * get2 8 A i q)).
  - apply (sum_delta 8 (fun q => get2 8 A i q) j Hj).
  - intros q Hq. unfold unit8. rewrite get_tab by exact Hq. ring.
Qed.
Lemma mv_prod A V j i : (i < 8)%nat -> (j < 8)%nat -> sum 8 (fun q => get2 8 A i q * get2 8 V q j) = get (mv 8 A (mv 8 V (unit8 j))) i.
Proof. intros Hi Hj. rewrite get_mv by exact Hi. apply sum_ext. intros q Hq. rewrite mv_unit by assumption. reflexivity. Qed.
Lemma mv_id A V z : List.length z = 8%nat -> (forall i j, (i < 8)%nat -> (j < 8)%nat -> sum 8 (fun q => get2 8 A i q * get2 8 V q j) = if Nat.eqb i j then 1 else 0) -> mv 8 A (mv 8 V z) = z.
Proof.
  intros L H. apply list_get_ext; [rewrite L; reflexivity|]. rewrite mv8_len. intros i Hi. rewrite get_mv by exact Hi.
  rewrite (sum_ext 8 _ (fun q => sum 8 (fun j => get2 8 A i q * get2 8 V q j * get z j))).
  2:{ intros q Hq. rewrite get_mv by exact Hq. rewrite <- sum_scal_l. apply sum_ext. intros; ring. }
  rewrite sum_exchange. rewrite (sum_ext 8 _ (fun j => (if Nat.eqb i j then 1 else 0) * get z j)).
  - apply (sum_delta 8 (get z) i Hi).
  - intros j Hj. rewrite sum_scal_r, H by assumption. reflexivity.
Qed.
Lemma lu_turn S V : is_orth S -> lu_follows S (lu_by V) (lu_by (turn_V S V)).
Proof.
  intros HS A A' B B' k HA H. unfold lu_by in *. destruct (is_id 8 _) eqn:E1 in H; [|cbn [andb] in H; congruence]. cbn [andb] in H. destruct (is_id 8 _) eqn:E2 in H; [|congruence]. clear H.
  rewrite is_id_spec in E1, E2. pose proof (map_isometry S HS) as [HI _].
  assert (UL : forall j, List.length (unit8 j) = 8%nat) by reflexivity.
  assert (TI : forall j, sym_map S (sym_map (tr3 S) (unit8 j)) = unit8 j) by (intros j; exact (proj1 (proj2 (proj2 (HI (unit8 j) (UL j)))))).
  assert (IT : forall z, List.length z = 8%nat -> sym_map (tr3 S) (sym_map S z) = z) by (intros z L; exact (proj1 (proj2 (proj2 (proj2 (HI z L)))))).
  assert (GU : forall i j, (i < 8)%nat -> (j < 8)%nat -> get (unit8 j) i = if Nat.eqb i j then 1 else 0) by (intros i j Hi Hj; unfold unit8; rewrite get_tab by exact Hi; rewrite Nat.eqb_sym; reflexivity).
  assert (F1 : is_id 8 (fun i j => sum 8 (fun q => get2 8 A' i q * get2 8 (turn_V S V) q j)) = true).
  { apply is_id_spec. intros i j Hi Hj. rewrite mv_prod by assumption. rewrite mv_turn by (assumption || reflexivity). rewrite HA by reflexivity.
    rewrite (mv_id A V) by (exact E1 || reflexivity). rewrite TI. now apply GU. }
  assert (F2 : is_id 8 (fun i j => sum 8 (fun q => get2 8 (turn_V S V) i q * get2 8 A' q j)) = true).
  { apply is_id_spec. intros i j Hi Hj. rewrite mv_prod by assumption. rewrite mv_turn by (assumption || reflexivity). rewrite <- (TI j) at 1. rewrite HA by reflexivity.
    rewrite IT by reflexivity. rewrite (mv_id V A) by (exact E2 || reflexivity). rewrite TI. now apply GU. }
  rewrite F1, F2. discriminate.
Qed.

(** ** The two calls *)
Lemma d23_cubic : cubic_rot d7_Q.
Proof.
  split; [split; [split; unfold d7_Q, mul3, tr3, I3; cbn [a00 a01 a02 a10 a11 a12 a20 a21 a22]; apply mk3_eq; ring|unfold det3, d7_Q; cbn [a00 a01 a02 a10 a11 a12 a20 a21 a22]; ring]|].
  unfold d7_Q, whole. cbn [a00 a01 a02 a10 a11 a12 a20 a21 a22].
  repeat split; (now exists 0%Z) || (now exists 1%Z).
Qed.
Definition d23_m : Mem R := fun a =>
  match a with
  | AH => [0; 7; 0; 0; 0; 0; 0; 0; 0; 2; 2; 2; 2; 1; 0; 0; 0; 0; 0; 0; 0; 0; 0; 0; 0; 0]
  | _ => d6_m a
  end.
Lemma d23_batch : batch_ok (d2_c checked) (d2_s checked) true 1 d23_m.
Proof.
  split.
  - rewrite d2_strides. split; [|cbn; lia]. intros a Ha. destruct a; reflexivity.
  - rewrite d2_strides. intros a i Hi Hp. destruct i as [|i]; [|lia]; destruct a; cbn in *; lia.
Qed.
Definition d23_x : list R := sym_map d7_Q [0; 0; 0; 0; 0; 0; 0; 50].
(** the solver that answers with the corresponding point *)
Definition d23_solver : Solver R := fun _ _ _ _ _ => {| so_converged := true; so_x := d23_x; so_xlast := d23_x; so_nfev := 1; so_nfev_rj := 2 |}.
Definition d23_lu : LUSolver R := lu_by (turn_V d7_Q (rest_V d6_al (/ 2))).
Definition d23_b : BCall := d6_call true.
Definition d23_b' : BCall := call_of (d2_c checked) (d2_s checked) d23_solver d23_lu true 1 (/ 10) d23_m.
Lemma d23_quat : quat (d2_s checked) d23_m 0 = [2; 2; 2; 2].
Proof. unfold quat, val. rewrite d2_strides. reflexivity. Qed.
Lemma d23_rotates : exists C, rotates (unit4 (quat (d2_s checked) d6_m 0)) C /\ rotates (unit4 (quat (d2_s checked) d23_m 0)) (mul3 C d7_Q).
Proof.
  rewrite d6_quat, d23_quat. replace [2; 2; 2; 2] with (quat_prod [2; 0; 0; 0] [1; 1; 1; 1]) by (rewrite qp_form; repeat (f_equal; [lra|]); f_equal; lra).
  rewrite unit4_prod by reflexivity. rewrite (d7_unit 1 1 1 1 2) by lra.
  exists (rotq (unit4 [2; 0; 0; 0])). split; [apply rotq_rotates; reflexivity|].
  replace d7_Q with (rotq [1 / 2; 1 / 2; 1 / 2; 1 / 2]).
  - rewrite <- rotq_prod by reflexivity. apply rotq_rotates. reflexivity.
  - rewrite rotq_form. apply mk3_eq; lra.
Qed.
Lemma d23_h k : (k < 9)%nat \/ (13 <= k)%nat -> val (d2_s checked) d23_m AH 0 k = val (d2_s checked) d6_m AH 0 k.
Proof.
  intros Hk. unfold val. rewrite d2_strides. cbn [Nat.mul Nat.add d23_m d6_m].
  do 9 (destruct k as [|k]; [reflexivity|]). do 4 (destruct k as [|k]; [exfalso; lia|]). reflexivity.
Qed.
Lemma d23_equiv sg ep : equivalent_in (d2_c checked) d7_Q sg ep d23_b 0 d23_b' 0.
Proof.
  destruct (d6_at_rest checked) as (_ & B & _).
  unfold equivalent_in. cbv zeta. change (b_s d23_b) with (d2_s checked). change (b_s d23_b') with (d2_s checked). change (b_m d23_b) with d6_m. change (b_m d23_b') with d23_m.
  refine (conj eq_refl (conj eq_refl (conj eq_refl (conj d23_rotates (conj _ (conj eq_refl (conj eq_refl (conj _ (conj _ _))))))))).
  - intros k Hk. reflexivity.
  - intros k Hk. apply d23_h. clear - Hk. lia.
  - assert (B' : dev_strain (d2_s checked) d23_m 0 = dev_strain (d2_s checked) d6_m 0).
    { change (ten5 (tab 5 (fun k => val (d2_s checked) d23_m AH 0 (4 + k))) = ten5 (tab 5 (fun k => val (d2_s checked) d6_m AH 0 (4 + k)))). f_equal.
      apply tab_ext. intros k Hk. apply d23_h. lia. }
    rewrite B', B. unfold cong, mul3, tr3, Z3, d7_Q. cbn [a00 a01 a02 a10 a11 a12 a20 a21 a22]. apply mk3_eq; ring.
  - intros k Hk. change (c_nslip (d2_c checked)) with 12%nat in Hk.
    assert (Z : forall j, val (d2_s checked) d6_m AH 0 (14 + j) = 0).
    { intros j. unfold val. rewrite d2_strides. cbn [Nat.mul Nat.add d6_m stride_of gstride map nth st_history]. do 12 (destruct j as [|j]; [reflexivity|]). destruct j; reflexivity. }
    rewrite d23_h by lia. rewrite !Z. ring.
Qed.
Lemma d23_corr f f' tol it x0 : answers_correspond d7_Q (b_solver d23_b 8%nat f tol it x0) (b_solver d23_b' 8%nat f' tol it x0).
Proof.
  change (b_solver d23_b) with (offer (rest_x (d2_s checked) d6_m (/ 10) 0)). change (b_solver d23_b') with d23_solver.
  unfold answers_correspond, offer, d23_solver. cbn [so_x so_xlast so_nfev so_nfev_rj].
  rewrite d6_x. refine (conj eq_refl (conj eq_refl (conj eq_refl (conj eq_refl (conj eq_refl (conj eq_refl _)))))).
  right. apply Rlt_le_trans with (/ 10 ^ 9); [|exact d6_rot]. apply Rinv_lt_contravar; [apply Rmult_lt_0_compat; apply pow_lt; lra|]. apply Rlt_pow; [lra|lia].
Qed.
Lemma d23_follows md sd law ref : follows (d2_c checked) demo_pars d23_b 0 d7_Q md sd law ref d23_solver.
Proof. intros f f' C0 _ _ _ _ _. cbv zeta. intros _. split; [reflexivity|]. exact (d23_corr f f' _ _ _). Qed.
Lemma d23_turns : d23_x <> [0; 0; 0; 0; 0; 0; 0; 50].
Proof.
  intros X. apply (f_equal (fun l => nth 7 l 0)) in X. unfold d23_x, sym_map, d7_Q, mulv, tr3, ofV3 in X. cbn [nth app vec5 a00 a01 a02 a10 a11 a12 a20 a21 a22 v0 v1 v2] in X. lra.
Qed.
