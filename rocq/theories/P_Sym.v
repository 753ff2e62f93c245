(** Equivalent lattice orientations: the equations of one step for two of them (C22). *)
From Coq Require Import List ZArith Bool Lia PeanoNat Reals Lra Permutation.
From Verif Require Import Num Arr NumR Util SlipGeom Hard Elast Evptn SpecTensor P_Tensor P_Latop P_Stress SpecStep P_Step P_Energy P_Jac P_Jac2 P_Frame.
Import ListNotations.
Local Open Scope R_scope.

(** ** sums in another order *)
Lemma sum_perm n (s : nat -> nat) (f : nat -> R) : (forall k, (k < n)%nat -> (s k < n)%nat) -> (forall j k, (j < n)%nat -> (k < n)%nat -> s j = s k -> j = k) ->
  sum n (fun k => f (s k)) = sum n f.
Proof.
  intros H1 H2. rewrite !sum_fold.
  assert (P : Permutation (map s (seq 0 n)) (seq 0 n)).
  { apply NoDup_Permutation_bis.
    - assert (HN := seq_NoDup n 0). assert (HI : forall k, In k (seq 0 n) -> (k < n)%nat) by (intros k Hk; apply in_seq in Hk; lia).
      revert HN HI. generalize (seq 0 n) as l. induction l as [|a l IH]; intros HN HI; [constructor|]. cbn [map]. inversion HN; subst. constructor.
      + intros H. apply in_map_iff in H. destruct H as (b & E & Hb). assert (b = a) by (apply H2; [apply HI; now right|apply HI; now left|exact E]). subst. contradiction.
      + apply IH; [assumption|]. intros k Hk. apply HI. now right.
    - rewrite map_length. lia.
    - intros k Hk. apply in_map_iff in Hk. destruct Hk as (b & <- & Hb). apply in_seq in Hb. apply in_seq. specialize (H1 b). lia. }
  rewrite <- (map_map s f). apply (Permutation_map f) in P. revert P. generalize (map f (map s (seq 0 n))) (map f (seq 0 n)). intros a b P.
  induction P; cbn [fold_right]; lra.
Qed.
Lemma get_lin5 C l i : is_orth C -> List.length l = 5%nat -> (i < 5)%nat -> get (vec5 (cong (tr3 C) (ten5 l))) i = sum 5 (fun j => get2 5 (rmat C) j i * get l j).
Proof.
  intros HC L Hi. rewrite <- rmat_apply_T by (assumption || apply ten5_dev). rewrite vec5_ten5 by exact L. unfold vecsVMTa. rewrite get_tab by assumption. reflexivity.
Qed.
Lemma get_lin3 C l i : List.length l = 3%nat -> (i < 3)%nat -> get (ofV3 (mulv (tr3 C) (toV3 l))) i = sum 3 (fun j => get2 3 (ofM3 C) j i * get l j).
Proof.
  intros L Hi. rewrite <- mat3_apply_T. unfold vecsVMTa. rewrite get_tab by assumption. replace (ofV3 (toV3 l)) with l by (explode l; reflexivity). reflexivity.
Qed.
Definition rm (m : nat) (M : list R) (f : nat -> R) (i : nat) : R := sum m (fun j => get2 m M j i * f j).
Lemma rm_ext m M f g i : (forall j, (j < m)%nat -> f j = g j) -> rm m M f i = rm m M g i.
Proof. intros H. apply sum_ext. intros j Hj. now rewrite H. Qed.
Lemma rm_plus m M f g i : rm m M (fun j => f j + g j) i = rm m M f i + rm m M g i.
Proof. unfold rm. rewrite <- sum_plus. apply sum_ext. intros; ring. Qed.
Lemma rm_minus m M f g i : rm m M (fun j => f j - g j) i = rm m M f i - rm m M g i.
Proof. unfold rm. rewrite <- sum_minus. apply sum_ext. intros; ring. Qed.
Lemma rm_scal m M c f i : rm m M (fun j => c * f j) i = c * rm m M f i.
Proof. unfold rm. rewrite <- sum_scal_l. apply sum_ext. intros; ring. Qed.
Lemma rm_sum m M n F i : rm m M (fun j => sum n (fun k => F k j)) i = sum n (fun k => rm m M (F k) i).
Proof.
  unfold rm. rewrite sum_exchange. apply sum_ext. intros j Hj. now rewrite sum_scal_l.
Qed.

(** ** rotation vectors *)
Lemma qconj q s v : List.length q = 4%nat -> SpecTensor.norm2 q = 1 ->
  quat_prod q (s :: ofV3 (mulv (tr3 (rotq q)) v)) = quat_prod (s :: ofV3 v) q.
Proof.
  intros Lq Nq. explode q. rewrite rotq_form. destruct v as [v0' v1' v2']. unfold mulv, tr3, ofV3. cbn [v0 v1 v2 a00 a01 a02 a10 a11 a12 a20 a21 a22].
  rewrite !qp_form. unfold SpecTensor.norm2 in Nq. cbn [fold_right] in Nq.
  assert (E : x * x = 1 - x0 * x0 - x1 * x1 - x2 * x2) by lra. clear Nq.
  f_equal; [|f_equal; [|f_equal; [|f_equal]]]; ring [E].
Qed.
Lemma unitv_turn Q w : is_orth Q -> unitv (mulv Q w) = mulv Q (unitv w).
Proof. apply unitv_rot. Qed.
Lemma dot_mulv Q a b : is_orth Q -> dotv (mulv Q a) (mulv Q b) = dotv a b.
Proof.
  intros [_ H]. assert (E : dotv (mulv Q a) (mulv Q b) = dotv a (mulv (mul3 (tr3 Q) Q) b)) by (destruct Q, a, b; spec; ring).
  rewrite E, H. destruct a, b. spec. ring.
Qed.
Definition off (w : V3) : Prop := norm3 w = 0 \/ / 10 ^ 90 < norm3 w.
Lemma emap_turn q w : List.length q = 4%nat -> SpecTensor.norm2 q = 1 -> off w ->
  quat_prod q (emap_to_quat (ofV3 (mulv (tr3 (rotq q)) w))) = quat_prod (emap_to_quat (ofV3 w)) q.
Proof.
  intros Lq Nq Ho. pose proof (rotq_rot q Lq Nq) as [OQ _]. apply orth_tr in OQ.
  rewrite !emap_to_quat_R. cbv zeta. rewrite norm_mulv by exact OQ. unfold emap_axis. rewrite norm_mulv by exact OQ.
  assert (G : forall n, quat_prod q [cos (norm3 w / 2); sin (norm3 w / 2) * v0 (mulv (tr3 (rotq q)) n); sin (norm3 w / 2) * v1 (mulv (tr3 (rotq q)) n); sin (norm3 w / 2) * v2 (mulv (tr3 (rotq q)) n)]
      = quat_prod [cos (norm3 w / 2); sin (norm3 w / 2) * v0 n; sin (norm3 w / 2) * v1 n; sin (norm3 w / 2) * v2 n] q).
  { intros n. set (c := cos _). set (s := sin _). refine (eq_trans _ (qconj q c (mkV (s * v0 n) (s * v1 n) (s * v2 n)) Lq Nq)). f_equal. unfold ofV3. f_equal.
    clearbody s. destruct (tr3 (rotq q)) as [t1 t2 t3 t4 t5 t6 t7 t8 t9], n as [n1 n2 n3]. unfold mulv. cbn [v0 v1 v2 a00 a01 a02 a10 a11 a12 a20 a21 a22]. f_equal; [ring|f_equal; [ring|f_equal; ring]]. }
  destruct Ho as [H0|H1].
  - assert (E : Rltb (/ 10 ^ 90) (norm3 w) = false) by (apply Rltb_false; rewrite H0; left; apply tiny_pos). rewrite E, H0.
    replace (0 / 2) with 0 by field. rewrite sin_0, cos_0. cbn [v0 v1 v2]. refine (eq_trans _ (qconj q 1 (mkV (0 * 1) (0 * 0) (0 * 0)) Lq Nq)). f_equal. f_equal.
    destruct (tr3 (rotq q)) as [t1 t2 t3 t4 t5 t6 t7 t8 t9]. unfold mulv, ofV3. cbn [v0 v1 v2 a00 a01 a02 a10 a11 a12 a20 a21 a22]. f_equal; [ring|f_equal; [ring|f_equal; ring]].
  - apply Rltb_true in H1. rewrite H1, unitv_turn by exact OQ. apply G.
Qed.

(** the derivative of the quaternion applied to a direction *)
Definition dmap (xi u : list R) : list R := tab 4 (fun k => sum 3 (fun e => get2 4 (dquat_demap_T xi) e k * get u e)).
Lemma dmap_form w u : exists n, (norm3 w <> 0 -> / 10 ^ 90 <= norm3 w -> n = unitv w) /\
  let th := norm3 w in
  let '(hs, sb) := if Rltb (Rabs th) (/ 10 ^ 9) then (th / 4, / 2 - th * th / 48) else (sin (th * / 2) / 2, sin (th * / 2) / th) in
  let c := cos (th * / 2) / 2 - sb in
  dmap (ofV3 w) (ofV3 u) = [- hs * dotv n u; sb * v0 u + c * dotv n u * v0 n; sb * v1 u + c * dotv n u * v1 n; sb * v2 u + c * dotv n u * v2 n].
Proof.
  set (th := norm3 w).
  exists (if Rltb (Rabs th) (/ 10 ^ 9) then if Rltb (Rabs th) (/ 10 ^ 90) then mkV 1 0 0 else unitv w else unitv w). split.
  - intros H1 H2. destruct (Rltb (Rabs th) (/ 10 ^ 9)); [|reflexivity]. assert (E : Rltb (Rabs th) (/ 10 ^ 90) = false).
    { apply Rltb_false. pose proof tiny_pos. rewrite Rabs_right by lra. exact H2. }
    rewrite E. reflexivity.
  - assert (L9 : nlit 1 (-9) = / 10 ^ 9) by (cbn [nlit RNum Rlit]; rewrite pow_IZR; unfold Rdiv; rewrite Rmult_1_l; reflexivity).
    unfold dmap. unfold dquat_demap_T, emapdim. rewrite vecNorm3. fold th. rewrite tiny_R, L9. clear L9.
    change (nltb (nabs th) (/ 10 ^ 9)) with (Rltb (Rabs th) (/ 10 ^ 9)). change (nltb (nabs th) (/ 10 ^ 90)) with (Rltb (Rabs th) (/ 10 ^ 90)).
    unfold unitv. fold th. clearbody th. destruct w as [x y z], u as [a b c].
    destruct (Rltb (Rabs th) (/ 10 ^ 9)); [destruct (Rltb (Rabs th) (/ 10 ^ 90))|]; cbv zeta beta iota; unfold dotv, ofV3; cbn [v0 v1 v2]; rarr;
      set (S := sin (th * / 2)); set (C := cos (th * / 2)); clearbody S C.
    + f_equal; [field|f_equal; [field|f_equal; [field|f_equal; field]]].
    + set (ti := / th). unfold Rdiv. fold ti. clearbody ti. f_equal; [field|f_equal; [field|f_equal; [field|f_equal; field]]].
    + set (ti := / th). unfold Rdiv. fold ti. clearbody ti. f_equal; [field|f_equal; [field|f_equal; [field|f_equal; field]]].
Qed.
Lemma dmap_turn q w u : List.length q = 4%nat -> SpecTensor.norm2 q = 1 -> off w ->
  quat_prod q (dmap (ofV3 (mulv (tr3 (rotq q)) w)) (ofV3 (mulv (tr3 (rotq q)) u))) = quat_prod (dmap (ofV3 w) (ofV3 u)) q.
Proof.
  intros Lq Nq Ho. pose proof (rotq_rot q Lq Nq) as [OQ _]. apply orth_tr in OQ.
  destruct (dmap_form w u) as (n & Hn & E). destruct (dmap_form (mulv (tr3 (rotq q)) w) (mulv (tr3 (rotq q)) u)) as (n' & Hn' & E').
  rewrite norm_mulv in Hn', E' by exact OQ. cbv zeta in E, E'. set (th := norm3 w) in *.
  set (pr := if Rltb (Rabs th) (/ 10 ^ 9) then _ else _) in E, E'. destruct pr as [hs sb] eqn:Epr. rewrite E, E'. clear E E'.
  assert (G : forall a b c d, quat_prod q (a :: ofV3 (mkV (b * v0 (mulv (tr3 (rotq q)) u) + c * v0 (mulv (tr3 (rotq q)) d)) (b * v1 (mulv (tr3 (rotq q)) u) + c * v1 (mulv (tr3 (rotq q)) d)) (b * v2 (mulv (tr3 (rotq q)) u) + c * v2 (mulv (tr3 (rotq q)) d))))
     = quat_prod (a :: ofV3 (mkV (b * v0 u + c * v0 d) (b * v1 u + c * v1 d) (b * v2 u + c * v2 d))) q).
  { intros a b c d. refine (eq_trans _ (qconj q a _ Lq Nq)). f_equal. f_equal. destruct (tr3 (rotq q)) as [t1 t2 t3 t4 t5 t6 t7 t8 t9], u as [u1 u2 u3], d as [d1 d2 d4]. unfold mulv, ofV3. cbn [v0 v1 v2 a00 a01 a02 a10 a11 a12 a20 a21 a22].
    f_equal; [ring|f_equal; [ring|f_equal; ring]]. }
  destruct Ho as [H0|H1].
  - assert (E9 : Rltb (Rabs th) (/ 10 ^ 9) = true).
    { apply Rltb_true. unfold th. rewrite H0, Rabs_R0. apply Rinv_0_lt_compat, pow_lt. lra. }
    unfold pr in Epr. rewrite E9 in Epr. unfold th in *. rewrite H0 in *. apply pair_equal_spec in Epr. destruct Epr as [<- <-].
    replace (0 * / 2) with 0 by field. rewrite cos_0. replace (1 / 2 - (/ 2 - 0 * 0 / 48)) with 0 by field. replace (- (0 / 4)) with 0 by field. rewrite !Rmult_0_l.
    specialize (G 0 (/ 2 - 0 * 0 / 48) 0 (mkV 0 0 0)). rewrite !Rmult_0_l in G. exact G.
  - pose proof tiny_pos as TP. assert (E1 : n = unitv w) by (apply Hn; [apply Rgt_not_eq; unfold th in *; lra|left; exact H1]).
    assert (E2 : n' = mulv (tr3 (rotq q)) n) by (rewrite E1, <- unitv_turn by exact OQ; apply Hn'; [apply Rgt_not_eq; unfold th in *; lra|left; exact H1]).
    rewrite E2. rewrite dot_mulv by exact OQ. apply G.
Qed.
Lemma dR_right q p d : List.length q = 4%nat -> List.length p = 4%nat -> List.length d = 4%nat ->
  dR (quat_prod p q) (quat_prod d q) = mul3 (dR p d) (rotq q).
Proof.
  intros. explode q. explode p. explode d. rewrite rotq_form, !qp_form, !dR_form. cbv [mul3 a00 a01 a02 a10 a11 a12 a20 a21 a22]. f_equal; ring.
Qed.
Lemma dcongT_right S C B A : dcongT (mul3 C S) (mul3 B S) A = cong (tr3 S) (dcongT C B A).
Proof. unfold dcongT, cong. rewrite !tr3_mul, tr3_tr. destruct S, C, B, A. spec. meq; ring. Qed.
