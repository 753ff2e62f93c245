(** Proofs about the tensor utilities (ECMech_util.h) over R: C03 - C06. *)
From Coq Require Import List ZArith Bool Lia Reals Lra.
From Verif Require Import Num Arr NumR Util SpecTensor.
Import ListNotations.
Local Open Scope R_scope.

(** Reduce model code on explicit lists, and spec matrices, to arithmetic. *)
Ltac spec := cbv beta iota zeta delta
  [toM3 toV3 ofM3 ofV3 voigt svecP vec5 vec6 ten5 ten6 cong inner trace det3 outer axial dotv crossv mulv mul3 add3 scal3
   tr3 I3 Z3 basis a00 a01 a02 a10 a11 a12 a20 a21 a22 v0 v1 v2 app nth] in *.

(** ** Quaternions *)
Definition rotq (q : list R) : M3 := toM3 (quat_to_tensor q).

Lemma rotq_form a b c d :
  rotq [a;b;c;d] = mk3 (a*a+b*b-c*c-d*d) (2*(b*c-a*d)) (2*(b*d+a*c))
                       (2*(b*c+a*d)) (a*a-b*b+c*c-d*d) (2*(c*d-a*b))
                       (2*(b*d-a*c)) (2*(c*d+a*b)) (a*a-b*b-c*c+d*d).
Proof. reflexivity. Qed.

Lemma rotq_prod p q : length p = 4%nat -> length q = 4%nat ->
  rotq (quat_prod p q) = mul3 (rotq p) (rotq q).
Proof.
  intros. explode p. explode q. unfold quat_prod. rarr. rewrite !rotq_form. spec. meq; ring.
Qed.

Lemma rotq_opp q : length q = 4%nat -> rotq (map Ropp q) = rotq q.
Proof. intros. explode q. cbn [map]. rewrite !rotq_form. meq; ring. Qed.

Lemma rotq_tr a b c d : rotq [a; -b; -c; -d] = tr3 (rotq [a;b;c;d]).
Proof. rewrite !rotq_form. spec. meq; ring. Qed.

Lemma rotq_scaled_orth a b c d :
  let n := a*a+b*b+c*c+d*d in
  mul3 (rotq [a;b;c;d]) (tr3 (rotq [a;b;c;d])) = scal3 (n*n) I3.
Proof. rewrite !rotq_form. spec. meq; ring. Qed.
Lemma rotq_det a b c d :
  let n := a*a+b*b+c*c+d*d in det3 (rotq [a;b;c;d]) = n*n*n.
Proof. rewrite !rotq_form. spec. ring. Qed.

Lemma rotq_rot q : length q = 4%nat -> norm2 q = 1 -> is_rot (rotq q).
Proof.
  intros H Hn. explode q. unfold norm2 in Hn; cbn in Hn.
  match goal with |- is_rot (rotq [?a;?b;?c;?d]) =>
    assert (E : a*a+b*b+c*c+d*d = 1) by lra;
    pose proof (rotq_scaled_orth a b c d) as H1;
    pose proof (rotq_scaled_orth a (-b) (-c) (-d)) as H2;
    pose proof (rotq_det a b c d) as H3 end.
  cbn zeta in *. rewrite rotq_tr, tr3_tr in H2.
  rewrite !Rmult_opp_opp in H2. rewrite E in *.
  repeat split.
  - rewrite H1. spec. meq; ring.
  - rewrite H2. spec. meq; ring.
  - rewrite H3. ring.
Qed.

Lemma rotq_conj_action q v : length q = 4%nat ->
  hmul (hmul (toH q) (0, v)) (hconj (toH q)) = (0, mulv (rotq q) v).
Proof.
  intros. explode q. destruct v. rewrite rotq_form. unfold toH, hconj, hmul. spec.
  meq; ring.
Qed.

Lemma quat_prod_hmul p q : length p = 4%nat -> length q = 4%nat ->
  toH (quat_prod p q) = hmul (toH p) (toH q) /\ length (quat_prod p q) = 4%nat.
Proof.
  intros. explode p. explode q. unfold toH, hmul, quat_prod. rarr. spec. split; [|reflexivity].
  meq; ring.
Qed.

Lemma norm2_prod p q : length p = 4%nat -> length q = 4%nat ->
  norm2 (quat_prod p q) = norm2 p * norm2 q.
Proof. intros. explode p. explode q. unfold norm2, quat_prod. rarr. cbn [fold_right]. ring. Qed.

(** ** Exponential map *)
Lemma half_angles t : cos t = cos (t/2) * cos (t/2) - sin (t/2) * sin (t/2) /\
  sin t = 2 * sin (t/2) * cos (t/2) /\ cos (t/2) * cos (t/2) + sin (t/2) * sin (t/2) = 1.
Proof.
  split; [|split].
  - replace t with (2*(t/2)) at 1 by field. apply cos_2a.
  - replace t with (2*(t/2)) at 1 by field. apply sin_2a.
  - pose proof (sin2_cos2 (t/2)). unfold Rsqr in *. lra.
Qed.

Lemma rotq_axis_angle n t : dotv n n = 1 ->
  rotq [cos (t/2); sin (t/2) * v0 n; sin (t/2) * v1 n; sin (t/2) * v2 n] = rodrigues n t.
Proof.
  intros Hn. rewrite rotq_form. unfold rodrigues. destruct (half_angles t) as (-> & -> & H1).
  destruct n as [x y z]. spec. set (c := cos (t/2)) in *. set (s := sin (t/2)) in *. clearbody c s.
  assert (Hx : x*x = 1 - y*y - z*z) by lra.
  assert (Hc : c*c = 1 - s*s) by lra.
  meq; ring [Hc Hx].
Qed.

Lemma inv_to_quat_R t n : inv_to_quat (t :: ofV3 n) =
  [cos (t/2); sin (t/2) * v0 n; sin (t/2) * v1 n; sin (t/2) * v2 n].
Proof. unfold inv_to_quat, vecsVxa. spec. rarr. unfold Rdiv. reflexivity. Qed.

Lemma vecNorm3 w : vecNorm 3 (ofV3 w) = norm3 w.
Proof. unfold vecNorm, norm3. spec. rarr. apply f_equal. ring. Qed.

Lemma dotv_nonneg w : 0 <= dotv w w.
Proof. destruct w. spec. nra. Qed.
Lemma norm3_sq w : norm3 w * norm3 w = dotv w w.
Proof. apply sqrt_sqrt, dotv_nonneg. Qed.
Lemma unitv_unit w : 0 < norm3 w -> dotv (unitv w) (unitv w) = 1.
Proof.
  intros H. pose proof (norm3_sq w) as E. destruct w as [x y z]. unfold unitv.
  set (n := norm3 _) in *. clearbody n. spec.
  replace (_ + _ + _) with (/ n * / n * (x*x + y*y + z*z)) by ring. rewrite <- E. field. lra.
Qed.

(** the axis the code uses *)
Definition emap_axis (w : V3) : V3 :=
  if Rltb (/ 10 ^ 90) (norm3 w) then unitv w else mkV 1 0 0.

Lemma tiny_R : idp_tiny_sqrt = / 10 ^ 90.
Proof.
  unfold idp_tiny_sqrt. unfold nlit, RNum, Rlit. rewrite pow_IZR. unfold Rdiv.
  rewrite Rmult_1_l. reflexivity.
Qed.
Lemma tiny_pos : 0 < / 10 ^ 90.
Proof. apply Rinv_0_lt_compat, pow_lt. lra. Qed.

Lemma emap_axis_unit w : dotv (emap_axis w) (emap_axis w) = 1.
Proof.
  unfold emap_axis. destruct (Rltb _ _) eqn:E.
  - apply Rltb_true in E. apply unitv_unit. pose proof tiny_pos. lra.
  - spec. ring.
Qed.

Lemma emap_to_quat_R w : emap_to_quat (ofV3 w) =
  let t := norm3 w in let n := emap_axis w in
  [cos (t/2); sin (t/2) * v0 n; sin (t/2) * v1 n; sin (t/2) * v2 n].
Proof.
  unfold emap_to_quat. unfold emapdim. rewrite vecNorm3. rewrite tiny_R. unfold emap_axis.
  cbn zeta. change (nltb (/ 10 ^ 90) (norm3 w)) with (Rltb (/ 10 ^ 90) (norm3 w)).
  destruct (Rltb _ _) eqn:E.
  - rewrite <- inv_to_quat_R. f_equal. f_equal. unfold vecsVxa. rarr. spec.
    replace (1 / norm3 w) with (/ norm3 w) by (unfold Rdiv; ring). reflexivity.
  - rewrite <- (inv_to_quat_R _ (mkV 1 0 0)). reflexivity.
Qed.

Lemma emap_quat_unit w : norm2 (emap_to_quat (ofV3 w)) = 1 /\ length (emap_to_quat (ofV3 w)) = 4%nat.
Proof.
  rewrite emap_to_quat_R. cbn zeta. split; [|reflexivity].
  pose proof (emap_axis_unit w). destruct (half_angles (norm3 w)) as (_ & _ & H1).
  destruct (emap_axis w) as [x y z]. unfold norm2. cbn [fold_right v0 v1 v2 dotv] in *.
  unfold dotv in H; cbn in H.
  set (s := sin _) in *. set (c := cos _) in *. clearbody s c.
  assert (Hx : x*x = 1 - y*y - z*z) by lra. assert (Hc : c*c = 1 - s*s) by lra. ring [Hc Hx].
Qed.

Lemma emap_rot w : rotq (emap_to_quat (ofV3 w)) = rodrigues (emap_axis w) (norm3 w).
Proof. rewrite emap_to_quat_R. apply rotq_axis_angle, emap_axis_unit. Qed.

Lemma rodrigues_axis n t : dotv n n = 1 -> mulv (rodrigues n t) n = n.
Proof.
  destruct n as [x y z]. intros H. unfold rodrigues. spec.
  assert (Hx : x*x = 1 - y*y - z*z) by lra. set (c := cos t). set (s := sin t). meq; ring [Hx].
Qed.
Lemma rodrigues_trace n t : dotv n n = 1 -> trace (rodrigues n t) = 1 + 2 * cos t.
Proof.
  destruct n as [x y z]. intros H. unfold rodrigues. spec.
  assert (Hx : x*x = 1 - y*y - z*z) by lra. set (c := cos t). set (s := sin t). ring [Hx].
Qed.
Lemma norm3_opp w : norm3 (oppv w) = norm3 w.
Proof. unfold norm3. f_equal. destruct w. unfold oppv. spec. ring. Qed.
Lemma rodrigues_opp n t : rodrigues (oppv n) t = tr3 (rodrigues n t).
Proof. destruct n as [x y z]. unfold rodrigues, oppv. spec. meq; ring. Qed.
Lemma rodrigues_0 n : rodrigues n 0 = I3.
Proof. destruct n as [x y z]. unfold rodrigues. rewrite cos_0, sin_0. spec. meq; ring. Qed.

(** ** 5x5 rotation of deviatoric vectors *)
Definition rmat (C : M3) : list R := get_rot_mat_vecd (ofM3 C).

Lemma orth_rows C : is_orth C ->
  a00 C*a00 C + a01 C*a01 C + a02 C*a02 C = 1 /\ a10 C*a10 C + a11 C*a11 C + a12 C*a12 C = 1 /\
  a20 C*a20 C + a21 C*a21 C + a22 C*a22 C = 1 /\ a00 C*a10 C + a01 C*a11 C + a02 C*a12 C = 0 /\
  a00 C*a20 C + a01 C*a21 C + a02 C*a22 C = 0 /\ a10 C*a20 C + a11 C*a21 C + a12 C*a22 C = 0.
Proof. intros [H _]. unfold mul3, I3 in H. cbn in H. injection H. intros. repeat split; assumption. Qed.

Lemma sqrt6_s : / sqrt 6 = s2 * s3 / 6.
Proof. rewrite sqrt6. fold s2 s3. pose proof s2_neq. pose proof s3_neq. field_s. split; assumption. Qed.
Lemma inv_s2 : / sqrt 2 = s2 / 2.
Proof. fold s2. pose proof s2_neq. field_s. assumption. Qed.
Lemma inv_s3 : / sqrt 3 = s3 / 3.
Proof. fold s3. pose proof s3_neq. field_s. assumption. Qed.

Ltac specR := spec; rewrite ?sqrt6_s, ?inv_s2, ?inv_s3 in *.

Lemma rmat_entries C : is_orth C ->
  rmat C = tab2 5 5 (fun i j => inner (basis i) (cong C (basis j))).
Proof.
  intros HC. pose proof (orth_rows C HC) as (R1 & R2 & R3 & R4 & R5 & R6).
  pose proof (orth_rows (tr3 C) (orth_tr C HC)) as (C1 & C2 & C3 & C4 & C5 & C6).
  clear HC. destruct C as [c11 c12 c13 c21 c22 c23 c31 c32 c33].
  unfold rmat, get_rot_mat_vecd. specR. rarr. specR.
  pose proof s2_sq as E2; pose proof s3_sq as E3.
  assert (R1' : c11*c11 = 1 - c12*c12 - c13*c13) by lra.
  assert (R2' : c21*c21 = 1 - c22*c22 - c23*c23) by lra.
  assert (R3' : c31*c31 = 1 - c32*c32 - c33*c33) by lra.
  assert (R4' : c11*c21 = - c12*c22 - c13*c23) by lra.
  assert (R5' : c11*c31 = - c12*c32 - c13*c33) by lra.
  assert (R6' : c21*c31 = - c22*c32 - c23*c33) by lra.
  assert (C1' : c11*c11 = 1 - c21*c21 - c31*c31) by lra.
  assert (C2' : c12*c12 = 1 - c22*c22 - c32*c32) by lra.
  assert (C3' : c13*c13 = 1 - c23*c23 - c33*c33) by lra.
  assert (C4' : c11*c12 = - c21*c22 - c31*c32) by lra.
  assert (C5' : c11*c13 = - c21*c23 - c31*c33) by lra.
  assert (C6' : c12*c13 = - c22*c23 - c32*c33) by lra.
  meq; (field_simplify_eq;
   first [ reflexivity | ring [E2 E3] | ring [E2 E3 C4'] | ring [E2 E3 R4'] | ring [E2 E3 R1' R2' R3' R4' R5' R6'] | ring [E2 E3 C1' C2' C3' C4' C5' C6']
         | replace (s2 ^ 2) with 2 by (rewrite <- E2; ring); replace (s3 ^ 2) with 3 by (rewrite <- E3; ring); lra ]).
Qed.

Lemma get2_rmat C i j : is_orth C -> (i < 5)%nat -> (j < 5)%nat ->
  get2 5 (rmat C) i j = inner (basis i) (cong C (basis j)).
Proof. intros. rewrite rmat_entries by assumption. now rewrite get2_tab2. Qed.

Lemma vec5_get A j : (j < 5)%nat -> get (vec5 A) j = inner A (basis j).
Proof. intros. do 5 (try destruct j as [|j]); try lia; reflexivity. Qed.
Lemma vec5_tab A : vec5 A = tab 5 (fun j => inner A (basis j)).
Proof. reflexivity. Qed.

Lemma sum5 (f : nat -> R) : sum 5 f = f 0%nat + f 1%nat + f 2%nat + f 3%nat + f 4%nat.
Proof. cbn. ring. Qed.

(** expansion of an inner product with a deviatoric tensor in the basis *)
Lemma expand_dev B A : is_dev A -> sum 5 (fun j => inner B (basis j) * inner A (basis j)) = inner B A.
Proof.
  intros H. transitivity (inner B (ten5 (vec5 A))); [|now rewrite ten5_vec5]. rewrite sum5.
  unfold ten5. rewrite !inner_add_r, !inner_scal_r. cbn [nth vec5]. ring.
Qed.
Lemma basis_dev j : (j < 5)%nat -> is_dev (basis j).
Proof.
  intros. unfold is_dev, is_sym. do 5 (try destruct j as [|j]); try lia; spec; (split; [meq|]; ring).
Qed.

Lemma rmat_apply C A : is_orth C -> is_dev A -> vecsVMa 5 5 (rmat C) (vec5 A) = vec5 (cong C A).
Proof.
  intros HC HA. rewrite (vec5_tab (cong C A)). unfold vecsVMa. apply tab_ext. intros i Hi.
  rewrite (inner_comm (cong C A)), <- (tr3_tr C) at 1. rewrite (inner_comm _ (cong _ A)), cong_adj, tr3_tr.
  rewrite (inner_comm A).
  rewrite <- (expand_dev _ A HA).
  apply sum_ext. intros j Hj. rewrite get2_rmat, vec5_get by assumption. cbn [nmul RNum]. f_equal.
  rewrite <- (tr3_tr C) at 1. rewrite inner_comm, cong_adj, tr3_tr. apply inner_comm.
Qed.

Lemma rmat_apply_T C A : is_orth C -> is_dev A -> vecsVMTa 5 (rmat C) (vec5 A) = vec5 (cong (tr3 C) A).
Proof.
  intros HC HA. rewrite (vec5_tab (cong _ A)). unfold vecsVMTa. apply tab_ext. intros i Hi.
  rewrite cong_adj, tr3_tr, inner_comm. rewrite <- (expand_dev _ A HA).
  apply sum_ext. intros j Hj. rewrite get2_rmat, vec5_get by assumption. cbn [nmul RNum]. f_equal.
  apply inner_comm.
Qed.

Lemma rmat_mul C D : is_orth C -> is_orth D -> vecsMAB 5 5 5 (rmat C) (rmat D) = rmat (mul3 C D).
Proof.
  intros HC HD. rewrite (rmat_entries (mul3 C D)) by now apply orth_mul. unfold vecsMAB.
  apply tab2_ext. intros i j Hi Hj. rewrite cong_mul.
  rewrite inner_comm, cong_adj, inner_comm.
  rewrite <- (expand_dev _ (cong D (basis j))) by (apply cong_dev; [assumption|now apply basis_dev]).
  apply sum_ext. intros k Hk. rewrite !get2_rmat by assumption. cbn [nmul RNum]. f_equal.
  - rewrite inner_comm, cong_adj. apply inner_comm.
  - apply inner_comm.
Qed.

Lemma rmat_orth C i j : is_orth C -> (i < 5)%nat -> (j < 5)%nat ->
  get2 5 (vecsMABT 5 5 5 (rmat C) (rmat C)) i j = kron i j.
Proof.
  intros HC Hi Hj. unfold vecsMABT. rewrite get2_tab2 by assumption.
  rewrite <- basis_orthonormal by lia. rewrite <- (cong_inner (tr3 C)) by now apply orth_tr.
  rewrite <- (expand_dev _ (cong (tr3 C) (basis j))) by (apply cong_dev; [now apply orth_tr|now apply basis_dev]).
  apply sum_ext. intros k Hk. rewrite !get2_rmat by assumption. cbn [nmul RNum].
  f_equal; rewrite cong_adj, tr3_tr; reflexivity.
Qed.

(** 3x3 matrix-vector products *)
Lemma mat3_apply C w : vecsVMa 3 3 (ofM3 C) (ofV3 w) = ofV3 (mulv C w).
Proof. destruct C, w. unfold vecsVMa. spec. rarr. meq; ring. Qed.
Lemma mat3_apply_T C w : vecsVMTa 3 (ofM3 C) (ofV3 w) = ofV3 (mulv (tr3 C) w).
Proof. destruct C, w. unfold vecsVMTa. spec. rarr. meq; ring. Qed.

(** ** Notation changes *)
Ltac symc A H := destruct A; unfold is_sym in H; spec; injection H as ? ? _ ? _ _; subst.

Lemma symmToVecd_spec A : is_sym A -> symmToVecd (ofM3 A) = vec5 A.
Proof. intros H. symc A H. unfold symmToVecd. specR. rarr. meq; field_s. Qed.
Lemma symmToVecds_spec A : is_sym A -> symmToVecds (ofM3 A) = vec6 A.
Proof.
  intros H. symc A H. unfold symmToVecds, symmToVecd, traceToVecdsS, trace3. specR. rarr. meq; field_s.
Qed.
Lemma svecToVecd_spec A : is_sym A -> svecToVecd (svecP A) = vec5 A.
Proof. intros H. symc A H. unfold svecToVecd. specR. rarr. meq; field_s. Qed.
Lemma vecdsToSvecP_spec A : is_sym A -> vecdsToSvecP (vec6 A) = svecP A.
Proof. intros H. symc A H. unfold vecdsToSvecP. specR. rarr. meq; field_s. Qed.
Lemma svecpToSvec_spec A : svecpToSvec (svecP A) = voigt A.
Proof. destruct A. unfold svecpToSvec. specR. rarr. meq; field. Qed.

Lemma vecds_round v : length v = 6%nat ->
  svecToVecd (vecdsToSvecP v) ++ [- sqrt 3 * get (vecdsToSvecP v) 6] = v.
Proof. intros. explode v. unfold svecToVecd, vecdsToSvecP. fold s3. rarr. meq; field_s. Qed.
Lemma svecP_round s : length s = 7%nat -> get s 0 + get s 1 + get s 2 = 0 ->
  vecdsToSvecP (svecToVecd s ++ [- sqrt 3 * get s 6]) = s.
Proof.
  intros. explode s. unfold svecToVecd, vecdsToSvecP. fold s3. rarr.
  match goal with H : ?x + ?y + ?z = 0 |- _ => assert (x = - y - z) by lra; subst x; clear H end.
  meq; field_s.
Qed.
Lemma svecP_trace v : get (vecdsToSvecP v) 0 + get (vecdsToSvecP v) 1 + get (vecdsToSvecP v) 2 = 0.
Proof. unfold vecdsToSvecP. rarr. field. Qed.

Lemma ten6_sym v : is_sym (ten6 v).
Proof. unfold is_sym. spec. meq; ring. Qed.
Lemma vec6_ten6 v : length v = 6%nat -> vec6 (ten6 v) = v.
Proof. intros. explode v. specR. meq; field_s. Qed.
Lemma vec5_ten5 v : length v = 5%nat -> vec5 (ten5 v) = v.
Proof. intros. explode v. specR. meq; field_s. Qed.
Lemma vecdsToSvecP_ten v : length v = 6%nat -> vecdsToSvecP v = svecP (ten6 v).
Proof. intros. rewrite <- (vecdsToSvecP_spec _ (ten6_sym v)). now rewrite vec6_ten6. Qed.

Lemma vecsInner_spec A B : is_sym A -> is_sym B ->
  vecsInnerSvecDev (svecP A) (svecP B) = inner (dev3 A) (dev3 B).
Proof.
  intros HA HB. symc A HA. symc B HB. unfold vecsInnerSvecDev, dev3. specR. rarr. field.
Qed.
Lemma vec6_inner A B : is_sym A -> is_sym B -> vecsyadotb 6 (vec6 A) (vec6 B) = inner A B.
Proof. intros HA HB. symc A HA. symc B HB. unfold vecsyadotb. specR. rarr. field_s. Qed.
Lemma vec5_inner A B : is_sym A -> is_dev B -> vecsyadotb 5 (vec5 A) (vec5 B) = inner A B.
Proof.
  intros HA HB. rewrite <- (expand_dev A B HB). apply sum_ext. intros. now rewrite !vec5_get.
Qed.

Lemma vecdsToSvecP_lin c d u v : length u = 6%nat -> length v = 6%nat ->
  vecdsToSvecP (lin c d u v) = lin c d (vecdsToSvecP u) (vecdsToSvecP v).
Proof.
  intros. explode u. explode v. unfold lin. unfold vecdsToSvecP. cbn [combine map fst snd].
  rarr. cbn [combine map fst snd]. meq; field.
Qed.
Lemma svecToVecd_lin c d u v : length u = 7%nat -> length v = 7%nat ->
  svecToVecd (lin c d u v) = lin c d (svecToVecd u) (svecToVecd v).
Proof.
  intros. explode u. explode v. unfold lin. unfold svecToVecd. cbn [combine map fst snd].
  rarr. cbn [combine map fst snd]. meq; field.
Qed.
Lemma svecpToSvec_lin c d u v : length u = 7%nat -> length v = 7%nat ->
  svecpToSvec (lin c d u v) = lin c d (svecpToSvec u) (svecpToSvec v).
Proof.
  intros. explode u. explode v. unfold lin. unfold svecpToSvec. cbn [combine map fst snd].
  rarr. cbn [combine map fst snd]. meq; field.
Qed.

(** Schmid data: 5-vector of the symmetric part, axial vector of the skew part *)
Lemma matToPQ_spec A : fst (matToPQ (ofM3 A)) = vec5 (symp A) /\ axial (toV3 (snd (matToPQ (ofM3 A)))) = skwp A.
Proof.
  destruct A. unfold matToPQ, vecsMsymm, vecsMskew, symmToVecd, skewToVeccp, symp, skwp. specR. rarr. specR.
  split; meq; field_s.
Qed.

(** ** Statements assembled for the property file *)
Lemma emap_rot_big w : / 10 ^ 90 < norm3 w -> rotq (emap_to_quat (ofV3 w)) = rodrigues (unitv w) (norm3 w).
Proof. intros H. rewrite emap_rot. unfold emap_axis. now rewrite (proj2 (Rltb_true _ _) H). Qed.
Lemma emap_rot_small w : norm3 w <= / 10 ^ 90 ->
  rotq (emap_to_quat (ofV3 w)) = rodrigues (mkV 1 0 0) (norm3 w).
Proof. intros H. rewrite emap_rot. unfold emap_axis. now rewrite (proj2 (Rltb_false _ _) H). Qed.
Lemma norm3_0 : norm3 (mkV 0 0 0) = 0.
Proof. unfold norm3. spec. replace (0*0+0*0+0*0) with 0 by ring. apply sqrt_0. Qed.
Lemma emap_rot_zero : rotq (emap_to_quat (ofV3 (mkV 0 0 0))) = I3.
Proof. rewrite emap_rot_small; rewrite norm3_0. apply rodrigues_0. pose proof tiny_pos; lra. Qed.

Lemma mulv_scal A c x y z : mulv A (mkV (c*x) (c*y) (c*z)) =
  let r := mulv A (mkV x y z) in mkV (c * v0 r) (c * v1 r) (c * v2 r).
Proof. destruct A. spec. meq; ring. Qed.

Lemma unitv_opp w : unitv (oppv w) = oppv (unitv w).
Proof. unfold unitv. rewrite norm3_opp. destruct w. unfold oppv. cbn. meq; ring. Qed.

Lemma emap_axis_angle w : / 10 ^ 90 < norm3 w ->
  let Rm := rotq (emap_to_quat (ofV3 w)) in
  mulv Rm w = w /\ trace Rm = 1 + 2 * cos (norm3 w) /\
  rotq (emap_to_quat (ofV3 (oppv w))) = tr3 Rm /\ is_rot Rm.
Proof.
  intros H Rm. assert (H0 : 0 < norm3 w) by (pose proof tiny_pos; lra).
  assert (HR : Rm = rodrigues (unitv w) (norm3 w)) by now apply emap_rot_big.
  pose proof (unitv_unit w H0) as Hu.
  split; [|split; [|split]].
  - rewrite HR. pose proof (rodrigues_axis _ (norm3 w) Hu) as E.
    assert (Ew : w = mkV (norm3 w * v0 (unitv w)) (norm3 w * v1 (unitv w)) (norm3 w * v2 (unitv w))).
    { unfold unitv. cbn [v0 v1 v2]. apply V3_ext; cbn [v0 v1 v2]; field; lra. }
    rewrite Ew at 3. rewrite mulv_scal.
    assert (Eu : mkV (v0 (unitv w)) (v1 (unitv w)) (v2 (unitv w)) = unitv w) by reflexivity.
    rewrite Eu, E. cbn zeta. symmetry. exact Ew.
  - rewrite HR. now apply rodrigues_trace.
  - rewrite emap_rot_big by now rewrite norm3_opp. rewrite unitv_opp, norm3_opp, rodrigues_opp. now rewrite HR.
  - destruct (emap_quat_unit w). now apply rotq_rot.
Qed.

Lemma emap_case : / 10 ^ 90 < norm3 (mkV 3 0 4) /\ norm3 (mkV 0 0 0) <= / 10 ^ 90.
Proof.
  pose proof tiny_pos. split; [|rewrite norm3_0; lra].
  unfold norm3. spec. replace (3*3+0*0+4*4) with (5*5) by ring. rewrite sqrt_square by lra.
  apply Rlt_trans with 1; [|lra]. rewrite <- Rinv_1. apply Rinv_lt_contravar; [|apply Rlt_pow_R1; [lra|lia]].
  rewrite Rmult_1_l. apply pow_lt; lra.
Qed.
Lemma rmat_case : is_orth (mk3 0 (-1) 0 1 0 0 0 0 1) /\ is_dev (mk3 1 2 3 2 4 6 3 6 (-5)).
Proof. unfold is_orth, is_dev, is_sym. spec. repeat split; try lra; meq; ring. Qed.
Lemma svecP_trace_p v : length v = 6%nat ->
  get (vecdsToSvecP v) 0 + get (vecdsToSvecP v) 1 + get (vecdsToSvecP v) 2 = 0 /\
  get (vecdsToSvecP v) 6 = - (trace (ten6 v) / 3).
Proof.
  intros H. split; [apply svecP_trace|]. explode v. unfold vecdsToSvecP. specR. rarr. field_s.
Qed.
