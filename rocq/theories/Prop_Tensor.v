(** Property theorems C03 - C06: rotations and tensor notation. *)
From Coq Require Import List Reals Lra.
From Verif Require Import Num NumR Util SpecTensor P_Tensor.
Import ListNotations.
Local Open Scope R_scope.

(** C03. [quat_to_tensor] of a unit quaternion is a proper rotation; sign does not matter;
    products of quaternions are products of rotations; the matrix acts as q v q*. *)
Theorem C03_rotation q : length q = 4%nat -> norm2 q = 1 -> is_rot (toM3 (quat_to_tensor q)).
Proof. exact (rotq_rot q). Qed.
Theorem C03_sign q : length q = 4%nat ->
  toM3 (quat_to_tensor (map Ropp q)) = toM3 (quat_to_tensor q).
Proof. exact (rotq_opp q). Qed.
Theorem C03_product p q : length p = 4%nat -> length q = 4%nat ->
  toH (quat_prod p q) = hmul (toH p) (toH q) /\
  toM3 (quat_to_tensor (quat_prod p q)) = mul3 (toM3 (quat_to_tensor p)) (toM3 (quat_to_tensor q)) /\
  norm2 (quat_prod p q) = norm2 p * norm2 q.
Proof.
  intros Hp Hq. exact (conj (proj1 (quat_prod_hmul p q Hp Hq)) (conj (rotq_prod p q Hp Hq) (norm2_prod p q Hp Hq))).
Qed.
Theorem C03_action q v : length q = 4%nat ->
  hmul (hmul (toH q) (0, v)) (hconj (toH q)) = (0, mulv (toM3 (quat_to_tensor q)) v).
Proof. exact (rotq_conj_action q v). Qed.
Example C03_case : length [/2; -/2; /2; /2] = 4%nat /\ norm2 [/2; -/2; /2; /2] = 1.
Proof. split; [reflexivity|]. unfold norm2; cbn. lra. Qed.

(** C04. Exponential map. *)
Theorem C04_unit w : norm2 (emap_to_quat (ofV3 w)) = 1 /\ length (emap_to_quat (ofV3 w)) = 4%nat.
Proof. exact (emap_quat_unit w). Qed.
Theorem C04_rodrigues w : / 10 ^ 90 < norm3 w ->
  toM3 (quat_to_tensor (emap_to_quat (ofV3 w))) = rodrigues (unitv w) (norm3 w).
Proof. exact (emap_rot_big w). Qed.
Theorem C04_axis_angle w : / 10 ^ 90 < norm3 w ->
  let Rm := toM3 (quat_to_tensor (emap_to_quat (ofV3 w))) in
  mulv Rm w = w /\ trace Rm = 1 + 2 * cos (norm3 w) /\
  toM3 (quat_to_tensor (emap_to_quat (ofV3 (oppv w)))) = tr3 Rm /\ is_rot Rm.
Proof. exact (emap_axis_angle w). Qed.
Theorem C04_small w : norm3 w <= / 10 ^ 90 ->
  toM3 (quat_to_tensor (emap_to_quat (ofV3 w))) = rodrigues (mkV 1 0 0) (norm3 w).
Proof. exact (emap_rot_small w). Qed.
Theorem C04_zero : toM3 (quat_to_tensor (emap_to_quat (ofV3 (mkV 0 0 0)))) = I3.
Proof. exact emap_rot_zero. Qed.
Example C04_case : / 10 ^ 90 < norm3 (mkV 3 0 4) /\ norm3 (mkV 0 0 0) <= / 10 ^ 90.
Proof. exact emap_case. Qed.

(** C05. The 5x5 matrix of a rotation C maps components of A to components of C A C^T. *)
Theorem C05_apply C A : is_orth C -> is_dev A ->
  vecsVMa 5 5 (get_rot_mat_vecd (ofM3 C)) (vec5 A) = vec5 (cong C A) /\
  vecsVMTa 5 (get_rot_mat_vecd (ofM3 C)) (vec5 A) = vec5 (cong (tr3 C) A).
Proof. exact (fun HC HA => conj (rmat_apply C A HC HA) (rmat_apply_T C A HC HA)). Qed.
Theorem C05_orthogonal C i j : is_orth C -> (i < 5)%nat -> (j < 5)%nat ->
  get2 5 (vecsMABT 5 5 5 (get_rot_mat_vecd (ofM3 C)) (get_rot_mat_vecd (ofM3 C))) i j = kron i j.
Proof. exact (rmat_orth C i j). Qed.
Theorem C05_multiplicative C D : is_orth C -> is_orth D ->
  vecsMAB 5 5 5 (get_rot_mat_vecd (ofM3 C)) (get_rot_mat_vecd (ofM3 D)) = get_rot_mat_vecd (ofM3 (mul3 C D)).
Proof. exact (rmat_mul C D). Qed.
Example C05_case : is_orth (mk3 0 (-1) 0 1 0 0 0 0 1) /\ is_dev (mk3 1 2 3 2 4 6 3 6 (-5)).
Proof. exact rmat_case. Qed.

(** C06. Notation changes. *)
Theorem C06_components A : is_sym A ->
  symmToVecd (ofM3 A) = vec5 A /\ symmToVecds (ofM3 A) = vec6 A /\ svecToVecd (svecP A) = vec5 A /\
  vecdsToSvecP (vec6 A) = svecP A /\ svecpToSvec (svecP A) = voigt A.
Proof.
  exact (fun H => conj (symmToVecd_spec A H) (conj (symmToVecds_spec A H) (conj (svecToVecd_spec A H)
          (conj (vecdsToSvecP_spec A H) (svecpToSvec_spec A))))).
Qed.
Theorem C06_inverse : 
  (forall v, length v = 6%nat -> svecToVecd (vecdsToSvecP v) ++ [- sqrt 3 * nth 6 (vecdsToSvecP v) 0] = v) /\
  (forall s, length s = 7%nat -> nth 0 s 0 + nth 1 s 0 + nth 2 s 0 = 0 ->
     vecdsToSvecP (svecToVecd s ++ [- sqrt 3 * nth 6 s 0]) = s).
Proof. exact (conj vecds_round svecP_round). Qed.
Theorem C06_trace v : length v = 6%nat ->
  nth 0 (vecdsToSvecP v) 0 + nth 1 (vecdsToSvecP v) 0 + nth 2 (vecdsToSvecP v) 0 = 0 /\
  nth 6 (vecdsToSvecP v) 0 = - (trace (ten6 v) / 3).
Proof. exact (svecP_trace_p v). Qed.
Theorem C06_inner A B : is_sym A -> is_sym B ->
  vecsyadotb 6 (vec6 A) (vec6 B) = inner A B /\
  vecsInnerSvecDev (svecP A) (svecP B) = inner (dev3 A) (dev3 B).
Proof. exact (fun HA HB => conj (vec6_inner A B HA HB) (vecsInner_spec A B HA HB)). Qed.
Theorem C06_linear c d u v u' v' : length u = 6%nat -> length v = 6%nat -> length u' = 7%nat -> length v' = 7%nat ->
  vecdsToSvecP (lin c d u v) = lin c d (vecdsToSvecP u) (vecdsToSvecP v) /\
  svecToVecd (lin c d u' v') = lin c d (svecToVecd u') (svecToVecd v') /\
  svecpToSvec (lin c d u' v') = lin c d (svecpToSvec u') (svecpToSvec v').
Proof.
  exact (fun H1 H2 H3 H4 => conj (vecdsToSvecP_lin c d u v H1 H2)
          (conj (svecToVecd_lin c d u' v' H3 H4) (svecpToSvec_lin c d u' v' H3 H4))).
Qed.
Theorem C06_schmid A :
  fst (matToPQ (ofM3 A)) = vec5 (symp A) /\ axial (toV3 (snd (matToPQ (ofM3 A)))) = skwp A.
Proof. exact (matToPQ_spec A). Qed.
Example C06_case : is_sym (mk3 1 2 3 2 4 6 3 6 9) /\
  (length [1;2;-3;4;5;6;7] = 7%nat /\ nth 0 [1;2;-3;4;5;6;7] 0 + nth 1 [1;2;-3;4;5;6;7] 0 + nth 2 [1;2;-3;4;5;6;7] 0 = 0).
Proof. repeat split. cbn. lra. Qed.

Print Assumptions C03_rotation.
Print Assumptions C03_sign.
Print Assumptions C03_product.
Print Assumptions C03_action.
Print Assumptions C04_unit.
Print Assumptions C04_rodrigues.
Print Assumptions C04_axis_angle.
Print Assumptions C04_small.
Print Assumptions C04_zero.
Print Assumptions C05_apply.
Print Assumptions C05_orthogonal.
Print Assumptions C05_multiplicative.
Print Assumptions C06_components.
Print Assumptions C06_inverse.
Print Assumptions C06_trace.
Print Assumptions C06_inner.
Print Assumptions C06_linear.
Print Assumptions C06_schmid.
