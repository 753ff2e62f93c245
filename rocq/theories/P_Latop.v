(** The derivative operators of the rotated vectors (C20). *)
From Coq Require Import List ZArith Bool Lia PeanoNat Reals Lra.
From Verif Require Import Num Arr NumR Util SpecTensor P_Tensor.
Import ListNotations.
Local Open Scope R_scope.

Definition dcongT (C B A : M3) : M3 := add3 (mul3 (mul3 (tr3 B) A) C) (mul3 (mul3 (tr3 C) A) B).
Lemma latop_R C B v : List.length v = 5%nat ->
  vecsVMa 5 9 (d_rot_mat_vecd_latop (ofM3 C) v) (ofM3 B) = vec5 (dcongT C B (ten5 v)).
Proof.
  intros L. explode v. destruct C, B. unfold dcongT. specR. unfold d_rot_mat_vecd_latop, vecsVMa. rarr.
  meq; field_s.
Qed.
Lemma smop_R C B v : List.length v = 5%nat ->
  vecsVMa 5 9 (d_rot_mat_vecd_smop (ofM3 C) v) (ofM3 B) = vec5 (add3 (mul3 (mul3 B (ten5 v)) (tr3 C)) (mul3 (mul3 C (ten5 v)) (tr3 B))).
Proof.
  intros L. explode v. destruct C, B. specR. unfold d_rot_mat_vecd_smop, vecsVMa. rarr.
  meq; field_s.
Qed.
Lemma wlatop_R B w : vecsVMa 3 9 (d_rot_mat_wveccp_latop (ofV3 w)) (ofM3 B) = ofV3 (mulv (tr3 B) w).
Proof. destruct B as [b1 b2 b3 b4 b5 b6 b7 b8 b9], w as [x y z]. spec. unfold d_rot_mat_wveccp_latop, vecsVMa. rarr. meq; ring. Qed.
