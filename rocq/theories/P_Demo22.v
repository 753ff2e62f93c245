(** A spinning crystal with its tangent, seen from a frame turned by 120 degrees about (1,1,1) (C21). *)
From Coq Require Import List ZArith Bool Lia PeanoNat Reals Lra.
From Verif Require Import P_Demo.
From Verif Require Import Num Arr NumR Util Hard Evptn MatModel Cases SpecTensor SpecElast SpecApi SpecStress SpecStep SpecFrame P_Tensor P_Sngl P_Sngl2 P_Stress
  P_Api P_Batch3 P_Builtin P_Hist P_Demo3 P_Demo5 P_Rigid3 P_Frame P_Frame2 P_Demo2 P_Demo4 SpecTan P_Lu P_Demo6 P_Demo7.
Import ListNotations.
Local Open Scope R_scope.

Definition d22_m : Mem R := fun a =>
  match a with
  | AW => [5; 0; 0]
  | AS => [-1; 1; 0; 2; 0; 0; 1]
  | AH => [0; 7; 0; 0; 0; 0; 0; 0; 0; 2; 2; 2; 2; 1; 0; 0; 0; 0; 0; 0; 0; 0; 0; 0; 0; 0]
  | _ => d6_m a
  end.
Definition d22_b : BCall := d6_call true.
Definition d22_b' : BCall := let s := d2_s checked in call_of (d2_c checked) s (offer (rest_x s d6_m (/ 10) 0)) d6_lu true 1 (/ 10) d22_m.
Lemma d22_batch : batch_ok (d2_c checked) (d2_s checked) true 1 d22_m.
Proof.
  split.
  - rewrite d2_strides. split; [|cbn; lia]. intros a Ha. destruct a; reflexivity.
  - rewrite d2_strides. intros a i Hi Hp. destruct i as [|i]; [|lia]; destruct a; cbn in *; lia.
Qed.
Lemma d22_turned : turned_in (d2_c checked) d7_Q d22_b 0 d22_b' 0.
Proof.
  unfold turned_in, devRate, spin, devStress, quat, eInt, pres. cbv zeta.
  change (b_s d22_b) with (d2_s checked). change (b_s d22_b') with (d2_s checked). change (b_m d22_b) with d6_m. change (b_m d22_b') with d22_m.
  unfold val. rewrite d2_strides. unfold stride_of. cbn [gstride st_def_rate st_spin st_vol_ratio st_int_eng st_stress st_history st_tkelv st_sdd firstn nth Nat.mul Nat.add d6_m d22_m d4_m demo_m map sym6].
  refine (conj _ (conj _ (conj _ (conj _ (conj _ (conj _ (conj _ _))))))).
  - unfold sym6; cbv [stride_of nth Nat.add Nat.mul firstn]; cbv [cong mul3 tr3 d7_Q a00 a01 a02 a10 a11 a12 a20 a21 a22]; apply mk3_eq; lra.
  - cbv [stride_of nth Nat.add Nat.mul firstn]; cbv [mulv d7_Q v0 v1 v2 a00 a01 a02 a10 a11 a12 a20 a21 a22]; f_equal; lra.
  - unfold sym6; cbv [stride_of nth Nat.add Nat.mul firstn]; cbv [cong mul3 tr3 d7_Q a00 a01 a02 a10 a11 a12 a20 a21 a22]; apply mk3_eq; lra.
  - apply d7_rot; [reflexivity|rewrite qp_form; repeat (f_equal; [lra|]); f_equal; lra].
  - intros k Hk. reflexivity.
  - reflexivity.
  - reflexivity.
  - intros k Hk Hn. change (c_nslip (d2_c checked)) with 12%nat in Hk. do 26 (destruct k as [|k]; [try reflexivity; lia|]); lia.
Qed.
Lemma d22_quat : norm2 (quat (d2_s checked) d6_m 0) <> 0 /\ norm2 (quat (d2_s checked) d22_m 0) <> 0 /\ trace (devRate (d2_s checked) d6_m 0) = 0.
Proof.
  unfold quat, devRate, norm2, val. rewrite d2_strides. cbn [stride_of firstn nth Nat.mul Nat.add d6_m d22_m d4_m demo_m map sym6 fold_right].
  split; [intros X; cbn in X; lra|split; [intros X; cbn in X; lra|]]. unfold trace, sym6. cbn. lra.
Qed.
Lemma d22_lu A B B' k : d6_lu 8%nat A B k <> None -> d6_lu 8%nat A B' k <> None.
Proof. unfold d6_lu, lu_by. destruct (is_id 8 _ && is_id 8 _); [discriminate|congruence]. Qed.
