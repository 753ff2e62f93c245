(** A pair of calls on two deforming crystals, seen from frames turned by 120 degrees about (1,1,1) (C21). *)
From Coq Require Import List ZArith Bool Lia PeanoNat Reals Lra.
From Verif Require Import Num Arr NumR Util Hard MatModel Cases SpecTensor SpecElast SpecApi SpecStress SpecStep SpecFrame P_Tensor P_Sngl P_Sngl2 P_Stress P_Api P_Batch3 P_Builtin P_Hist P_Demo P_Demo3 P_Demo5 P_Rigid3 P_Frame P_Frame2.
Import ListNotations.
Local Open Scope R_scope.

(** x -> y -> z -> x *)
Definition d7_Q : M3 := mk3 0 0 1  1 0 0  0 1 0.
Definition d7_m : Mem R := fun a =>
  match a with
  | AD => [0; 1; -1; /2; 0; 0; 0;   -1; 0; 1; 0; 1; 0; 0]
  | AW => [1; 0; 0;   0; 1; 0]
  | AS => [-1; 1; 0; 2; 0; 0; 1;   0; 0; 0; 1; 1; 1; 3]
  | AH => demo_h [1; 1; 1; 1] [1] ++ demo_h [-1; 3; 3; -1] [2]
  | _ => demo_m a
  end.
Definition d7_b : BCall := demo_call (/ 10) demo_m.
Definition d7_b' : BCall := call_of demo_c demo_s echo noLU false 2 (/ 10) d7_m.
Lemma d7_unit a b c d l : 0 < l -> a * a + b * b + c * c + d * d = l * l -> unit4 [a; b; c; d] = [a / l; b / l; c / l; d / l].
Proof.
  intros Hl E. unfold unit4. replace (SpecTensor.norm2 [a; b; c; d]) with (l * l) by (unfold SpecTensor.norm2; cbn [fold_right]; lra).
  rewrite sqrt_square by lra. reflexivity.
Qed.
Lemma unit4_prod t q : List.length t = 4%nat -> List.length q = 4%nat -> unit4 (quat_prod t q) = quat_prod (unit4 t) (unit4 q).
Proof.
  intros Lt Lq. unfold unit4. rewrite norm2_prod by assumption.
  rewrite sqrt_mult by apply norm2_nonneg. generalize (sqrt (SpecTensor.norm2 t)) (sqrt (SpecTensor.norm2 q)). intros x y.
  explode t. explode q. cbn [map]. rewrite !qp_form. cbn [map]. unfold Rdiv. rewrite !Rinv_mult.
  repeat (f_equal; [ring|]). f_equal; ring.
Qed.
Lemma d7_rot q q' : List.length q = 4%nat -> q' = quat_prod [1; 1; 1; 1] q -> exists C, rotates (unit4 q) C /\ rotates (unit4 q') (mul3 d7_Q C).
Proof.
  intros L ->. rewrite unit4_prod by (assumption || reflexivity). rewrite (d7_unit 1 1 1 1 2) by lra.
  assert (LU : List.length (unit4 q) = 4%nat) by (unfold unit4; now rewrite map_length).
  exists (rotq (unit4 q)). split; [now apply rotq_rotates|].
  replace d7_Q with (rotq [1 / 2; 1 / 2; 1 / 2; 1 / 2]).
  - rewrite <- rotq_prod by (assumption || reflexivity). now apply rotq_rotates.
  - rewrite rotq_form. apply mk3_eq; lra.
Qed.
Lemma d7_turned i : (i < 2)%nat -> turned_in demo_c d7_Q d7_b i d7_b' i.
Proof.
  intros Hi. unfold turned_in, devRate, spin, devStress, quat, eInt, pres. cbv zeta.
  change (b_s d7_b) with demo_s. change (b_s d7_b') with demo_s. change (b_m d7_b) with demo_m. change (b_m d7_b') with d7_m.
  unfold val. rewrite demo_strides. unfold stride_of. destruct i as [|[|i]]; [| |lia]; cbn [gstride st_def_rate st_spin st_vol_ratio st_int_eng st_stress st_history st_tkelv st_sdd map nth Nat.mul Nat.add demo_m d7_m demo_h app sym6].
  all: refine (conj _ (conj _ (conj _ (conj _ (conj _ (conj _ (conj _ _))))))).
  all: try reflexivity.
  all: try (unfold sym6; cbn [nth Nat.add]; cbv [cong mul3 tr3 d7_Q a00 a01 a02 a10 a11 a12 a20 a21 a22]; apply mk3_eq; lra).
  all: try (cbv [mulv d7_Q v0 v1 v2 a00 a01 a02 a10 a11 a12 a20 a21 a22]; f_equal; lra).
  all: try (apply d7_rot; [reflexivity|rewrite qp_form; repeat (f_equal; [lra|]); f_equal; lra]).
  all: intros k Hk; try reflexivity.
  all: change (c_nslip demo_c) with 12%nat in Hk; intros Hn; do 26 (destruct k as [|k]; [try reflexivity; lia|]); lia.
Qed.
Lemma d7_batch : batch_ok demo_c demo_s false 2 d7_m.
Proof. apply demo_batch. intros a. destruct a; reflexivity. Qed.
Lemma d7_quat i : (i < 2)%nat -> norm2 (quat demo_s demo_m i) <> 0 /\ norm2 (quat demo_s d7_m i) <> 0 /\ trace (devRate demo_s demo_m i) = 0.
Proof.
  intros Hi. unfold quat, devRate, norm2, val. rewrite demo_strides. unfold stride_of.
  destruct i as [|[|i]]; [| |lia]; cbn [gstride st_def_rate st_history map nth Nat.mul Nat.add demo_m d7_m demo_h app sym6 trace a00 a11 a22 fold_right]; repeat split; try (intros X); try lra.
  all: unfold trace, sym6; cbn [a00 a11 a22]; lra.
Qed.
