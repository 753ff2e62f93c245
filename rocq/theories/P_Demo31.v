(** Averages in doubles (C70). *)
From Coq Require Import List ZArith Bool Lia PeanoNat Reals Lra Permutation.
From Flocq Require Import Core IEEE754.BinarySingleNaN.
From Verif Require Import Num NumR NumD Arr Util Miniapp MatModel MiniPrint SpecPrint P_Dbl P_Dbl3.
Import ListNotations.
Local Open Scope R_scope.

Lemma reduction_seq t n : points t = rev (seq 0 n) -> reduction n t.
Proof. intros H. unfold reduction. rewrite H. apply Permutation_sym, Permutation_rev. Qed.
(** three points taken backwards, in two parts *)
Definition av_tree : Tree := Both (Both (Point 2) Init) (Both (Both Init (Point 1)) (Point 0)).
Definition av_app : App dbl := {| ap_vgrad := []; ap_stress := map Z2D [1; 2; 3; 4; 5; 6; -1; 0; 7; 8; 9; 10; 2; 2; 2; 1; 1; 1]%Z; ap_m := fun _ => [] |}.
Lemma av_red : reduction 3 av_tree. Proof. apply reduction_seq. reflexivity. Qed.
Lemma av_fin L j : (j < 6)%nat -> is_finite (@printed_stress dbl (DNum L) 3 av_tree av_app j) = true.
Proof. intros H. do 6 (destruct j as [|j]; [vm_compute; reflexivity|]). lia. Qed.
Lemma av_depth : INR (depth av_tree) <= 2 ^ 40. Proof. cbn [av_tree depth Nat.max INR pow]. lra. Qed.
Lemma av_other : av_tree <> one_by_one 3. Proof. discriminate. Qed.
