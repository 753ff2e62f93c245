(** Change of units: the tangent (C64). *)
From Coq Require Import List ZArith Bool Lia PeanoNat Reals Lra String FunctionalExtensionality.
From Verif Require Import P_Demo.
From Verif Require Import Num Arr NumR Util SlipGeom Eos Hard KinVoce KinKMBalD Elast Evptn MatModel Cases SpecTensor
  SpecElast SpecSlip P_Tensor P_Elast P_Eos P_Sngl P_Sngl2 P_Sngl3 P_Batch P_Batch2 P_Batch3 P_Batch4 P_Api P_Builtin SpecApi P_Hist SpecStress P_Stress
  SpecKin SpecKinApi SpecStep P_Call P_Step P_Step2 P_Energy P_Rigid3 P_Demo3 SpecFrame P_Frame P_Frame2 P_Frame3 SpecTan SpecUnits P_Units P_Units2 P_Units3 P_Units4.
Import ListNotations.
Local Open Scope R_scope.

Lemma fold_diff (f g : nat -> R) l : fold_right Rplus 0 (map (fun q => f q - g q) l) = fold_right Rplus 0 (map f l) - fold_right Rplus 0 (map g l).
Proof. induction l; cbn; [ring|]. rewrite IHl. ring. Qed.
Lemma fold_scal a (f : nat -> R) l : fold_right Rplus 0 (map (fun q => a * f q) l) = a * fold_right Rplus 0 (map f l).
Proof. induction l; cbn; [ring|]. rewrite IHl. ring. Qed.

(** the solution of a system whose rows [i] are divided by [d i], when the right-hand sides are not zero only in rows with [d i = kap] *)
Lemma lu_units kap (lu lu' : LUSolver R) (d : nat -> R) n A A' B k X X' : solves_exactly lu -> solves_exactly lu' ->
  (forall i, d i <> 0) -> (forall i q, (i < n)%nat -> (q < n)%nat -> d i * nth (i * n + q) A' 0 = nth (i * n + q) A 0) ->
  (forall j i, (j < k)%nat -> (i < n)%nat -> d i = kap \/ nth (j * n + i) B 0 = 0) ->
  lu n A B k = Some X -> lu' n A' B k = Some X' ->
  forall j i, (j < k)%nat -> (i < n)%nat -> nth (j * n + i) X' 0 = kap * nth (j * n + i) X 0.
Proof.
  intros E E' Hd HA HB L L' j i Hj Hi. destruct (E _ _ _ _ _ L) as [S N]. destruct (E' _ _ _ _ _ L') as [S' _].
  set (y := tab n (fun q => nth (j * n + q) X' 0 - kap * nth (j * n + q) X 0)).
  assert (Y : forall q, (q < n)%nat -> nth q y 0 = nth (j * n + q) X' 0 - kap * nth (j * n + q) X 0).
  { intros q Hq. change (get y q = nth (j * n + q) X' 0 - kap * nth (j * n + q) X 0). unfold y. now rewrite get_tab. }
  assert (Z : nth i y 0 = 0).
  { apply N; [unfold y; apply tab_length| |exact Hi]. intros r Hr.
    rewrite (map_ext_in _ (fun q => d r * (nth (r * n + q) A' 0 * nth (j * n + q) X' 0) - kap * (nth (r * n + q) A 0 * nth (j * n + q) X 0))).
    - rewrite fold_diff, !fold_scal, S, S' by assumption. destruct (HB j r Hj Hr) as [W|W]; rewrite W; ring.
    - intros q Hq. apply in_seq in Hq. rewrite Y, <- HA by lia. ring. }
  rewrite Y in Z by exact Hi. lra.
Qed.
