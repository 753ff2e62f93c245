(** Derivatives of the rotation update (C20). *)
From Coq Require Import List ZArith Bool Lia PeanoNat Reals Lra.
From Coquelicot Require Import Coquelicot.
From Verif Require Import Num Arr NumR Util SpecTensor P_Tensor P_Deriv.
Import ListNotations.
Local Open Scope R_scope.

Definition dV (f : R -> V3) (t : R) (u : V3) : Prop :=
  D (fun s => v0 (f s)) t (v0 u) /\ D (fun s => v1 (f s)) t (v1 u) /\ D (fun s => v2 (f s)) t (v2 u).

Lemma D_sqrt f t a : D f t a -> 0 < f t -> D (fun s => sqrt (f s)) t (a / (2 * sqrt (f t))).
Proof.
  intros H P. assert (Q := sqrt_lt_R0 _ P). eapply D_eq; [apply (D_comp sqrt f t a (/ (2 * sqrt (f t)))); [|exact H]|reflexivity].
  unfold D. auto_derive; [exact P|]. field. lra.
Qed.
Lemma D_sin f t a : D f t a -> D (fun s => sin (f s)) t (a * cos (f t)).
Proof. intros H. apply (D_comp sin f); [|exact H]. unfold D. auto_derive; [easy|]. ring. Qed.
Lemma D_cos f t a : D f t a -> D (fun s => cos (f s)) t (a * - sin (f t)).
Proof. intros H. apply (D_comp cos f); [|exact H]. unfold D. auto_derive; [easy|]. ring. Qed.

Lemma D_norm3 f t u : dV f t u -> 0 < norm3 (f t) -> D (fun s => norm3 (f s)) t (dotv (f t) u / norm3 (f t)).
Proof.
  intros (H0 & H1 & H2) P. unfold norm3 in *.
  assert (P' : 0 < dotv (f t) (f t)).
  { destruct (Rle_lt_dec (dotv (f t) (f t)) 0) as [L|L]; [|exact L]. rewrite (sqrt_neg_0 _ L) in P. lra. }
  eapply D_eq.
  - apply D_sqrt; [|exact P']. unfold dotv. dauto.
  - unfold dotv. cbv beta. field. unfold dotv in P. lra.
Qed.

(** derivative of the quaternion of a rotation vector *)
Definition dA (w u : V3) : list R :=
  let th := norm3 w in let n := unitv w in let r := dotv n u in
  let h := cos (th / 2) / 2 in let k := sin (th / 2) / th in
  [ - (sin (th / 2) / 2) * r; h * v0 n * r + k * (v0 u - v0 n * r); h * v1 n * r + k * (v1 u - v1 n * r);
    h * v2 n * r + k * (v2 u - v2 n * r) ].

Lemma emap_big w : / 10 ^ 90 < norm3 w -> emap_to_quat (ofV3 w) =
  [cos (norm3 w / 2); sin (norm3 w / 2) * (/ norm3 w * v0 w); sin (norm3 w / 2) * (/ norm3 w * v1 w); sin (norm3 w / 2) * (/ norm3 w * v2 w)].
Proof.
  intros H. rewrite emap_to_quat_R. cbv zeta. unfold emap_axis. apply Rltb_true in H. rewrite H. reflexivity.
Qed.
Lemma emap_deriv f t u : dV f t u -> / 10 ^ 90 < norm3 (f t) -> dl 4 (fun s => emap_to_quat (ofV3 (f s))) t (dA (f t) u).
Proof.
  intros H P. assert (T := tiny_pos). assert (P0 : 0 < norm3 (f t)) by lra. assert (DN := D_norm3 f t u H P0). destruct H as (H0 & H1 & H2).
  assert (L : locally t (fun s => / 10 ^ 90 < norm3 (f s))).
  { apply (D_cont _ _ _ DN). apply (open_gt (/ 10 ^ 90)). exact P. }
  assert (DH : D (fun s => norm3 (f s) * / 2) t (dotv (f t) u / norm3 (f t) * / 2)).
  { eapply D_eq; [dauto|cbv beta; ring]. }
  assert (DI := D_inv _ _ _ DN (Rgt_not_eq _ _ P0)).
  assert (DC := D_cos _ _ _ DH). assert (DS := D_sin _ _ _ DH). cbv beta in DI, DC, DS.
  intros i Hi.
  assert (LE : forall g : nat -> R -> R, (forall s, / 10 ^ 90 < norm3 (f s) -> get (emap_to_quat (ofV3 (f s))) i = g i s) ->
    forall l, D (g i) t l -> D (fun s => get (emap_to_quat (ofV3 (f s))) i) t l).
  { intros g E l. apply D_loc. revert L. apply filter_imp. intros s Hs. symmetry. now apply E. }
  destruct i as [|[|[|[|]]]]; [..|lia]; unfold dA; cbn [get nth];
    [ eapply (LE (fun _ s => cos (norm3 (f s) * / 2))); [intros s Hs; now rewrite emap_big|]; eapply D_eq; [dauto|cbv beta]
    | eapply (LE (fun _ s => sin (norm3 (f s) * / 2) * (/ norm3 (f s) * v0 (f s)))); [intros s Hs; now rewrite emap_big|]; eapply D_eq; [dauto|cbv beta]
    | eapply (LE (fun _ s => sin (norm3 (f s) * / 2) * (/ norm3 (f s) * v1 (f s)))); [intros s Hs; now rewrite emap_big|]; eapply D_eq; [dauto|cbv beta]
    | eapply (LE (fun _ s => sin (norm3 (f s) * / 2) * (/ norm3 (f s) * v2 (f s)))); [intros s Hs; now rewrite emap_big|]; eapply D_eq; [dauto|cbv beta] ];
    unfold get, unitv, dotv; cbn [nth v0 v1 v2]; change (norm3 (f t) / 2) with (norm3 (f t) * / 2);
    set (th := norm3 (f t)) in *; set (S := sin (th * / 2)); set (C := cos (th * / 2)); clearbody th S C; clear - P0; field; lra.
Qed.

Lemma demap_R w : / 10 ^ 9 <= norm3 w -> forall u q, (q < 4)%nat ->
  sum 3 (fun e => get2 4 (dquat_demap_T (ofV3 w)) e q * get (ofV3 u) e) = get (dA w u) q.
Proof.
  intros H u q Hq. assert (P : 0 < / 10 ^ 9) by (apply Rinv_0_lt_compat, pow_lt; lra).
  unfold dquat_demap_T. unfold emapdim. rewrite vecNorm3. set (th := norm3 w) in *.
  assert (E : nltb (nabs th) (nlit 1 (-9)) = false).
  { apply Rltb_false. cbn [nabs nlit RNum Rlit]. rewrite Rabs_right by lra.
    replace (1 / IZR (10 ^ 9)) with (/ 10 ^ 9) by (rewrite pow_IZR; unfold Rdiv; rewrite Rmult_1_l; reflexivity). exact H. }
  rewrite E. clear E. unfold dA. fold th. unfold unitv. fold th.
  destruct w as [x y z], u as [a b c]. unfold dotv, ofV3. cbn [v0 v1 v2].
  rarr. change (th / 2) with (th * / 2). set (S := sin (th * / 2)). set (C := cos (th * / 2)).
  assert (N : th <> 0) by lra. clearbody th S C. clear - N Hq.
  destruct q as [|[|[|[|]]]]; [..|lia]; rarr; field; exact N.
Qed.

(** ** quaternion product and rotation matrix *)
Lemma get_prod_lin a b q : (q < 4)%nat -> List.length b = 4%nat ->
  get (quat_prod a b) q = sum 4 (fun j => get b j * get (quat_prod a (tab 4 (fun k => if Nat.eqb k j then 1 else 0))) q).
Proof. intros Hq L. explode b. destruct q as [|[|[|[|]]]]; [..|lia]; unfold quat_prod; rarr; ring. Qed.
Lemma dl_prod c f t d : dl 4 f t d -> dl 4 (fun s => quat_prod c (f s)) t (quat_prod c d).
Proof.
  intros H. assert (H0 := H 0%nat ltac:(lia)). assert (H1 := H 1%nat ltac:(lia)). assert (H2 := H 2%nat ltac:(lia)). assert (H3 := H 3%nat ltac:(lia)). clear H.
  intros i Hi. unfold quat_prod. destruct i as [|[|[|[|]]]]; [..|lia];
    cbn [get nth] in *; cbn [nadd nsub nmul RNum] in *; (eapply D_eq; [dauto|cbv beta; ring]).
Qed.
(** derivative of the rotation matrix along a curve of quaternions *)
Definition dR (q d : list R) : M3 := toM3 (vecsVMa 9 4 (d_quat_to_tensor q) d).
Lemma dM_rotq f t d : dl 4 f t d -> (forall s, List.length (f s) = 4%nat) -> dM (fun s => rotq (f s)) t (dR (f t) d).
Proof.
  intros H L. assert (H0 := H 0%nat ltac:(lia)). assert (H1 := H 1%nat ltac:(lia)). assert (H2 := H 2%nat ltac:(lia)). assert (H3 := H 3%nat ltac:(lia)). clear H.
  rewrite dM_9. unfold dM9, rotq, quat_to_tensor, toM3, dR, vecsVMa, d_quat_to_tensor. 
  cbn [nth a00 a01 a02 a10 a11 a12 a20 a21 a22]. rops.
  repeat match goal with |- _ /\ _ => apply conj end; (eapply D_eq; [dauto|cbv beta; cbn [toM3 tab map seq a00 a01 a02 a10 a11 a12 a20 a21 a22 nth]; unfold sum, get2, get; cbn [fold_left seq nth Nat.mul Nat.add]; cbn [nadd nmul nZ nopp RNum nundef]; ring]).
Qed.

