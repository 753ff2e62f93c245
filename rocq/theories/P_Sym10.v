(** Solvers that do not depend on the choice of orthonormal coordinates (C22). *)
From Coq Require Import List ZArith Bool Lia PeanoNat Reals Lra.
From Verif Require Import Num Arr NumR Hard MatModel Cases SpecTensor SpecElast SpecSlip SpecApi SpecStress SpecStep SpecJac P_Tensor SpecSym P_Sym P_Sym5 SpecSlow.
Import ListNotations.
Local Open Scope R_scope.

(** the step in other coordinates *)
Definition step_free (step : nat -> list R -> list R -> option (list R)) : Prop :=
  forall n T Ti r J J', isometry n T Ti -> List.length r = n -> (forall v, List.length v = n -> mv n J' (T v) = T (mv n J v)) ->
  step n (T r) J' = option_map T (step n r J) /\ forall d, step n r J = Some d -> List.length d = n.

Lemma whole_list n (r : list R) : List.length r = n -> map (fun j => nth j r 0) (seq 0 n) = r.
Proof. intros L. subst n. induction r as [|a r IH]; [reflexivity|]. cbn [List.length seq map]. rewrite <- seq_shift, map_map. cbn [nth]. f_equal. exact IH. Qed.
Lemma walk_free step n T Ti f f' tol : step_free step -> isometry n T Ti -> sized n f -> sized n f' -> (forall x, List.length x = n -> related_at n T f f' x) ->
  forall k nf x, List.length x = n ->
  let r := walk step n f tol k nf x in let r' := walk step n f' tol k nf (T x) in
  List.length (so_x r) = n /\ List.length (so_xlast r) = n /\
  so_converged r' = so_converged r /\ so_x r' = T (so_x r) /\ so_xlast r' = T (so_xlast r) /\
  so_nfev r' = so_nfev r /\ so_nfev_rj r' = so_nfev_rj r.
Proof.
  intros HF HT Sf Sf' HR. pose proof HT as [HI HL]. induction k as [|k IH]; intros nf x Lx; cbv zeta.
  all: destruct (Sf x Lx) as [L1 L2]; destruct (HR x Lx) as [E1 E2]; destruct (HI (fst (f x)) L1) as (LT & _ & _ & _ & NT).
  all: assert (ER : rms_within n tol (fst (f' (T x))) = rms_within n tol (fst (f x))) by (unfold rms_within; rewrite E1, !whole_list, NT by assumption; reflexivity).
  - cbn [walk]. rewrite ER. destruct (rms_within n tol (fst (f x))); cbn [so_x so_xlast so_converged so_nfev so_nfev_rj]; repeat split; exact Lx.
  - cbn [walk]. rewrite ER. destruct (rms_within n tol (fst (f x))); [cbn [so_x so_xlast so_converged so_nfev so_nfev_rj]; repeat split; exact Lx|].
    destruct (HF n T Ti (fst (f x)) (snd (f x)) (snd (f' (T x))) HT L1 E2) as [ES LS]. rewrite E1, ES.
    destruct (step n (fst (f x)) (snd (f x))) as [d|]; cbn [option_map]; [|cbn [so_x so_xlast so_converged so_nfev so_nfev_rj]; repeat split; exact Lx].
    specialize (LS d eq_refl). rewrite <- (HL 1 1 x d Lx LS). apply IH. apply len_lin; assumption.
Qed.
Lemma walk_cf step it (pick : nat -> nat) : step_free step -> coordinate_free (fun n f tol i x0 => walk step n f tol (pick i) it x0).
Proof. intros HF n T Ti f f' tol i x0 HT Sf Sf' L HR. exact (walk_free step n T Ti f f' tol HF HT Sf Sf' HR (pick i) it x0 L). Qed.

Lemma mv_length n J v : List.length (mv n J v) = n.
Proof. unfold mv. now rewrite map_length, seq_length. Qed.
Lemma newton_free ls : exact_solve ls -> step_free (newton_step ls).
Proof.
  intros HX n T Ti r J J' [HI HL] L HJ. unfold newton_step. rewrite <- (HL (-1) 0 r r L L). set (y := lin (-1) 0 r r).
  assert (Ly : List.length y = n) by (apply len_lin; assumption). clearbody y. clear r L.
  destruct (HI y Ly) as (LTy & _ & _ & EIy & _).
  split; [|intros d E; apply HX in E; [apply E|exact Ly]].
  assert (FW : forall d, ls n J y = Some d -> ls n J' (T y) = Some (T d)).
  { intros d E. apply HX in E; [|exact Ly]. destruct E as (Ld & Sd & Ud). apply HX; [exact LTy|].
    destruct (HI d Ld) as (LTd & _). split; [exact LTd|]. split; [rewrite HJ by exact Ld; now rewrite Sd|].
    intros d' Ld' Sd'. destruct (HI d' Ld') as (_ & LId & EId & _). rewrite <- EId in Sd' |- *. rewrite HJ in Sd' by exact LId. f_equal. apply Ud; [exact LId|].
    destruct (HI _ (mv_length n J (Ti d'))) as (_ & _ & _ & E & _). rewrite <- E, Sd'. exact EIy. }
  destruct (ls n J y) as [d|] eqn:E1; [cbn [option_map]; now apply FW|].
  destruct (ls n J' (T y)) as [d'|] eqn:E2; [|reflexivity]. exfalso. apply HX in E2; [|exact LTy]. destruct E2 as (Ld' & Sd' & Ud').
  destruct (HI d' Ld') as (_ & LId & EId & _).
  assert (X : ls n J y = Some (Ti d')); [|congruence]. apply HX; [exact Ly|]. split; [exact LId|]. split.
  - destruct (HI _ (mv_length n J (Ti d'))) as (_ & _ & _ & E & _). rewrite <- E, <- HJ, EId, Sd' by exact LId. exact EIy.
  - intros d Ld Sd. destruct (HI d Ld) as (LTd & _ & _ & E & _). rewrite <- E. f_equal. apply Ud'; [exact LTd|]. rewrite HJ by exact Ld. now rewrite Sd.
Qed.
Theorem newton_cf ls : exact_solve ls -> coordinate_free (newton ls).
Proof. intros H. exact (walk_cf _ 1%nat (fun i => i) (newton_free ls H)). Qed.
Theorem damped_cf w : coordinate_free (damped w).
Proof.
  apply (walk_cf (fun _ r _ => Some (lin (- w) 0 r r)) 1%nat (fun i => i)). intros n T Ti r J J' [HI HL] L HJ. split; [cbn [option_map]; now rewrite HL by assumption|].
  intros d E. injection E. intros E'. rewrite <- E'. apply len_lin; assumption.
Qed.
Theorem start_cf : coordinate_free at_start.
Proof. apply (walk_cf (fun _ _ _ => None) 1%nat (fun _ => O)). intros n T Ti r J J' _ _ _. split; [reflexivity|discriminate]. Qed.

Lemma start_x n f tol it x0 : so_x (at_start n f tol it x0) = x0 /\ so_xlast (at_start n f tol it x0) = x0.
Proof. unfold at_start. cbn [walk]. destruct rms_within; split; reflexivity. Qed.
Lemma norm2_bound tol (l : list R) : 0 <= tol -> Forall (fun y => Rabs y <= tol) l -> SpecTensor.norm2 l <= INR (List.length l) * (tol * tol).
Proof.
  intros Ht H. induction H as [|y l Hy Hl IH]; [unfold SpecTensor.norm2; cbn; lra|]. unfold SpecTensor.norm2 in *. cbn [fold_right].
  change (List.length (y :: l)) with (S (List.length l)). rewrite S_INR.
  assert (y * y <= tol * tol). { rewrite <- (Rabs_pos_eq (y * y)) by nra. rewrite Rabs_mult. apply Rmult_le_compat; try apply Rabs_pos; assumption. }
  lra.
Qed.
Lemma start_settles : settles at_start.
Proof.
  intros n rj tol it x0 H. split; [|apply start_x]. unfold at_start. cbn [walk].
  assert (E : rms_within n tol (fst (rj x0)) = true); [|rewrite E; reflexivity].
  unfold rms_within. destruct Rle_dec as [_|NE]; [reflexivity|]. exfalso. apply NE.
  destruct n as [|n]; [unfold SpecTensor.norm2; cbn; lra|].
  assert (Ht : 0 <= tol) by (apply Rle_trans with (Rabs (nth 0 (fst (rj x0)) 0)); [apply Rabs_pos|apply H; lia]).
  set (l := map (fun j => nth j (fst (rj x0)) 0) (seq 0 (S n))). replace (INR (S n)) with (INR (List.length l)) by (unfold l; now rewrite map_length, seq_length).
  apply norm2_bound; [exact Ht|]. apply Forall_forall. intros y Hy. apply in_map_iff in Hy as (j & <- & Hj). apply in_seq in Hj. apply H. lia.
Qed.
Lemma start_stays f tol it : stays_in at_start 8 f off_tiny tol it [0; 0; 0; 0; 0; 0; 0; 0].
Proof.
  intros g _ Hg. unfold at_start. cbn [walk]. rewrite Hg; [reflexivity|reflexivity|].
  left. unfold trial_rot, scalv, norm3, dotv. cbn [nth v0 v1 v2]. transitivity (sqrt 0); [f_equal; ring|apply sqrt_0].
Qed.
