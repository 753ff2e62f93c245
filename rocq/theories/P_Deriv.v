(** Derivatives of scalar, vector and tensor valued curves. *)
From Coq Require Import List ZArith Bool Lia PeanoNat Reals Lra.
From Coquelicot Require Import Coquelicot.
From Verif Require Import Num Arr NumR SpecTensor P_Tensor.
Import ListNotations.
Local Open Scope R_scope.

Definition D (f : R -> R) (t l : R) : Prop := @is_derive R_AbsRing R_NormedModule f t l.

Lemma D_eq f t l l' : D f t l -> l = l' -> D f t l'.
Proof. now intros H <-. Qed.
Lemma D_ext f g t l : (forall s, f s = g s) -> D f t l -> D g t l.
Proof. intros H. apply is_derive_ext. exact H. Qed.
Lemma D_loc f g t l : locally t (fun s => f s = g s) -> D f t l -> D g t l.
Proof. intros H. apply is_derive_ext_loc. exact H. Qed.
Lemma D_const c t : D (fun _ => c) t 0.
Proof. apply (is_derive_const (K := R_AbsRing) (V := R_NormedModule)). Qed.
Lemma D_id t : D (fun s => s) t 1.
Proof. apply (is_derive_id (K := R_AbsRing)). Qed.
Lemma D_plus f g t a b : D f t a -> D g t b -> D (fun s => f s + g s) t (a + b).
Proof. intros H1 H2. apply (is_derive_plus f g t a b H1 H2). Qed.
Lemma D_minus f g t a b : D f t a -> D g t b -> D (fun s => f s - g s) t (a - b).
Proof. intros H1 H2. apply (is_derive_minus f g t a b H1 H2). Qed.
Lemma D_opp f t a : D f t a -> D (fun s => - f s) t (- a).
Proof. intros H1. apply (is_derive_opp f t a H1). Qed.
Lemma D_mult f g t a b : D f t a -> D g t b -> D (fun s => f s * g s) t (a * g t + f t * b).
Proof. intros H1 H2. apply (is_derive_mult f g t a b H1 H2). intros; apply Rmult_comm. Qed.
Lemma D_scal c f t a : D f t a -> D (fun s => c * f s) t (c * a).
Proof. intros H. eapply D_eq; [apply D_mult; [apply D_const|exact H]|cbv beta; ring]. Qed.
Lemma D_comp g f t a b : D g (f t) b -> D f t a -> D (fun s => g (f s)) t (a * b).
Proof. intros H1 H2. apply (is_derive_comp g f t b a H1 H2). Qed.
Lemma D_inv f t a : D f t a -> f t <> 0 -> D (fun s => / f s) t (- a / (f t * f t)).
Proof.
  intros H N. eapply D_eq; [apply (D_comp Rinv f t a (- / (f t * f t)))|field; exact N]; [|exact H].
  unfold D. auto_derive; [exact N|]. field. exact N.
Qed.
Lemma D_sum n (f : nat -> R -> R) (d : nat -> R) t : (forall i, (i < n)%nat -> D (f i) t (d i)) ->
  D (fun s => sum n (fun i => f i s)) t (sum n d).
Proof.
  induction n; intros H; [change (D (fun _ => 0) t 0); apply D_const|]. rewrite sum_S_R.
  apply (D_ext (fun s => sum n (fun i => f i s) + f n s)); [intros; now rewrite sum_S_R|].
  apply D_plus; [apply IHn; intros; apply H; lia|apply H; lia].
Qed.
Lemma D_cont f t l : D f t l -> continuous f t.
Proof. intros H. apply (ex_derive_continuous f t). now exists l. Qed.

(** solve [D e t ?l] for an expression built from curves whose derivatives are hypotheses *)
Ltac dstep := lazymatch goal with
  | H : D ?f ?t _ |- D ?f ?t _ => exact H
  | |- D (fun _ => ?c) _ _ => apply D_const
  | |- D (fun s => _ + _) _ _ => refine (D_plus _ _ _ _ _ _ _)
  | |- D (fun s => _ - _) _ _ => refine (D_minus _ _ _ _ _ _ _)
  | |- D (fun s => - _) _ _ => refine (D_opp _ _ _ _)
  | |- D (fun s => _ * _) _ _ => refine (D_mult _ _ _ _ _ _ _)
  end.
Ltac dauto := repeat dstep.

(** vectors *)
Definition dl (n : nat) (f : R -> list R) (t : R) (d : list R) : Prop :=
  forall i, (i < n)%nat -> D (fun s => get (f s) i) t (get d i).
Lemma dl_ext n f g t d : (forall s, f s = g s) -> dl n f t d -> dl n g t d.
Proof. intros E H i Hi. apply (D_ext (fun s => get (f s) i)); [intros; now rewrite E|now apply H]. Qed.
Lemma dl_eq n f t d d' : dl n f t d -> (forall i, (i < n)%nat -> get d i = get d' i) -> dl n f t d'.
Proof. intros H E i Hi. rewrite <- E by assumption. now apply H. Qed.
Lemma dl_const n c t : dl n (fun _ => c) t (tab n (fun _ => 0)).
Proof. intros i Hi. rewrite get_tab by assumption. apply D_const. Qed.

(** tensors *)
Definition dM (f : R -> M3) (t : R) (B : M3) : Prop := dl 9 (fun s => ofM3 (f s)) t (ofM3 B).
Definition dM9 (f : R -> M3) (t : R) (B : M3) : Prop :=
  D (fun s => a00 (f s)) t (a00 B) /\ D (fun s => a01 (f s)) t (a01 B) /\ D (fun s => a02 (f s)) t (a02 B) /\
  D (fun s => a10 (f s)) t (a10 B) /\ D (fun s => a11 (f s)) t (a11 B) /\ D (fun s => a12 (f s)) t (a12 B) /\
  D (fun s => a20 (f s)) t (a20 B) /\ D (fun s => a21 (f s)) t (a21 B) /\ D (fun s => a22 (f s)) t (a22 B).
Lemma dM_9 f t B : dM f t B <-> dM9 f t B.
Proof.
  split.
  - intros H. unfold dM9. repeat match goal with |- _ /\ _ => apply conj end;
    [apply (H 0%nat)|apply (H 1%nat)|apply (H 2%nat)|apply (H 3%nat)|apply (H 4%nat)|apply (H 5%nat)|apply (H 6%nat)|apply (H 7%nat)|apply (H 8%nat)]; lia.
  - intros (H0 & H1 & H2 & H3 & H4 & H5 & H6 & H7 & H8) i Hi. do 9 (destruct i as [|i]; [assumption|]). lia.
Qed.
Lemma dM_mul f g t A B : dM f t A -> dM g t B -> dM (fun s => mul3 (f s) (g s)) t (add3 (mul3 A (g t)) (mul3 (f t) B)).
Proof.
  rewrite !dM_9. intros (?&?&?&?&?&?&?&?&?) (?&?&?&?&?&?&?&?&?). unfold dM9, mul3, add3. cbn [a00 a01 a02 a10 a11 a12 a20 a21 a22].
  repeat match goal with |- _ /\ _ => apply conj end; (eapply D_eq; [dauto|cbv beta; ring]).
Qed.
Lemma dM_tr f t A : dM f t A -> dM (fun s => tr3 (f s)) t (tr3 A).
Proof. rewrite !dM_9. intros (?&?&?&?&?&?&?&?&?). unfold dM9, tr3. cbn [a00 a01 a02 a10 a11 a12 a20 a21 a22]. tauto. Qed.
Lemma dM_eq f t A B : dM f t A -> A = B -> dM f t B.
Proof. now intros H <-. Qed.
Lemma dM_ext f g t A : (forall s, f s = g s) -> dM f t A -> dM g t A.
Proof. intros E. apply dl_ext. intros. now rewrite E. Qed.
Lemma D_inner f K t A : dM f t A -> D (fun s => inner (f s) K) t (inner A K).
Proof. rewrite dM_9. intros (?&?&?&?&?&?&?&?&?). unfold inner. eapply D_eq; [dauto|cbv beta; ring]. Qed.
Lemma dl_vec5 f t A : dM f t A -> dl 5 (fun s => vec5 (f s)) t (vec5 A).
Proof.
  intros H i Hi. rewrite vec5_get by assumption.
  apply (D_ext (fun s => inner (f s) (basis i))); [intros; now rewrite vec5_get|]. now apply D_inner.
Qed.
Lemma dM_add f g t A B : dM f t A -> dM g t B -> dM (fun s => add3 (f s) (g s)) t (add3 A B).
Proof.
  rewrite !dM_9. intros (?&?&?&?&?&?&?&?&?) (?&?&?&?&?&?&?&?&?). unfold dM9, add3. cbn [a00 a01 a02 a10 a11 a12 a20 a21 a22].
  repeat match goal with |- _ /\ _ => apply conj end; dauto.
Qed.
Lemma dM_scalc f K t d : D f t d -> dM (fun s => scal3 (f s) K) t (scal3 d K).
Proof.
  intros H. rewrite dM_9. unfold dM9, scal3. cbn [a00 a01 a02 a10 a11 a12 a20 a21 a22].
  repeat match goal with |- _ /\ _ => apply conj end; (eapply D_eq; [dauto|cbv beta; ring]).
Qed.
Lemma dM_ten5 f t d : dl 5 f t d -> dM (fun s => ten5 (f s)) t (ten5 d).
Proof.
  intros H. unfold ten5.
  exact (dM_add _ _ _ _ _ (dM_scalc _ _ _ _ (H 0%nat ltac:(lia))) (dM_add _ _ _ _ _ (dM_scalc _ _ _ _ (H 1%nat ltac:(lia)))
    (dM_add _ _ _ _ _ (dM_scalc _ _ _ _ (H 2%nat ltac:(lia))) (dM_add _ _ _ _ _ (dM_scalc _ _ _ _ (H 3%nat ltac:(lia))) (dM_scalc _ _ _ _ (H 4%nat ltac:(lia))))))).
Qed.
