(** What the mini-app prints after a step (C70, C71). *)
From Coq Require Import List ZArith Bool Lia PeanoNat Reals Lra Permutation.
From Verif Require Import Num NumR Arr Util Miniapp MatModel MiniPrint SpecMini SpecPrint P_Mini P_Mini3 P_Mini5.
Import ListNotations.
Local Open Scope R_scope.

Lemma total_sum n f : total n f = sum n f. Proof. symmetry. apply sum_list. Qed.
Lemma mean_sum n f : mean n f = sum n f / INR n. Proof. unfold mean. now rewrite total_sum. Qed.
Lemma fold_app_R (l l' : list R) : fold_right Rplus 0 (l ++ l') = fold_right Rplus 0 l + fold_right Rplus 0 l'.
Proof. induction l as [|x l IH]; cbn; [lra|]. rewrite IH. lra. Qed.
Lemma reduce_fold (f : nat -> R) t : reduce_sum f t = fold_right Rplus 0 (map f (points t)).
Proof.
  induction t as [i| |l IHl r IHr]; cbn [reduce_sum points map fold_right]; rops; [lra|reflexivity|]. rewrite map_app, fold_app_R, IHl, IHr. reflexivity.
Qed.
Lemma reduce_total (f : nat -> R) n t : reduction n t -> reduce_sum f t = total n f.
Proof. intros H. rewrite reduce_fold. unfold total. apply fold_perm. apply Permutation_map. exact H. Qed.
Lemma total_scal n c f : total n (fun i => c * f i) = c * total n f.
Proof. rewrite !total_sum. apply sum_scal_l. Qed.
Lemma total_ext n f g : (forall i, (i < n)%nat -> f i = g i) -> total n f = total n g.
Proof. intros H. rewrite !total_sum. now apply sum_ext. Qed.
Lemma wts_R n : (nZ 1 / nZ (Z.of_nat n))%num = / INR n.
Proof. rops. rewrite <- INR_IZR_INZ. unfold Rdiv. ring. Qed.

Lemma printed_stress_mean n t (a : App R) j : reduction n t -> printed_stress n t a j = mean n (fun q => nth (6 * q + j) (ap_stress a) 0).
Proof.
  intros H. unfold printed_stress. cbv zeta. rewrite wts_R, (reduce_total _ n t H). unfold mean, Rdiv.
  transitivity (total n (fun q => / INR n * nth (6 * q + j) (ap_stress a) 0)).
  - apply total_ext. intros i _. rops. rewrite getR. change nsvec with 6%nat. rewrite (Nat.mul_comm i 6). reflexivity.
  - rewrite total_scal. ring.
Qed.
Lemma one_by_one_reduction n : reduction n (one_by_one n).
Proof. unfold reduction. induction n as [|n IH]; [constructor|]. cbn [one_by_one points]. rewrite seq_S. now apply Permutation_app_tail. Qed.
Lemma reduce_one_by_one {T} {N : Num T} (f : nat -> T) n : reduce_sum f (one_by_one n) = sum n f.
Proof. induction n as [|n IH]; [reflexivity|]. cbn [one_by_one reduce_sum]. now rewrite IH, sum_S. Qed.
Lemma printed_avg {T} {N : Num T} n (a : App T) j : printed_stress n (one_by_one n) a j = stress_avg n a j.
Proof. unfold printed_stress, stress_avg. apply reduce_one_by_one. Qed.

Lemma least_app l l' x y : least l x -> least l' y -> least (l ++ l') (Rmin x y).
Proof.
  intros [I H] [I' H']. split.
  - unfold Rmin. destruct Rle_dec; apply in_or_app; tauto.
  - intros z Hz. apply in_app_or in Hz. destruct Hz as [Hz|Hz]; [specialize (H z Hz); pose proof (Rmin_l x y)|specialize (H' z Hz); pose proof (Rmin_r x y)]; lra.
Qed.
Lemma greatest_app l l' x y : greatest l x -> greatest l' y -> greatest (l ++ l') (Rmax x y).
Proof.
  intros [I H] [I' H']. split.
  - unfold Rmax. destruct Rle_dec; apply in_or_app; tauto.
  - intros z Hz. apply in_app_or in Hz. destruct Hz as [Hz|Hz]; [specialize (H z Hz); pose proof (Rmax_l x y)|specialize (H' z Hz); pose proof (Rmax_r x y)]; lra.
Qed.
Lemma least_eqv l l' x : (forall y, In y l <-> In y l') -> least l x -> least l' x.
Proof. intros E [I H]. split; [now apply E|]. intros y Hy. apply H. now apply E. Qed.
Lemma greatest_eqv l l' x : (forall y, In y l <-> In y l') -> greatest l x -> greatest l' x.
Proof. intros E [I H]. split; [now apply E|]. intros y Hy. apply H. now apply E. Qed.
Lemma least_one x : least [x] x. Proof. split; [now left|]. intros y [->|[]]. lra. Qed.
Lemma greatest_one x : greatest [x] x. Proof. split; [now left|]. intros y [->|[]]. lra. Qed.
Lemma min_least z (f : nat -> R) t : least (z :: map f (points t)) (reduce_min z f t).
Proof.
  induction t as [i| |l IHl r IHr]; cbn [reduce_min points map]; rops.
  - exact (least_app [z] [f i] z (f i) (least_one z) (least_one (f i))).
  - apply least_one.
  - apply (least_eqv ((z :: map f (points l)) ++ (z :: map f (points r)))); [|now apply least_app].
    intros y. rewrite map_app. cbn [In app]. rewrite !in_app_iff. cbn [In]. tauto.
Qed.
Lemma max_greatest z (f : nat -> R) t : greatest (z :: map f (points t)) (reduce_max z f t).
Proof.
  induction t as [i| |l IHl r IHr]; cbn [reduce_max points map]; rops.
  - exact (greatest_app [z] [f i] z (f i) (greatest_one z) (greatest_one (f i))).
  - apply greatest_one.
  - apply (greatest_eqv ((z :: map f (points l)) ++ (z :: map f (points r)))); [|now apply greatest_app].
    intros y. rewrite map_app. cbn [In app]. rewrite !in_app_iff. cbn [In]. tauto.
Qed.
Lemma perm_in_map (f : nat -> R) z l l' : Permutation l l' -> forall y, In y (z :: map f l) <-> In y (z :: map f l').
Proof. intros P y. assert (Q : Permutation (z :: map f l) (z :: map f l')) by (constructor; now apply Permutation_map). split; intros H; [exact (Permutation_in _ Q H)|exact (Permutation_in _ (Permutation_sym Q) H)]. Qed.
(** the three numbers are statistics of state variable 2 *)
Lemma printed_evals_are n nst t (a : App R) : reduction n t ->
  let v := fun q => stored nst a q 2 in let '(lo, av, hi) := printed_evals n nst t a in
  least (100 :: map v (seq 0 n)) lo /\ av = mean n v /\ greatest (0 :: map v (seq 0 n)) hi.
Proof.
  intros H v. unfold printed_evals. cbv zeta.
  assert (EV : forall q, get (ap_m a AH) (q * nst + 2) = v q) by (intros q; unfold v, stored; rewrite getR, (Nat.mul_comm q); reflexivity).
  split; [|split].
  - apply (least_eqv _ _ _ (perm_in_map v 100 _ _ H)). 
    assert (E : forall t, reduce_min (nZ 100) (fun i => get (ap_m a AH) (i * nst + 2)) t = reduce_min 100 v t).
    { clear. intros t. induction t as [i| |l IHl r IHr]; cbn [reduce_min]; rops; [|reflexivity|]. - unfold v, stored. rewrite getR, (Nat.mul_comm i). reflexivity. - now rewrite IHl, IHr. }
    rewrite E. apply min_least.
  - rewrite wts_R, (reduce_total _ n t H). unfold mean, Rdiv. rewrite (total_ext n _ (fun q => / INR n * v q)) by (intros i _; rops; now rewrite EV). rewrite total_scal. ring.
  - apply (greatest_eqv _ _ _ (perm_in_map v 0 _ _ H)).
    assert (E : forall t, reduce_max (nZ 0) (fun i => get (ap_m a AH) (i * nst + 2)) t = reduce_max 0 v t).
    { clear. intros t. induction t as [i| |l IHl r IHr]; cbn [reduce_max]; rops; [|reflexivity|]. - unfold v, stored. rewrite getR, (Nat.mul_comm i). reflexivity. - now rewrite IHl, IHr. }
    rewrite E. apply max_greatest.
Qed.
