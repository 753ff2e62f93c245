(** Trust region solvers do not depend on the choice of orthonormal coordinates (C22). *)
From Coq Require Import List ZArith Bool Lia PeanoNat Reals Lra.
From Verif Require Import Num Arr NumR Hard MatModel Cases SpecTensor SpecElast SpecSlip SpecApi SpecStress SpecStep SpecJac P_Tensor SpecSym P_Sym P_Sym5 SpecSlow P_Sym10 SpecTrust.
Import ListNotations.
Local Open Scope R_scope.

Definition rsum (l : list R) : R := fold_right Rplus 0 l.
Lemma rsum_map_plus {X} (f g : X -> R) l : rsum (map (fun x => f x + g x) l) = rsum (map f l) + rsum (map g l).
Proof. induction l; unfold rsum in *; cbn; [ring|rewrite IHl; ring]. Qed.
Lemma rsum_map_scal {X} (c : R) (f : X -> R) l : rsum (map (fun x => c * f x) l) = c * rsum (map f l).
Proof. induction l; unfold rsum in *; cbn; [ring|rewrite IHl; ring]. Qed.
Lemma rsum_ext {X} (f g : X -> R) l : (forall x, In x l -> f x = g x) -> rsum (map f l) = rsum (map g l).
Proof. intros H. f_equal. now apply map_ext_in. Qed.
Lemma rsum_swap {X Y} (f : X -> Y -> R) l m : rsum (map (fun x => rsum (map (f x) m)) l) = rsum (map (fun y => rsum (map (fun x => f x y) l)) m).
Proof.
  induction l as [|x l IH]; [cbn; induction m as [|y m IHm]; [reflexivity|unfold rsum in *; cbn in *; rewrite <- IHm; ring]|].
  cbn [map]. unfold rsum at 1. cbn [fold_right]. fold (rsum (map (fun x0 => rsum (map (f x0) m)) l)). rewrite IH, <- rsum_map_plus. reflexivity.
Qed.
Lemma nth_mapseq (F : nat -> R) n i : (i < n)%nat -> nth i (map F (seq 0 n)) 0 = F i.
Proof. intros Hi. rewrite (nth_indep _ 0 (F 0%nat)) by (now rewrite map_length, seq_length). rewrite map_nth, seq_nth by exact Hi. reflexivity. Qed.
Lemma nth_mv n A v i : (i < n)%nat -> nth i (mv n A v) 0 = rsum (map (fun j => nth (i * n + j) A 0 * nth j v 0) (seq 0 n)).
Proof. intros Hi. unfold mv. now rewrite nth_mapseq by exact Hi. Qed.
Lemma nth_mvT n A v i : (i < n)%nat -> nth i (mvT n A v) 0 = rsum (map (fun j => nth (j * n + i) A 0 * nth j v 0) (seq 0 n)).
Proof. intros Hi. unfold mvT. now rewrite nth_mapseq by exact Hi. Qed.
Lemma mvT_length n J v : List.length (mvT n J v) = n.
Proof. unfold mvT. now rewrite map_length, seq_length. Qed.
Lemma ip_adj n A u v : ip n (mvT n A u) v = ip n u (mv n A v).
Proof.
  unfold ip. transitivity (rsum (map (fun j => rsum (map (fun i => nth (i * n + j) A 0 * nth i u 0 * nth j v 0) (seq 0 n))) (seq 0 n))).
  - apply rsum_ext. intros j Hj. apply in_seq in Hj. rewrite nth_mvT by lia. rewrite Rmult_comm, <- rsum_map_scal. apply rsum_ext. intros i _. ring.
  - rewrite rsum_swap. apply rsum_ext. intros i Hi. apply in_seq in Hi. rewrite nth_mv by lia. rewrite <- rsum_map_scal. apply rsum_ext. intros j _. ring.
Qed.
Lemma norm2_ip n u : List.length u = n -> norm2 u = ip n u u.
Proof.
  intros H. unfold ip. rewrite <- (whole_list n u H) at 1. unfold norm2. generalize (seq 0 n). intros l. induction l as [|k l IH]; [reflexivity|cbn [map fold_right]; now rewrite IH].
Qed.
Lemma nth_lin c d u v n j : List.length u = n -> List.length v = n -> (j < n)%nat -> nth j (lin c d u v) 0 = c * nth j u 0 + d * nth j v 0.
Proof. intros H1 H2 Hj. pose proof (get_lin c d u v j ltac:(congruence) ltac:(lia)) as E. exact E. Qed.
Lemma norm2_lin n c d u v : List.length u = n -> List.length v = n -> norm2 (lin c d u v) = c * c * norm2 u + 2 * c * d * ip n u v + d * d * norm2 v.
Proof.
  intros H1 H2. rewrite (norm2_ip n (lin c d u v)), (norm2_ip n u), (norm2_ip n v) by (try apply len_lin; assumption). unfold ip.
  change (fold_right Rplus 0) with rsum. rewrite <- !rsum_map_scal, <- !rsum_map_plus. apply rsum_ext. intros j Hj. apply in_seq in Hj.
  rewrite (nth_lin c d u v n) by (assumption || lia). ring.
Qed.
Lemma norm2_0 u : norm2 u = 0 -> Forall (fun x => x = 0) u.
Proof.
  assert (NN : forall l, 0 <= norm2 l) by (induction l as [|x l IH]; unfold norm2 in *; cbn; nra).
  induction u as [|x u IH]; intros H; [constructor|]. unfold norm2 in *. cbn [fold_right] in H. specialize (NN u). assert (P : 0 <= x * x) by nra. assert (Z : x * x = 0) by lra. constructor; [destruct (Rmult_integral _ _ Z); assumption|apply IH; lra].
Qed.
Lemma ip_lin_l n c d u w v : List.length u = n -> List.length w = n -> ip n (lin c d u w) v = c * ip n u v + d * ip n w v.
Proof. intros H1 H2. unfold ip. change (fold_right Rplus 0) with rsum. rewrite <- !rsum_map_scal, <- !rsum_map_plus. apply rsum_ext. intros j Hj. apply in_seq in Hj. rewrite (nth_lin c d u w n) by (assumption || lia). ring. Qed.
Lemma ip_sep n u w : List.length u = n -> List.length w = n -> (forall v, List.length v = n -> ip n u v = ip n w v) -> u = w.
Proof.
  intros H1 H2 H. assert (L := len_lin 1 (-1) u w n H1 H2). assert (Z : norm2 (lin 1 (-1) u w) = 0).
  { rewrite (norm2_ip n _ L), ip_lin_l, (H (lin 1 (-1) u w)) by assumption. ring. }
  apply norm2_0 in Z. rewrite Forall_forall in Z. apply nth_ext with (d := 0) (d' := 0); [congruence|]. intros j Hj. rewrite H1 in Hj.
  assert (HJ : (j < List.length (lin 1 (-1) u w))%nat) by (rewrite L; exact Hj). pose proof (Z (nth j (lin 1 (-1) u w) 0) (nth_In _ _ HJ)) as E. rewrite (nth_lin 1 (-1) u w n) in E by (assumption || lia). lra.
Qed.
Lemma iso_ip n T Ti u v : isometry n T Ti -> List.length u = n -> List.length v = n -> ip n (T u) (T v) = ip n u v.
Proof.
  intros [HI HL] H1 H2. destruct (HI u H1) as (L1 & _ & _ & _ & N1). destruct (HI v H2) as (L2 & _ & _ & _ & N2).
  pose proof (HI _ (len_lin 1 1 u v n H1 H2)) as (_ & _ & _ & _ & N3). rewrite HL, !(norm2_lin n) in N3 by assumption. lra.
Qed.
Lemma mvT_rel n T Ti J J' : isometry n T Ti -> (forall v, List.length v = n -> mv n J' (T v) = T (mv n J v)) -> forall r, List.length r = n -> mvT n J' (T r) = T (mvT n J r).
Proof.
  intros HT HJ r Hr. pose proof HT as [HI HL]. apply (ip_sep n); [apply mvT_length|apply HI, mvT_length|]. intros v Hv.
  destruct (HI v Hv) as (_ & LI & E & _). rewrite <- E, ip_adj, HJ by assumption. rewrite !(iso_ip n T Ti) by (assumption || apply mv_length || apply mvT_length). symmetry. apply ip_adj.
Qed.

Section Trust.
  Variable A : Type.
  Variable small : nat -> R -> R -> bool.
  Variable choose : A -> Measured -> option (R * R).
  Variable judge : A -> Measured -> R -> bool * option A.
  Variable ls : nat -> list R -> list R -> option (list R).
  Hypothesis EX : exact_solve ls.
  Lemma trust_free n T Ti f f' tol : isometry n T Ti -> sized n f -> sized n f' -> (forall x, List.length x = n -> related_at n T f f' x) ->
    forall k nf x xl a, List.length x = n -> List.length xl = n ->
    let r := trust_go A small choose judge ls n f tol k nf x xl a in let r' := trust_go A small choose judge ls n f' tol k nf (T x) (T xl) a in
    List.length (so_x r) = n /\ List.length (so_xlast r) = n /\
    so_converged r' = so_converged r /\ so_x r' = T (so_x r) /\ so_xlast r' = T (so_xlast r) /\
    so_nfev r' = so_nfev r /\ so_nfev_rj r' = so_nfev_rj r.
  Proof.
    intros HT Sf Sf' HR. pose proof HT as [HI HL]. pose proof (newton_free ls EX) as NF.
    induction k as [|k IH]; intros nf x xl a Lx Lxl; cbv zeta; cbn [trust_go]; [cbn [so_x so_xlast so_converged so_nfev so_nfev_rj]; repeat split; assumption|].
    destruct (Sf x Lx) as [L1 _]. destruct (HR x Lx) as [E1 E2]. destruct (NF n T Ti (fst (f x)) (snd (f x)) (snd (f' (T x))) HT L1 E2) as [EN LN]. unfold newton_step in EN, LN.
    pose proof (mvT_rel n T Ti (snd (f x)) (snd (f' (T x))) HT E2 (fst (f x)) L1) as EG. rewrite E1, EG, EN. clear EG EN.
    set (r := fst (f x)) in *. set (J := snd (f x)) in *. set (J' := snd (f' (T x))) in *. assert (LG := mvT_length n J r). set (g := mvT n J r) in *. clearbody g.
    set (nr := ls n J (lin (-1) 0 r r)) in *. clearbody nr.
    assert (EM : measured n (T r) J' (T g) (option_map T nr) = measured n r J g nr).
    { unfold measured. rewrite E2 by exact LG. f_equal; try (apply HI; (assumption || apply mv_length)).
      destruct nr as [s|]; [|reflexivity]. cbn [option_map]. specialize (LN s eq_refl). rewrite (iso_ip n T Ti) by assumption. destruct (HI s LN) as (_ & _ & _ & _ & N). now rewrite N. }
    rewrite EM. set (ms := measured n r J g nr). clearbody ms. clear EM.
    destruct (choose a ms) as [[p q]|]; [|cbn [so_x so_xlast so_converged so_nfev so_nfev_rj]; repeat split; assumption].
    set (d := match nr with Some s => lin p q s g | None => lin q 0 g g end).
    assert (ED : match option_map T nr with Some s => lin p q s (T g) | None => lin q 0 (T g) (T g) end = T d /\ List.length d = n).
    { unfold d. destruct nr as [s|]; cbn [option_map]; [specialize (LN s eq_refl)|]; (split; [rewrite HL by assumption; reflexivity|apply len_lin; assumption]). }
    destruct ED as [ED Ld]. rewrite ED, <- HL by assumption. clear ED. clearbody d. clear LN.
    assert (Lx' := len_lin 1 1 x d n Lx Ld). set (x' := lin 1 1 x d) in *. clearbody x'.
    destruct (HR x' Lx') as [E1' _]. destruct (Sf x' Lx') as [L1' _]. destruct (HI _ L1') as (_ & _ & _ & _ & N'). rewrite E1', N'.
    destruct (small n tol (norm2 (fst (f x')))); [cbn [so_x so_xlast so_converged so_nfev so_nfev_rj]; repeat split; assumption|].
    destruct (judge a ms (norm2 (fst (f x')))) as [[|] [a'|]]; try (cbn [so_x so_xlast so_converged so_nfev so_nfev_rj]; repeat split; assumption); apply IH; assumption.
  Qed.
  Theorem trust_cf a0 : coordinate_free (trust A small choose judge ls a0).
  Proof.
    intros n T Ti f f' tol it x0 HT Sf Sf' L HR. cbv zeta. unfold trust. pose proof HT as [HI HL].
    destruct (HR x0 L) as [E1 _]. destruct (Sf x0 L) as [L1 _]. destruct (HI _ L1) as (_ & _ & _ & _ & N). rewrite E1, N.
    destruct (small n tol (norm2 (fst (f x0)))); [cbn [so_x so_xlast so_converged so_nfev so_nfev_rj]; repeat split; assumption|].
    exact (trust_free n T Ti f f' tol HT Sf Sf' HR it 1 x0 x0 a0 L L).
  Qed.
End Trust.
