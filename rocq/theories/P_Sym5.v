(** The change of unknowns between equivalent orientations as a change of orthonormal coordinates, and what a
    coordinate-free solver makes of it (C22). *)
From Coq Require Import List ZArith Bool Lia PeanoNat Reals Lra String.
From Verif Require Import P_Demo.
From Verif Require Import Num Arr NumR Util SlipGeom Eos Hard KinVoce KinKMBalD Elast Evptn MatModel Cases SpecTensor
  SpecElast SpecSlip P_Tensor P_Elast P_Eos P_Sngl P_Sngl2 P_Sngl3 P_Batch P_Batch2 P_Batch3 P_Batch4 P_Api P_Builtin SpecApi P_Hist SpecStress P_Stress
  SpecKin SpecKinApi SpecStep P_KinV P_Kin4 P_Call P_Slip P_SlipH P_Step P_Step2 P_Energy P_Deriv P_Jac P_Jac2 SpecJac SpecSym P_Sym P_Sym1 P_Sym2 P_Sym3 P_Sym4.
Import ListNotations.
Local Open Scope R_scope.

Definition xr (x : list R) : V3 := mkV (nth 5 x 0) (nth 6 x 0) (nth 7 x 0).
Lemma map_form S x : sym_map S x = vec5 (cong (tr3 S) (ten5 x)) ++ ofV3 (mulv (tr3 S) (xr x)).
Proof. reflexivity. Qed.
Lemma ten5_app a b : List.length a = 5%nat -> ten5 (a ++ b) = ten5 a.
Proof. intros L. explode a. reflexivity. Qed.
Lemma xr_app a w : List.length a = 5%nat -> xr (a ++ ofV3 w) = w.
Proof. intros L. explode a. destruct w. reflexivity. Qed.
Lemma map_inv S x : is_orth S -> List.length x = 8%nat -> sym_map S (sym_map (tr3 S) x) = x.
Proof.
  intros HS L. rewrite (map_form (tr3 S)). rewrite map_form, ten5_app, xr_app by reflexivity.
  replace (tr3 (tr3 S)) with S by (destruct S; reflexivity).
  assert (HT := orth_tr S HS).
  rewrite <- (vec5_cong_dev (tr3 S) (cong S (ten5 x)) HT).
  assert (E : cong (tr3 S) (cong S (ten5 x)) = ten5 x).
  { destruct HS as [H1 H2]. unfold cong. rewrite !mul3_assoc. replace (tr3 (tr3 S)) with S by (destruct S; reflexivity). rewrite H2, SpecTensor.mul3_1r.
    rewrite <- mul3_assoc, H2. apply SpecTensor.mul3_1l. }
  rewrite E. rewrite <- mulv_mul, (proj2 HS), mulv_I. explode x.
  assert (Y : forall a l, vec5 (ten5 (a ++ l)) = a \/ List.length a <> 5%nat).
  { intros a l. destruct (Nat.eq_dec (List.length a) 5) as [La|La]; [left|right; exact La]. rewrite ten5_app by exact La. now apply vec5_ten5. }
  match goal with |- vec5 (ten5 [?a; ?b; ?c; ?d; ?e; ?f; ?g; ?h]) ++ _ = _ => destruct (Y [a; b; c; d; e] [f; g; h]) as [Z|Z]; [|now elim Z] end.
  cbn [app] in Z. rewrite Z. reflexivity.
Qed.
Lemma len_lin c d (u v : list R) n : List.length u = n -> List.length v = n -> List.length (lin c d u v) = n.
Proof. intros H1 H2. unfold lin. rewrite map_length, combine_length, H1, H2. apply Nat.min_id. Qed.
Lemma get_lin c d u v i : List.length u = List.length v -> (i < List.length u)%nat -> get (lin c d u v) i = c * get u i + d * get v i.
Proof.
  intros H Hi. unfold lin, get. assert (L : (i < List.length (combine u v))%nat) by (rewrite combine_length, <- H, Nat.min_id; exact Hi).
  rewrite (nth_indep _ nundef ((fun p => c * fst p + d * snd p) (nundef, nundef))) by (rewrite map_length; exact L).
  rewrite (map_nth (fun p : R * R => c * fst p + d * snd p)), combine_nth by exact H. reflexivity.
Qed.
Lemma map_lin S c d x y : is_orth S -> List.length x = 8%nat -> List.length y = 8%nat -> sym_map S (lin c d x y) = lin c d (sym_map S x) (sym_map S y).
Proof.
  intros HS Lx Ly. symmetry. assert (LL := len_lin c d x y 8 Lx Ly).
  apply map_ext8; [exact HS|apply len_lin; reflexivity|exact LL| |].
  - intros i Hi. rewrite get_lin by (reflexivity || (rewrite map_len; lia)). rewrite !get_map5 by assumption.
    rewrite <- !rm_scal, <- rm_plus. apply rm_ext. intros j Hj. rewrite get_lin by lia. reflexivity.
  - intros i Hi. rewrite get_lin by (reflexivity || (rewrite map_len; lia)). rewrite !get_map3 by assumption.
    rewrite <- !rm_scal, <- rm_plus. apply rm_ext. intros j Hj. rewrite get_lin by lia. reflexivity.
Qed.
Lemma norm2_8 x : List.length x = 8%nat -> norm2 x = sum 5 (fun i => get x i * get x i) + dotv (xr x) (xr x).
Proof. intros L. explode x. unfold norm2, xr, dotv. cbn [fold_right nth v0 v1 v2]. unfold sum, get. cbn [fold_left seq nth]. rops. ring. Qed.
Lemma map_norm S x : is_orth S -> List.length x = 8%nat -> norm2 (sym_map S x) = norm2 x.
Proof.
  intros HS L. rewrite !norm2_8 by (assumption || reflexivity).
  assert (E : xr (sym_map S x) = mulv (tr3 S) (xr x)) by (rewrite map_form; apply xr_app; reflexivity).
  rewrite E, dot_mulv by (apply orth_tr; exact HS). f_equal.
  rewrite (sum_ext 5 _ (fun i => rm 5 (rmat S) (get x) i * rm 5 (rmat S) (get x) i)) by (intros i Hi; rewrite get_map5 by assumption; reflexivity).
  apply rm_iso5. exact HS.
Qed.
Lemma map_isometry S : is_orth S -> isometry 8 (sym_map S) (sym_map (tr3 S)).
Proof.
  intros HS. split.
  - intros x L. split; [reflexivity|]. split; [reflexivity|]. split; [now apply map_inv|]. split; [|now apply map_norm].
    rewrite <- (map_inv (tr3 S) x (orth_tr S HS) L) at 2. replace (tr3 (tr3 S)) with S by (destruct S; reflexivity). reflexivity.
  - intros c d x y. now apply map_lin.
Qed.
Lemma map_off S x : is_orth S -> List.length x = 8%nat -> (off_tiny (sym_map S x) <-> off_tiny x).
Proof.
  intros HS L. assert (E : trial_rot (sym_map S x) = mulv (tr3 S) (trial_rot x)).
  { change (trial_rot (sym_map S x)) with (scalv (1 / 100) (xr (sym_map S x))). change (trial_rot x) with (scalv (1 / 100) (xr x)).
    rewrite map_form, xr_app by reflexivity. symmetry; apply mulv_scalv. }
  unfold off_tiny. rewrite E, norm_mulv by (apply orth_tr; exact HS). reflexivity.
Qed.

(** unit vectors *)
Definition unit8 (j : nat) : list R := tab 8 (fun k => if Nat.eqb k j then 1 else 0).
Lemma linear_sum (L : list R -> R) : (forall c d x y, List.length x = 8%nat -> List.length y = 8%nat -> L (lin c d x y) = c * L x + d * L y) ->
  forall x, List.length x = 8%nat -> L x = sum 8 (fun j => L (unit8 j) * get x j).
Proof.
  intros HL x Lx.
  assert (E : x = lin (get x 0) 1 (unit8 0) (lin (get x 1) 1 (unit8 1) (lin (get x 2) 1 (unit8 2) (lin (get x 3) 1 (unit8 3)
    (lin (get x 4) 1 (unit8 4) (lin (get x 5) 1 (unit8 5) (lin (get x 6) (get x 7) (unit8 6) (unit8 7)))))))).
  { explode x. unfold lin, unit8, get, tab. cbn [map seq Nat.eqb combine fst snd nth]. rops.
    repeat (apply (f_equal2 cons); [ring|]). reflexivity. }
  rewrite E at 1. repeat (rewrite HL; [|reflexivity|reflexivity]). unfold sum. cbn [fold_left seq]. rops. ring.
Qed.
Lemma mv_lin A c d x y : List.length x = 8%nat -> List.length y = 8%nat -> mv 8 A (lin c d x y) = lin c d (mv 8 A x) (mv 8 A y).
Proof.
  intros Lx Ly. apply list_get_ext; [rewrite (len_lin c d (mv 8 A x) (mv 8 A y) 8); reflexivity|]. intros i Hi. change (i < 8)%nat in Hi.
  rewrite get_lin by (reflexivity || exact Hi). rewrite !mv_get by exact Hi. rewrite <- !sum_scal_l, <- sum_plus. apply sum_ext. intros j Hj. rewrite get_lin by lia. ring.
Qed.
Lemma mv_unit A i j : (i < 8)%nat -> (j < 8)%nat -> get (mv 8 A (unit8 j)) i = get2 8 A i j.
Proof.
  intros Hi Hj. rewrite mv_get by exact Hi. unfold unit8.
  rewrite (sum_ext 8 _ (fun k => get2 8 A i k * (if Nat.eqb k j then 1 else 0))) by (intros k Hk; rewrite get_tab by exact Hk; reflexivity).
  unfold sum. do 8 (destruct j as [|j]; [cbn [fold_left seq Nat.eqb]; rops; ring|]). lia.
Qed.
Definition carried (S : M3) (f : list R -> list R * list R) (y : list R) : list R * list R :=
  let x := sym_map (tr3 S) y in
  (sym_map S (fst (f x)), tab2 8 8 (fun i j => get (sym_map S (mv 8 (snd (f x)) (sym_map (tr3 S) (unit8 j)))) i)).
Lemma carried_mv S f y w : is_orth S -> List.length w = 8%nat -> mv 8 (snd (carried S f y)) w = sym_map S (mv 8 (snd (f (sym_map (tr3 S) y))) (sym_map (tr3 S) w)).
Proof.
  intros HS Lw. apply list_get_ext; [reflexivity|]. intros i Hi. change (i < 8)%nat in Hi. rewrite mv_get by exact Hi.
  set (A := snd (f (sym_map (tr3 S) y))).
  pose (L := fun w => get (sym_map S (mv 8 A (sym_map (tr3 S) w))) i). change (get (sym_map S (mv 8 A (sym_map (tr3 S) w))) i) with (L w).
  rewrite (linear_sum L); [|intros c d u v Lu Lv; unfold L; rewrite (map_lin (tr3 S)), mv_lin, map_lin by (assumption || reflexivity || (apply orth_tr; exact HS)); rewrite get_lin by (reflexivity || exact Hi); reflexivity|exact Lw].
  apply sum_ext. intros j Hj. unfold carried. cbn [snd]. rewrite get2_tab2 by assumption. reflexivity.
Qed.
Lemma carried_related S f x : is_orth S -> List.length x = 8%nat -> related_at 8 (sym_map S) f (carried S f) x.
Proof.
  intros HS Lx. pose proof (proj1 (map_isometry S HS)) as HI. destruct (HI x Lx) as (_ & _ & _ & E & _).
  split; [unfold carried; cbv zeta; cbn [fst]; rewrite E; reflexivity|].
  intros v Lv. rewrite carried_mv by (assumption || reflexivity). rewrite E. destruct (HI v Lv) as (_ & _ & _ & E' & _). rewrite E'. reflexivity.
Qed.
Lemma carried_same S f f' y : is_orth S -> sized 8 f -> sized 8 f' -> List.length y = 8%nat ->
  related_at 8 (sym_map S) f f' (sym_map (tr3 S) y) -> carried S f y = f' y.
Proof.
  intros HS Sf Sf' Ly [H1 H2]. pose proof (proj1 (map_isometry S HS)) as HI. destruct (HI y Ly) as (_ & _ & E & _). rewrite E in H1, H2.
  rewrite (surjective_pairing (f' y)), (surjective_pairing (carried S f y)). f_equal; [symmetry; exact H1|].
  apply list_get_ext; [rewrite (proj2 (Sf' y Ly)); reflexivity|]. intros k Hk. change (k < 64)%nat in Hk.
  pose proof (Nat.div_mod k 8 ltac:(lia)) as DM. pose proof (Nat.mod_upper_bound k 8 ltac:(lia)) as B.
  assert (B' : (k / 8 < 8)%nat) by (apply Nat.div_lt_upper_bound; lia).
  replace k with (k / 8 * 8 + k mod 8)%nat by lia.
  change (get2 8 (snd (carried S f y)) (k / 8) (k mod 8) = get2 8 (snd (f' y)) (k / 8) (k mod 8)).
  rewrite <- !mv_unit by assumption. f_equal. rewrite carried_mv by (assumption || reflexivity).
  destruct (HI (unit8 (k mod 8)) eq_refl) as (_ & _ & E' & _). rewrite <- E' at 2. rewrite H2 by reflexivity. reflexivity.
Qed.
Lemma solver_turn sv S f f' tol it : is_orth S -> sized 8 f -> sized 8 f' ->
  (forall x, List.length x = 8%nat -> off_tiny x -> related_at 8 (sym_map S) f f' x) ->
  coordinate_free sv -> stays_in sv 8 f' off_tiny tol it [0; 0; 0; 0; 0; 0; 0; 0] ->
  let r := sv 8%nat f tol it [0; 0; 0; 0; 0; 0; 0; 0] in let r' := sv 8%nat f' tol it [0; 0; 0; 0; 0; 0; 0; 0] in
  List.length (so_x r) = 8%nat /\ List.length (so_xlast r) = 8%nat /\
  so_converged r' = so_converged r /\ so_x r' = sym_map S (so_x r) /\ so_xlast r' = sym_map S (so_xlast r) /\
  so_nfev r' = so_nfev r /\ so_nfev_rj r' = so_nfev_rj r.
Proof.
  intros HS Sf Sf' HR HC HI. cbv zeta.
  assert (Sg : sized 8 (carried S f)) by (intros x Lx; split; reflexivity).
  pose proof (HC 8%nat (sym_map S) (sym_map (tr3 S)) f (carried S f) tol it [0; 0; 0; 0; 0; 0; 0; 0] (map_isometry S HS) Sf Sg eq_refl
    (fun x Lx => carried_related S f x HS Lx)) as H. cbv zeta in H.
  assert (Z : sym_map S [0; 0; 0; 0; 0; 0; 0; 0] = [0; 0; 0; 0; 0; 0; 0; 0]).
  { assert (E : [0; 0; 0; 0; 0; 0; 0; 0] = lin 0 0 [0; 0; 0; 0; 0; 0; 0; 0] [0; 0; 0; 0; 0; 0; 0; 0]).
    { unfold lin. cbn [map combine fst snd]. repeat (apply (f_equal2 cons); [ring|]). reflexivity. }
    rewrite E at 1. rewrite map_lin by (exact HS || reflexivity). set (y := sym_map S _). assert (Ly : List.length y = 8%nat) by reflexivity. clearbody y. explode y.
    unfold lin. cbn [map combine fst snd]. repeat (apply (f_equal2 cons); [ring|]). reflexivity. }
  rewrite Z in H. rewrite <- (HI (carried S f) Sg); [exact H|].
  intros y Ly Oy. apply (carried_same S f f' y HS Sf Sf' Ly). apply HR; [reflexivity|]. apply map_off; [apply orth_tr; exact HS|exact Ly|exact Oy].
Qed.
