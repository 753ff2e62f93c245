(** Independent specification: 3x3 matrices, rotations, the orthonormal basis of symmetric tensors.
    Nothing here refers to the model of the code. *)
From Coq Require Import Reals List Lra.
Import ListNotations.
Local Open Scope R_scope.

Record V3 := mkV { v0 : R; v1 : R; v2 : R }.
Record M3 := mk3 { a00 : R; a01 : R; a02 : R; a10 : R; a11 : R; a12 : R; a20 : R; a21 : R; a22 : R }.

Definition I3 : M3 := mk3 1 0 0 0 1 0 0 0 1.
Definition Z3 : M3 := mk3 0 0 0 0 0 0 0 0 0.
Definition tr3 (A : M3) : M3 := mk3 (a00 A) (a10 A) (a20 A) (a01 A) (a11 A) (a21 A) (a02 A) (a12 A) (a22 A).
Definition add3 (A B : M3) : M3 :=
  mk3 (a00 A + a00 B) (a01 A + a01 B) (a02 A + a02 B) (a10 A + a10 B) (a11 A + a11 B) (a12 A + a12 B)
      (a20 A + a20 B) (a21 A + a21 B) (a22 A + a22 B).
Definition scal3 (c : R) (A : M3) : M3 :=
  mk3 (c * a00 A) (c * a01 A) (c * a02 A) (c * a10 A) (c * a11 A) (c * a12 A) (c * a20 A) (c * a21 A) (c * a22 A).
Definition mul3 (A B : M3) : M3 :=
  mk3 (a00 A * a00 B + a01 A * a10 B + a02 A * a20 B)
      (a00 A * a01 B + a01 A * a11 B + a02 A * a21 B)
      (a00 A * a02 B + a01 A * a12 B + a02 A * a22 B)
      (a10 A * a00 B + a11 A * a10 B + a12 A * a20 B)
      (a10 A * a01 B + a11 A * a11 B + a12 A * a21 B)
      (a10 A * a02 B + a11 A * a12 B + a12 A * a22 B)
      (a20 A * a00 B + a21 A * a10 B + a22 A * a20 B)
      (a20 A * a01 B + a21 A * a11 B + a22 A * a21 B)
      (a20 A * a02 B + a21 A * a12 B + a22 A * a22 B).
Definition mulv (A : M3) (x : V3) : V3 :=
  mkV (a00 A * v0 x + a01 A * v1 x + a02 A * v2 x)
      (a10 A * v0 x + a11 A * v1 x + a12 A * v2 x)
      (a20 A * v0 x + a21 A * v1 x + a22 A * v2 x).
Definition trace (A : M3) : R := a00 A + a11 A + a22 A.
Definition det3 (A : M3) : R :=
  a00 A * (a11 A * a22 A - a12 A * a21 A) - a01 A * (a10 A * a22 A - a12 A * a20 A)
  + a02 A * (a10 A * a21 A - a11 A * a20 A).
(** A : B *)
Definition inner (A B : M3) : R :=
  a00 A * a00 B + a01 A * a01 B + a02 A * a02 B + a10 A * a10 B + a11 A * a11 B + a12 A * a12 B
  + a20 A * a20 B + a21 A * a21 B + a22 A * a22 B.
Definition dotv (x y : V3) : R := v0 x * v0 y + v1 x * v1 y + v2 x * v2 y.
Definition crossv (x y : V3) : V3 :=
  mkV (v1 x * v2 y - v2 x * v1 y) (v2 x * v0 y - v0 x * v2 y) (v0 x * v1 y - v1 x * v0 y).
Definition outer (x y : V3) : M3 :=
  mk3 (v0 x * v0 y) (v0 x * v1 y) (v0 x * v2 y) (v1 x * v0 y) (v1 x * v1 y) (v1 x * v2 y)
      (v2 x * v0 y) (v2 x * v1 y) (v2 x * v2 y).
(** the skew tensor with axial vector w: [axial w x = w cross x] *)
Definition axial (w : V3) : M3 := mk3 0 (- v2 w) (v1 w) (v2 w) 0 (- v0 w) (- v1 w) (v0 w) 0.

Definition is_sym (A : M3) : Prop := tr3 A = A.
Definition is_dev (A : M3) : Prop := is_sym A /\ trace A = 0.
Definition is_orth (A : M3) : Prop := mul3 A (tr3 A) = I3 /\ mul3 (tr3 A) A = I3.
Definition is_rot (A : M3) : Prop := is_orth A /\ det3 A = 1.

(** congruence C A C^T: the tensor A rotated by C *)
Definition cong (C A : M3) : M3 := mul3 (mul3 C A) (tr3 C).

(** orthonormal basis of the symmetric tensors: five deviatoric ones and the spherical one *)
Definition basis (k : nat) : M3 :=
  match k with
  | 0%nat => scal3 (/ sqrt 2) (mk3 1 0 0 0 (-1) 0 0 0 0)
  | 1%nat => scal3 (/ sqrt 6) (mk3 (-1) 0 0 0 (-1) 0 0 0 2)
  | 2%nat => scal3 (/ sqrt 2) (mk3 0 1 0 1 0 0 0 0 0)
  | 3%nat => scal3 (/ sqrt 2) (mk3 0 0 1 0 0 0 1 0 0)
  | 4%nat => scal3 (/ sqrt 2) (mk3 0 0 0 0 0 1 0 1 0)
  | _ => scal3 (/ sqrt 3) I3
  end.

(** component vectors in that basis *)
Definition vec5 (A : M3) : list R :=
  [inner A (basis 0); inner A (basis 1); inner A (basis 2); inner A (basis 3); inner A (basis 4)].
Definition vec6 (A : M3) : list R := vec5 A ++ [inner A (basis 5)].
(** the deviatoric tensor with given five components *)
Definition ten5 (v : list R) : M3 :=
  add3 (scal3 (nth 0 v 0) (basis 0)) (add3 (scal3 (nth 1 v 0) (basis 1)) (add3 (scal3 (nth 2 v 0) (basis 2))
    (add3 (scal3 (nth 3 v 0) (basis 3)) (scal3 (nth 4 v 0) (basis 4))))).
Definition ten6 (v : list R) : M3 := add3 (ten5 v) (scal3 (nth 5 v 0) (basis 5)).

(** Voigt order xx, yy, zz, yz, xz, xy *)
Definition voigt (A : M3) : list R := [a00 A; a11 A; a22 A; a12 A; a02 A; a01 A].
(** deviatoric part plus pressure p = - trace / 3 *)
Definition svecP (A : M3) : list R :=
  let m := trace A / 3 in [a00 A - m; a11 A - m; a22 A - m; a12 A; a02 A; a01 A; - m].

(** reading flat row-major arrays *)
Definition toM3 (l : list R) : M3 :=
  mk3 (nth 0 l 0) (nth 1 l 0) (nth 2 l 0) (nth 3 l 0) (nth 4 l 0) (nth 5 l 0) (nth 6 l 0) (nth 7 l 0) (nth 8 l 0).
Definition toV3 (l : list R) : V3 := mkV (nth 0 l 0) (nth 1 l 0) (nth 2 l 0).
Definition ofM3 (A : M3) : list R := [a00 A; a01 A; a02 A; a10 A; a11 A; a12 A; a20 A; a21 A; a22 A].
Definition ofV3 (x : V3) : list R := [v0 x; v1 x; v2 x].

(** ** Quaternions, axis-angle rotations, parts of tensors *)
(** scalar-vector form of the Hamilton product *)
Definition hmul (p q : R * V3) : R * V3 :=
  let (s, v) := p in let (t, w) := q in
  let c := crossv v w in
  (s * t - dotv v w,
   mkV (s * v0 w + t * v0 v + v0 c) (s * v1 w + t * v1 v + v1 c) (s * v2 w + t * v2 v + v2 c)).
Definition hconj (p : R * V3) : R * V3 := let (s, v) := p in (s, mkV (- v0 v) (- v1 v) (- v2 v)).
Definition toH (l : list R) : R * V3 := (nth 0 l 0, mkV (nth 1 l 0) (nth 2 l 0) (nth 3 l 0)).
Definition norm2 (l : list R) : R := fold_right (fun x a => x * x + a) 0 l.

(** Rodrigues' formula: rotation by angle t about the unit axis n *)
Definition rodrigues (n : V3) (t : R) : M3 :=
  add3 (scal3 (cos t) I3) (add3 (scal3 (1 - cos t) (outer n n)) (scal3 (sin t) (axial n))).

Definition norm3 (w : V3) : R := sqrt (dotv w w).

Definition unitv (w : V3) : V3 := mkV (/ norm3 w * v0 w) (/ norm3 w * v1 w) (/ norm3 w * v2 w).

Definition oppv (w : V3) := mkV (- v0 w) (- v1 w) (- v2 w).
Definition dev3 (A : M3) : M3 := add3 A (scal3 (- (trace A / 3)) I3).
Definition lin (c d : R) (u v : list R) : list R := map (fun p => c * fst p + d * snd p) (combine u v).
Definition symp (A : M3) : M3 := scal3 (/2) (add3 A (tr3 A)).
Definition skwp (A : M3) : M3 := scal3 (/2) (add3 A (scal3 (-1) (tr3 A))).

(** ** Elementary facts *)
Lemma V3_ext x y : v0 x = v0 y -> v1 x = v1 y -> v2 x = v2 y -> x = y.
Proof. destruct x, y; cbn; congruence. Qed.
Lemma M3_ext A B : a00 A = a00 B -> a01 A = a01 B -> a02 A = a02 B -> a10 A = a10 B -> a11 A = a11 B ->
  a12 A = a12 B -> a20 A = a20 B -> a21 A = a21 B -> a22 A = a22 B -> A = B.
Proof. destruct A, B; cbn; congruence. Qed.

Lemma mk3_eq a b c d e f g h i a' b' c' d' e' f' g' h' i' :
  a = a' -> b = b' -> c = c' -> d = d' -> e = e' -> f = f' -> g = g' -> h = h' -> i = i' ->
  mk3 a b c d e f g h i = mk3 a' b' c' d' e' f' g' h' i'.
Proof. congruence. Qed.
Lemma mkV_eq a b c a' b' c' : a = a' -> b = b' -> c = c' -> mkV a b c = mkV a' b' c'.
Proof. congruence. Qed.
(** split an equality of explicit matrices, vectors, lists or pairs; avoids unification of real expressions *)
Ltac meq := lazymatch goal with
  | |- mk3 _ _ _ _ _ _ _ _ _ = mk3 _ _ _ _ _ _ _ _ _ => apply mk3_eq
  | |- mkV _ _ _ = mkV _ _ _ => apply mkV_eq
  | |- cons _ _ = cons _ _ => apply (f_equal2 (@cons _)); [|try meq]
  | |- pair _ _ = pair _ _ => apply (f_equal2 (@pair _ _)); try meq
  | |- @nil _ = @nil _ => reflexivity
  end.

Ltac m3 := intros;
  repeat match goal with A : M3 |- _ => destruct A | x : V3 |- _ => destruct x end;
  cbv beta iota zeta delta [cong inner trace det3 outer axial dotv crossv mulv mul3 add3 scal3 tr3 I3 Z3
       a00 a01 a02 a10 a11 a12 a20 a21 a22 v0 v1 v2] in *.

Lemma mul3_assoc A B C : mul3 (mul3 A B) C = mul3 A (mul3 B C).
Proof. m3. meq; ring. Qed.
Lemma mul3_1l A : mul3 I3 A = A.
Proof. m3. meq; ring. Qed.
Lemma mul3_1r A : mul3 A I3 = A.
Proof. m3. meq; ring. Qed.
Lemma tr3_mul A B : tr3 (mul3 A B) = mul3 (tr3 B) (tr3 A).
Proof. m3. meq; ring. Qed.
Lemma tr3_tr A : tr3 (tr3 A) = A.
Proof. m3. reflexivity. Qed.
Lemma det3_mul A B : det3 (mul3 A B) = det3 A * det3 B.
Proof. m3. ring. Qed.
Lemma det3_tr A : det3 (tr3 A) = det3 A.
Proof. m3. ring. Qed.
Lemma trace_mul_comm A B : trace (mul3 A B) = trace (mul3 B A).
Proof. m3. ring. Qed.
Lemma inner_trace A B : inner A B = trace (mul3 (tr3 A) B).
Proof. m3. ring. Qed.
Lemma inner_comm A B : inner A B = inner B A.
Proof. m3. ring. Qed.
Lemma inner_add_l A B C : inner (add3 A B) C = inner A C + inner B C.
Proof. m3. ring. Qed.
Lemma inner_add_r A B C : inner A (add3 B C) = inner A B + inner A C.
Proof. m3. ring. Qed.
Lemma inner_scal_l c A B : inner (scal3 c A) B = c * inner A B.
Proof. m3. ring. Qed.
Lemma inner_scal_r c A B : inner A (scal3 c B) = c * inner A B.
Proof. m3. ring. Qed.
Lemma cong_add C A B : cong C (add3 A B) = add3 (cong C A) (cong C B).
Proof. m3. meq; ring. Qed.
Lemma cong_scal C c A : cong C (scal3 c A) = scal3 c (cong C A).
Proof. m3. meq; ring. Qed.
Lemma cong_mul C D A : cong (mul3 C D) A = cong C (cong D A).
Proof. unfold cong. rewrite tr3_mul, !mul3_assoc. reflexivity. Qed.
Lemma cong_1 A : cong I3 A = A.
Proof. m3. meq; ring. Qed.
Lemma cong_sym C A : is_sym A -> is_sym (cong C A).
Proof. unfold is_sym, cong. intros H. rewrite !tr3_mul, tr3_tr, H, mul3_assoc. reflexivity. Qed.
Lemma cong_trace C A : is_orth C -> trace (cong C A) = trace A.
Proof.
  intros [_ H]. unfold cong. rewrite trace_mul_comm, <- mul3_assoc, H, mul3_1l. reflexivity.
Qed.
Lemma cong_dev C A : is_orth C -> is_dev A -> is_dev (cong C A).
Proof. intros HC [H1 H2]. split; [now apply cong_sym | now rewrite cong_trace]. Qed.
Lemma cong_inner C A B : is_orth C -> inner (cong C A) (cong C B) = inner A B.
Proof.
  intros [H1 H2]. rewrite !inner_trace. unfold cong. rewrite !tr3_mul, tr3_tr, !mul3_assoc.
  rewrite <- (mul3_assoc (tr3 C) C), H2, mul3_1l.
  rewrite trace_mul_comm, !mul3_assoc, H2, mul3_1r. reflexivity.
Qed.
Lemma cong_adj C A B : inner (cong C A) B = inner A (cong (tr3 C) B).
Proof. m3. ring. Qed.
Lemma orth_tr C : is_orth C -> is_orth (tr3 C).
Proof. intros [H1 H2]. split; rewrite tr3_tr; assumption. Qed.
Lemma orth_mul C D : is_orth C -> is_orth D -> is_orth (mul3 C D).
Proof.
  intros [H1 H2] [H3 H4]. split; rewrite tr3_mul, mul3_assoc.
  - rewrite <- (mul3_assoc D), H3, mul3_1l. assumption.
  - rewrite <- (mul3_assoc (tr3 C)), H2, mul3_1l. assumption.
Qed.
Lemma rot_mul C D : is_rot C -> is_rot D -> is_rot (mul3 C D).
Proof. intros [H1 H2] [H3 H4]. split; [now apply orth_mul|]. rewrite det3_mul, H2, H4. ring. Qed.
Lemma rot_tr C : is_rot C -> is_rot (tr3 C).
Proof. intros [H1 H2]. split; [now apply orth_tr|]. now rewrite det3_tr. Qed.
Lemma rot_I : is_rot I3.
Proof. repeat split; m3; try ring; meq; ring. Qed.

Lemma sqrt6 : sqrt 6 = sqrt 2 * sqrt 3.
Proof. rewrite <- sqrt_mult by lra. f_equal. Qed.

Lemma inv_sqrt x : 0 < x -> / sqrt x = sqrt x / x.
Proof.
  intros H. pose proof (sqrt_lt_R0 x H). rewrite <- (sqrt_sqrt x) at 3 by lra. field. lra.
Qed.

(** Basis facts, with sqrt 2 and sqrt 3 abstracted to a, b with a*a = 2, b*b = 3 *)
Ltac s23 :=
  rewrite ?sqrt6 in *;
  let a := fresh "a" in let b := fresh "b" in
  let E2 := fresh "E2" in let E3 := fresh "E3" in
  assert (E2 : sqrt 2 * sqrt 2 = 2) by (apply sqrt_sqrt; lra);
  assert (E3 : sqrt 3 * sqrt 3 = 3) by (apply sqrt_sqrt; lra);
  rewrite ?Rinv_mult in *;
  rewrite ?(inv_sqrt 2 ltac:(lra)), ?(inv_sqrt 3 ltac:(lra)) in *;
  set (a := sqrt 2) in *; set (b := sqrt 3) in *; clearbody a b.

Ltac fs23 H H' := first [ reflexivity | solve [field_simplify_eq; first [reflexivity | ring [H H']]] | ring [H H'] ].

Definition kron (i j : nat) : R := if Nat.eqb i j then 1 else 0.

Lemma basis_orthonormal i j : (i < 6)%nat -> (j < 6)%nat -> inner (basis i) (basis j) = kron i j.
Proof.
  intros Hi Hj.
  do 6 (try destruct i as [|i]); try (exfalso; Lia.lia);
  do 6 (try destruct j as [|j]); try (exfalso; Lia.lia);
  unfold basis, kron, inner, scal3, I3; cbn; s23;
  match goal with H : ?a * ?a = 2, H' : ?b * ?b = 3 |- _ => fs23 H H' end.
Qed.

Lemma ten6_vec6 A : is_sym A -> ten6 (vec6 A) = A.
Proof.
  intros H. destruct A. unfold is_sym, tr3 in H. cbn in H. injection H as H1 H2 _ H3 _ _. subst.
  cbv beta iota zeta delta [ten6 vec6 ten5 vec5 basis inner add3 scal3 I3 app nth a00 a01 a02 a10 a11 a12 a20 a21 a22]. s23.
  match goal with H : ?a * ?a = 2, H' : ?b * ?b = 3 |- _ => meq; fs23 H H' end.
Qed.

Lemma ten5_vec5 A : is_dev A -> ten5 (vec5 A) = A.
Proof.
  intros [H Ht]. destruct A. unfold is_sym, tr3 in H. cbn in H. injection H as H1 H2 _ H3 _ _. subst.
  unfold trace in Ht. cbn in Ht.
  match type of Ht with ?x + ?y + ?z = 0 => assert (z = - x - y) by lra; subst z end. clear Ht.
  cbv beta iota zeta delta [ten5 vec5 basis inner add3 scal3 I3 nth a00 a01 a02 a10 a11 a12 a20 a21 a22]. s23.
  match goal with H : ?a * ?a = 2, H' : ?b * ?b = 3 |- _ => meq; fs23 H H' end.
Qed.

Lemma ten5_dev v : is_dev (ten5 v).
Proof.
  split; unfold is_sym;
  cbv beta iota zeta delta [trace tr3 ten5 basis add3 scal3 I3 a00 a01 a02 a10 a11 a12 a20 a21 a22]; [meq; ring | ring].
Qed.
