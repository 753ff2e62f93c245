(** Independent specification of slip systems: Miller indices, the lattice directions and plane
    normals they denote, and what it means for stored Schmid data to belong to a set of systems.
    Nothing here refers to the model of the code. *)
From Coq Require Import Reals List ZArith Lra Lia.
From Verif Require Import SpecTensor.
Import ListNotations.
Local Open Scope R_scope.

(** ** Cubic lattices: direction [uvw] and normal of the plane (hkl) *)
Definition Z3i := (Z * Z * Z)%type.
Definition cub (p : Z3i) : V3 := let '(a, b, c) := p in mkV (IZR a) (IZR b) (IZR c).
Definition zdot (p q : Z3i) : Z := (let '(a, b, c) := p in let '(d, e, f) := q in a * d + b * e + c * f)%Z.
Definition zneg (p : Z3i) : Z3i := (let '(a, b, c) := p in (- a, - b, - c))%Z.

(** ** Hexagonal lattices: four-index (Miller-Bravais) notation with h + k + i = 0.
    Lattice vectors a1, a2, a3 at 120 degrees in the basal plane, c along the third axis. *)
Definition Z4i := (Z * Z * Z * Z)%type.
Definition hexOK (p : Z4i) : Prop := let '(h, k, i, _) := p in (h + k + i = 0)%Z.
Definition lin3 (x y z : R) (a b c : V3) : V3 :=
  mkV (x * v0 a + y * v0 b + z * v0 c) (x * v1 a + y * v1 b + z * v1 c) (x * v2 a + y * v2 b + z * v2 c).
Definition ha1 : V3 := mkV 1 0 0.
Definition ha2 : V3 := mkV (- (1/2)) (sqrt 3 / 2) 0.
Definition ha3 : V3 := mkV (- (1/2)) (- (sqrt 3 / 2)) 0.
Definition addv (x y : V3) : V3 := mkV (v0 x + v0 y) (v1 x + v1 y) (v2 x + v2 y).
(** direction [uvtw] = u a1 + v a2 + t a3 + w c *)
Definition hexdir (ca : R) (p : Z4i) : V3 :=
  let '(u, v, t, w) := p in addv (lin3 (IZR u) (IZR v) (IZR t) ha1 ha2 ha3) (mkV 0 0 (IZR w * ca)).
(** normal of the plane (hkil): the reciprocal-lattice vector *)
Definition hexnrm (ca : R) (p : Z4i) : V3 :=
  let '(h, k, i, l) := p in
  addv (lin3 (2/3 * IZR h) (2/3 * IZR k) (2/3 * IZR i) ha1 ha2 ha3) (mkV 0 0 (IZR l / ca)).
Definition zdot4 (p q : Z4i) : Z :=
  (let '(a, b, c, d) := p in let '(e, f, g, h) := q in a * e + b * f + c * g + d * h)%Z.
Definition zneg4 (p : Z4i) : Z4i := (let '(a, b, c, d) := p in (- a, - b, - c, - d))%Z.
(** Weiss zone law: the direction lies in the plane iff hu + kv + it + lw = 0 *)
Lemma zone_law ca p d : ca <> 0 -> hexOK p -> hexOK d ->
  dotv (hexnrm ca p) (hexdir ca d) = IZR (zdot4 p d).
Proof.
  destruct p as [[[h k] i] l], d as [[[u v] t] w]. unfold hexOK. intros Hc Hp Hd.
  assert (i = - h - k)%Z by lia. assert (t = - u - v)%Z by lia. subst i t.
  unfold dotv, hexnrm, hexdir, addv, lin3, ha1, ha2, ha3, zdot4. cbn [v0 v1 v2].
  rewrite !plus_IZR, !mult_IZR, !minus_IZR, !opp_IZR.
  assert (E : sqrt 3 * sqrt 3 = 3) by (apply sqrt_sqrt; lra).
  set (b := sqrt 3) in *. clearbody b. field_simplify_eq; [|exact Hc]. ring [E].
Qed.

(** ** Families *)
Definition sq3 (p : Z3i) : Z := zdot p p.
(** an integer vector of squared length 3, 2, 6, 14 is a permutation, up to signs, of
    (1,1,1), (1,1,0), (1,1,2), (1,2,3) *)
Definition fam (k : Z) (p : Z3i) : Prop := sq3 p = k.

(** The systems, numbered. {111}<110>, {110}<111>, {112}<111>, {123}<111>. *)
Local Open Scope Z_scope.
Definition sys_fcc : list (Z3i * Z3i) :=
  [ ((1,1,1), (0,1,-1)); ((1,1,1), (-1,0,1)); ((1,1,1), (1,-1,0));
    ((-1,1,1), (-1,0,-1)); ((-1,1,1), (0,-1,1)); ((-1,1,1), (1,1,0));
    ((-1,-1,1), (0,-1,-1)); ((-1,-1,1), (1,0,1)); ((-1,-1,1), (-1,1,0));
    ((1,-1,1), (1,0,-1)); ((1,-1,1), (0,1,1)); ((1,-1,1), (-1,-1,0)) ].
Definition sys_bcc110 : list (Z3i * Z3i) := map (fun p => (snd p, fst p)) sys_fcc.
Definition sys_bcc112 : list (Z3i * Z3i) :=
  [ ((-2,1,1), (1,1,1)); ((1,-2,1), (1,1,1)); ((1,1,-2), (1,1,1));
    ((-1,-2,1), (-1,1,1)); ((2,1,1), (-1,1,1)); ((-1,1,-2), (-1,1,1));
    ((2,-1,1), (-1,-1,1)); ((-1,2,1), (-1,-1,1)); ((-1,-1,-2), (-1,-1,1));
    ((1,2,1), (1,-1,1)); ((-2,-1,1), (1,-1,1)); ((1,-1,-2), (1,-1,1)) ].
Definition sys_bcc123 : list (Z3i * Z3i) :=
  [ ((3,-1,-2), (1,1,1)); ((-2,3,-1), (1,1,1)); ((-1,-2,3), (1,1,1));
    ((1,3,-2), (-1,1,1)); ((-3,-2,-1), (-1,1,1)); ((2,-1,3), (-1,1,1));
    ((-3,1,-2), (-1,-1,1)); ((2,-3,-1), (-1,-1,1)); ((1,2,3), (-1,-1,1));
    ((-1,-3,-2), (1,-1,1)); ((3,2,-1), (1,-1,1)); ((-2,1,3), (1,-1,1));
    ((-1,3,2), (1,1,-1)); ((3,-2,1), (1,1,-1)); ((-2,-1,-3), (1,1,-1));
    ((-3,-1,2), (-1,1,-1)); ((2,3,1), (-1,1,-1)); ((1,-2,-3), (-1,1,-1));
    ((1,-3,2), (-1,-1,-1)); ((-3,2,1), (-1,-1,-1)); ((2,1,-3), (-1,-1,-1));
    ((3,1,2), (1,-1,-1)); ((-2,-3,1), (1,-1,-1)); ((-1,2,-3), (1,-1,-1)) ].
Definition sys_bcc (n : nat) : list (Z3i * Z3i) :=
  sys_bcc110 ++ (if Nat.leb 24 n then sys_bcc112 else []) ++ (if Nat.leb 48 n then sys_bcc123 else []).
(** basal {0001}<11-20>, prismatic {10-10}<11-20>, pyramidal {10-11}<11-20> and {10-11}<11-23> *)
Definition sys_hcp : list (Z4i * Z4i) :=
  [ ((0,0,0,1), (1,1,-2,0)); ((0,0,0,1), (1,-2,1,0)); ((0,0,0,1), (2,-1,-1,0));
    ((-1,1,0,0), (1,1,-2,0)); ((-1,0,1,0), (1,-2,1,0)); ((0,-1,1,0), (2,-1,-1,0));
    ((1,0,-1,1), (1,-2,1,0)); ((1,-1,0,-1), (1,1,-2,0)); ((1,0,-1,-1), (-1,2,-1,0));
    ((-1,1,0,-1), (-1,-1,2,0)); ((0,1,-1,-1), (-2,1,1,0)); ((0,-1,1,-1), (2,-1,-1,0));
    ((1,0,-1,1), (-1,-1,2,3)); ((1,-1,0,-1), (-1,2,-1,-3)); ((1,0,-1,-1), (-2,1,1,-3));
    ((0,1,-1,-1), (-1,-1,2,-3)); ((-1,1,0,-1), (1,-2,1,-3)); ((-1,0,1,-1), (2,-1,-1,-3));
    ((0,-1,1,-1), (1,1,-2,-3)); ((0,1,-1,1), (1,-2,1,3)); ((-1,1,0,1), (2,-1,-1,3));
    ((-1,0,1,1), (1,1,-2,3)); ((1,-1,0,1), (-2,1,1,3)); ((0,-1,1,1), (-1,2,-1,3)) ].
Definition d3 : Z3i * Z3i := ((0,0,0),(0,0,0)).
Definition d4 : Z4i * Z4i := ((0,0,0,0),(0,0,0,0)).
(** p and q denote the same plane or the same line *)
Definition pm (p q : Z3i) : Prop := p = q \/ p = zneg q.
Definition pm4 (p q : Z4i) : Prop := p = q \/ p = zneg4 q.
Definition hk2 (p : Z4i) : Z := let '(h, k, i, _) := p in h * h + k * k + i * i.
Definition idx4 (p : Z4i) : Z := let '(_, _, _, l) := p in l.
(** A hexagonal slip system of one of the four families *)
Definition hexfam (p d : Z4i) : Prop :=
  hexOK p /\ hexOK d /\ zdot4 p d = 0 /\ hk2 d = 6 /\
  ((hk2 p = 0 /\ Z.abs (idx4 p) = 1 /\ idx4 d = 0) \/
   (hk2 p = 2 /\ idx4 p = 0 /\ idx4 d = 0) \/
   (hk2 p = 2 /\ Z.abs (idx4 p) = 1 /\ idx4 d = 0) \/
   (hk2 p = 2 /\ Z.abs (idx4 p) = 1 /\ Z.abs (idx4 d) = 3)).
Local Close Scope Z_scope.

(** ** Stored Schmid data
    [P] is a 5 x n, [Q] a 3 x n row-major array; [m i], [s i] normal and direction of system i. *)
Definition schmid_data (P Q : list R) (n : nat) (m s : nat -> V3) : Prop :=
  length P = (5 * n)%nat /\ length Q = (3 * n)%nat /\
  forall i, (i < n)%nat ->
    (forall k, (k < 5)%nat -> nth (k * n + i) P 0 = inner (symp (outer (s i) (m i))) (basis k)) /\
    axial (mkV (nth i Q 0) (nth (n + i) Q 0) (nth (2 * n + i) Q 0)) = skwp (outer (s i) (m i)).
Definition legal_systems (n : nat) (m s : nat -> V3) : Prop :=
  (forall i, (i < n)%nat -> dotv (m i) (m i) = 1 /\ dotv (s i) (s i) = 1 /\ dotv (m i) (s i) = 0) /\
  (forall i j, (i < j < n)%nat ->
     outer (s i) (m i) <> outer (s j) (m j) /\ outer (s i) (m i) <> scal3 (-1) (outer (s j) (m j))).
