(** Crystallographically equivalent orientations, and how a nonlinear solver should treat equations that differ by a change
    of coordinates; without the model. *)
From Coq Require Import List ZArith Bool Reals.
From Verif Require Import Num NumR Hard MatModel Cases SpecTensor SpecElast SpecSlip SpecApi SpecStress SpecKinApi SpecStep SpecJac.
Import ListNotations.
Local Open Scope R_scope.

(** ** Rotations of the cube: rotations with integer entries *)
Definition whole (x : R) : Prop := exists z : Z, x = IZR z.
Definition cubic_rot (S : M3) : Prop := is_rot S /\
  whole (a00 S) /\ whole (a01 S) /\ whole (a02 S) /\ whole (a10 S) /\ whole (a11 S) /\ whole (a12 S) /\ whole (a20 S) /\ whole (a21 S) /\ whole (a22 S).

(** ** Rotations of the hexagonal lattice: rotations that take the basal lattice vectors a1 and a2 to integer combinations of
    a1 and a2 *)
Definition basal (v : V3) : Prop := exists p q : Z, v = lin3 (IZR p) (IZR q) 0 ha1 ha2 ha3.
Definition hex_rot (S : M3) : Prop := is_rot S /\ basal (mulv S ha1) /\ basal (mulv S ha2).

(** ** Slip systems: the rotation takes system [k] to system [sg k], with slip in the opposite direction when [ep k] is -1.
    The two orientations C and CS describe the same crystal: system [k] of the first is system [sg k] of the second. *)
Definition renumbers (n : nat) (sg : nat -> nat) : Prop :=
  (forall k, (k < n)%nat -> (sg k < n)%nat) /\ (forall j k, (j < n)%nat -> (k < n)%nat -> sg j = sg k -> j = k).
Definition matches (n : nat) (S : M3) (sg : nat -> nat) (ep : nat -> R) (md sd : nat -> V3) : Prop :=
  renumbers n sg /\
  forall k, (k < n)%nat -> (ep k = 1 \/ ep k = -1) /\
    outer (sd (sg k)) (md (sg k)) = scal3 (ep k) (cong (tr3 S) (outer (sd k) (md k))).

(** the four families of slip systems of the hexagonal model; systems of a family have the same constants: activation energy,
    lattice resistance and dislocation interaction *)
Definition hex_family (k : nat) : nat := if Nat.ltb k 3 then 0 else if Nat.ltb k 6 then 1 else if Nat.ltb k 12 then 2 else 3.
Definition families_alike (c : MClass R) (pars : list R) : Prop := forall j k, (j < 24)%nat -> (k < 24)%nat -> hex_family j = hex_family k ->
  kin_par c pars (2 + j) = kin_par c pars (2 + k) /\ kin_par c pars (32 + j) = kin_par c pars (32 + k) /\ kin_par c pars (56 + j) = kin_par c pars (56 + k).
(** rotation [S] of the lattice of material model [c], renumbering its slip systems by [sg] *)
Definition lattice_rot (hs : Solver R) (c : MClass R) (pars : list R) (S : M3) (sg : nat -> nat) : Prop :=
  c <> cls_HCP_A hs /\ cubic_rot S \/
  c = cls_HCP_A hs /\ hex_rot S /\ families_alike c pars /\ forall k, (k < 24)%nat -> hex_family (sg k) = hex_family k.

(** ** The eight unknowns of a step seen from the other orientation *)
Definition sym_map (S : M3) (x : list R) : list R :=
  vec5 (cong (tr3 S) (ten5 x)) ++ ofV3 (mulv (tr3 S) (mkV (nth 5 x 0) (nth 6 x 0) (nth 7 x 0))).
(** the code turns about the first axis when the rotation increment is not zero but at most 1e-90; no solver step of
    interest is that small *)
Definition off_tiny (x : list R) : Prop := norm3 (trial_rot x) = 0 \/ / 10 ^ 90 < norm3 (trial_rot x).

(** ** Solvers that do not care about the choice of orthonormal coordinates *)
(** matrix (row by row) times vector *)
Definition mv (n : nat) (A v : list R) : list R :=
  map (fun i => fold_right Rplus 0 (map (fun j => nth (i * n + j) A 0 * nth j v 0) (seq 0 n))) (seq 0 n).
(** [T] is a linear map of R^n that keeps lengths, and [Ti] its inverse *)
Definition isometry (n : nat) (T Ti : list R -> list R) : Prop :=
  (forall x, List.length x = n -> List.length (T x) = n /\ List.length (Ti x) = n /\ T (Ti x) = x /\ Ti (T x) = x /\ norm2 (T x) = norm2 x) /\
  (forall c d x y, List.length x = n -> List.length y = n -> T (lin c d x y) = lin c d (T x) (T y)).
(** the system [f'] is the system [f] in the coordinates [T x], for values and Jacobian *)
Definition related_at (n : nat) (T : list R -> list R) (f f' : list R -> list R * list R) (x : list R) : Prop :=
  fst (f' (T x)) = T (fst (f x)) /\
  forall v, List.length v = n -> mv n (snd (f' (T x))) (T v) = T (mv n (snd (f x)) v).
Definition sized (n : nat) (f : list R -> list R * list R) : Prop :=
  forall x, List.length x = n -> List.length (fst (f x)) = n /\ List.length (snd (f x)) = (n * n)%nat.
(** A solver that, given the same system in other orthonormal coordinates, takes the same steps.  Newton's method and
    steepest descent with Euclidean trust regions and Euclidean residual norms have this property in exact arithmetic. *)
Definition coordinate_free (sv : Solver R) : Prop :=
  forall n T Ti f f' tol it x0, isometry n T Ti -> sized n f -> sized n f' -> List.length x0 = n ->
  (forall x, List.length x = n -> related_at n T f f' x) ->
  let r := sv n f tol it x0 in let r' := sv n f' tol it (T x0) in
  List.length (so_x r) = n /\ List.length (so_xlast r) = n /\
  so_converged r' = so_converged r /\ so_x r' = T (so_x r) /\ so_xlast r' = T (so_xlast r) /\
  so_nfev r' = so_nfev r /\ so_nfev_rj r' = so_nfev_rj r.
(** the run does not look at the system outside the set [X] *)
Definition stays_in (sv : Solver R) (n : nat) (f : list R -> list R * list R) (X : list R -> Prop) (tol : R) (it : nat) (x0 : list R) : Prop :=
  forall g, sized n g -> (forall x, List.length x = n -> X x -> g x = f x) -> sv n g tol it x0 = sv n f tol it x0.

(** ** Two calls that describe the same crystal by equivalent orientations C and CS: same sample quantities; elastic strain
    and slip rates, which refer to the lattice, are turned and renumbered *)
Definition equivalent_in (c : MClass R) (S : M3) (sg : nat -> nat) (ep : nat -> R) (b : BCall) (i : nat) (b' : BCall) (i' : nat) : Prop :=
  let s := b_s b in let m := b_m b in let s' := b_s b' in let m' := b_m b' in
  devRate s' m' i' = devRate s m i /\ spin s' m' i' = spin s m i /\ devStress s' m' i' = devStress s m i /\
  (exists C, rotates (unit4 (quat s m i)) C /\ rotates (unit4 (quat s' m' i')) (mul3 C S)) /\
  (forall k, (k < 4)%nat -> val s' m' AV i' k = val s m AV i k) /\ eInt s' m' i' = eInt s m i /\ pres s' m' i' = pres s m i /\
  (forall k, (k < 4)%nat \/ k = 13%nat -> val s' m' AH i' k = val s m AH i k) /\
  dev_strain s' m' i' = cong (tr3 S) (dev_strain s m i) /\
  (forall k, (k < c_nslip c)%nat -> val s' m' AH i' (14 + sg k) = ep k * val s m AH i (14 + k)).
Definition equivalent_out (c : MClass R) (S : M3) (sg : nat -> nat) (ep : nat -> R) (b : BCall) (i : nat) (b' : BCall) (i' : nat) : Prop :=
  let s := b_s b in let m1 := b_m1 b in let s' := b_s b' in let m1' := b_m1 b' in
  devStress s' m1' i' = devStress s m1 i /\
  (exists C, rotates (quat s m1 i) C /\ rotates (quat s' m1' i') (mul3 C S)) /\
  eInt s' m1' i' = eInt s m1 i /\ pres s' m1' i' = pres s m1 i /\
  (forall k, (k < 4)%nat \/ k = 13%nat -> val s' m1' AH i' k = val s m1 AH i k) /\
  dev_strain s' m1' i' = cong (tr3 S) (dev_strain s m1 i) /\
  (forall k, (k < c_nslip c)%nat -> val s' m1' AH i' (14 + sg k) = ep k * val s m1 AH i (14 + k)) /\
  val s' m1' AT i' 0 = val s m1 AT i 0 /\
  val s' m1' AB i' 0 = val s m1 AB i 0 /\ val s' m1' AB i' 1 = val s m1 AB i 1.

(** the answers of two solver runs are the same point seen from the two orientations *)
Definition answers_correspond (S : M3) (r r' : SolveOut R) : Prop :=
  List.length (so_x r) = 8%nat /\ List.length (so_xlast r) = 8%nat /\ so_x r' = sym_map S (so_x r) /\ so_xlast r' = sym_map S (so_xlast r) /\
  so_nfev r' = so_nfev r /\ so_nfev_rj r' = so_nfev_rj r /\ off_tiny (so_x r).
(** the two calls agree in time step and in asking for the tangent; the solvers may differ *)
Definition same_step (b b' : BCall) : Prop := b_dt b' = b_dt b /\ b_mtan b' = b_mtan b.

(** ** Solvers with this property *)
Definition rms_within (n : nat) (tol : R) (r : list R) : bool :=
  if Rle_dec (norm2 (map (fun j => nth j r 0) (seq 0 n))) (INR n * (tol * tol)) then true else false.
(** at most [k] steps [step n r J] from [x], until the root mean square of the residual is at most [tol] *)
Fixpoint walk (step : nat -> list R -> list R -> option (list R)) (n : nat) (f : list R -> list R * list R) (tol : R) (k : nat) (nf : nat) (x : list R) : SolveOut R :=
  let out ok := {| so_converged := ok; so_x := x; so_xlast := x; so_nfev := nf; so_nfev_rj := nf |} in
  if rms_within n tol (fst (f x)) then out true else
  match k with
  | O => out false
  | S k' => match step n (fst (f x)) (snd (f x)) with
            | None => out false
            | Some d => walk step n f tol k' (S nf) (lin 1 1 x d)
            end
  end.
(** [ls n J r] is the solution of [J d = r] when there is exactly one *)
Definition exact_solve (ls : nat -> list R -> list R -> option (list R)) : Prop := forall n J r d, List.length r = n ->
  (ls n J r = Some d <-> List.length d = n /\ mv n J d = r /\ forall d', List.length d' = n -> mv n J d' = r -> d' = d).
Definition newton_step (ls : nat -> list R -> list R -> option (list R)) : nat -> list R -> list R -> option (list R) :=
  fun n r J => ls n J (lin (-1) 0 r r).
Definition newton (ls : nat -> list R -> list R -> option (list R)) : Solver R :=
  fun n f tol it x0 => walk (newton_step ls) n f tol it 1 x0.
(** damped fixed-point iteration *)
Definition damped (w : R) : Solver R := fun n f tol it x0 => walk (fun _ r _ => Some (lin (- w) 0 r r)) n f tol it 1 x0.
(** accepts or rejects the starting point *)
Definition at_start : Solver R := fun n f tol _ x0 => walk (fun _ _ _ => None) n f tol 0 1 x0.
