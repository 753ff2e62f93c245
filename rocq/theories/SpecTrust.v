(** Trust region solvers with dogleg steps, the kind of solver the library is linked with (ECMech_cases.h:16-40 and
    ECMech_evptn.h:1097 name it, snls::SNLSTrDlDenseG; its source is not in the repository).  Left open: how the trust region
    grows and shrinks, when a trial point is rejected, where on the dogleg path the step ends, when the run is given up. *)
From Coq Require Import List ZArith Reals.
From Verif Require Import Hard SpecTensor SpecSym.
Import ListNotations.
Local Open Scope R_scope.

(** product of the transposed matrix with a vector, and inner product *)
Definition mvT (n : nat) (A v : list R) : list R :=
  map (fun j => fold_right Rplus 0 (map (fun i => nth (i * n + j) A 0 * nth i v 0) (seq 0 n))) (seq 0 n).
Definition ip (n : nat) (u v : list R) : R := fold_right Rplus 0 (map (fun j => nth j u 0 * nth j v 0) (seq 0 n)).

(** the numbers a decision may depend on: squared lengths of residual, gradient J^T r and J J^T r; when the linear system
    J d = -r has exactly one solution, the squared length of this step and its inner product with the gradient *)
Record Measured := { ms_r : R; ms_g : R; ms_Jg : R; ms_nr : option (R * R) }.
Definition measured (n : nat) (r J g : list R) (nr : option (list R)) : Measured :=
  {| ms_r := norm2 r; ms_g := norm2 g; ms_Jg := norm2 (mv n J g); ms_nr := option_map (fun d => (norm2 d, ip n d g)) nr |}.

Section Trust.
  Variable A : Type.                                       (* what the solver remembers, such as the trust region size *)
  Variable small : nat -> R -> R -> bool.                  (* size, tolerance, squared length of the residual *)
  Variable choose : A -> Measured -> option (R * R).       (* parts of the Newton step and of the gradient in the step *)
  Variable judge : A -> Measured -> R -> bool * option A.  (* is the trial point kept, and what is remembered next *)
  Variable ls : nat -> list R -> list R -> option (list R).

  Fixpoint trust_go (n : nat) (f : list R -> list R * list R) (tol : R) (k : nat) (nf : nat) (x xl : list R) (a : A) : SolveOut R :=
    let out ok y := {| so_converged := ok; so_x := y; so_xlast := xl; so_nfev := nf; so_nfev_rj := nf |} in
    match k with
    | O => out false x
    | S k' =>
      let r := fst (f x) in let J := snd (f x) in let g := mvT n J r in
      let nr := ls n J (lin (-1) 0 r r) in let ms := measured n r J g nr in
      match choose a ms with
      | None => out false x
      | Some (p, q) =>
        let d := match nr with Some s => lin p q s g | None => lin q 0 g g end in
        let x' := lin 1 1 x d in let r' := fst (f x') in
        if small n tol (norm2 r') then {| so_converged := true; so_x := x'; so_xlast := x'; so_nfev := S nf; so_nfev_rj := S nf |} else
        match judge a ms (norm2 r') with
        | (_, None) => {| so_converged := false; so_x := x'; so_xlast := x'; so_nfev := S nf; so_nfev_rj := S nf |}
        | (true, Some a') => trust_go n f tol k' (S nf) x' x' a'
        | (false, Some a') => trust_go n f tol k' (S nf) x x' a'
        end
      end
    end.
  Definition trust (a0 : A) : Solver R := fun n f tol it x0 =>
    if small n tol (norm2 (fst (f x0))) then {| so_converged := true; so_x := x0; so_xlast := x0; so_nfev := 1; so_nfev_rj := 1 |}
    else trust_go n f tol it 1 x0 x0 a0.
End Trust.

(** Powell's dogleg: the Newton step if it fits into the trust region; else the steepest descent step cut at its border, or the
    point where the path from the best steepest descent step to the Newton step leaves it.  The region is halved when the residual did not get
    smaller, and doubled otherwise. *)
Definition powell_choose (delta : R) (m : Measured) : option (R * R) :=
  let t := ms_g m / ms_Jg m in
  match ms_nr m with
  | None => None
  | Some (n2, ng) =>
    if Rle_dec n2 (delta * delta) then Some (1, 0)
    else if Rle_dec (delta * delta) (t * t * ms_g m) then Some (0, - (delta / sqrt (ms_g m)))
    else let aa := n2 + 2 * t * ng + t * t * ms_g m in        (* |s + t g|^2 *)
         let bb := - t * ng - t * t * ms_g m in               (* (- t g).(s + t g) *)
         let cc := t * t * ms_g m - delta * delta in
         let be := (- bb + sqrt (bb * bb - aa * cc)) / aa in
         Some (be, - t * (1 - be))
  end.
Definition powell_judge (delta : R) (m : Measured) (r2 : R) : bool * option R :=
  if Rle_dec (ms_r m) r2 then (false, Some (delta / 2)) else (true, Some (2 * delta)).
Definition small_norm (n : nat) (tol r2 : R) : bool := if Rle_dec r2 (tol * tol) then true else false.
Definition powell (ls : nat -> list R -> list R -> option (list R)) (delta : R) : Solver R := trust R small_norm powell_choose powell_judge ls delta.
