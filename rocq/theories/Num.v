(** Scalar operations used by the C++ code, as a class.

    Every numeric definition of the model is generic over [T] with [Num T], so
    the same text is reasoned about over R ([NumR.v]), run over binary64
    ([NumF.v]), and checked for definedness over [option R] ([NumO.v]). *)
From Coq Require Import List ZArith Bool.
Import ListNotations.

Class Num (T : Type) := {
  nundef : T;                     (* value of a cell outside an array; never used by a correct access *)
  nZ : Z -> T;                    (* integer literals *)
  nlit : Z -> Z -> T;             (* [nlit m e]: the decimal literal m * 10^e *)
  nadd : T -> T -> T;
  nsub : T -> T -> T;
  nmul : T -> T -> T;
  ndiv : T -> T -> T;
  nopp : T -> T;
  nabs : T -> T;                  (* fabs *)
  nsqrt : T -> T;
  nexp : T -> T;
  nlog : T -> T;
  nsin : T -> T;
  ncos : T -> T;
  npow : T -> T -> T;
  ncopysign : T -> T -> T;
  nmax : T -> T -> T;             (* fmax *)
  nmin : T -> T -> T;             (* fmin *)
  nltb : T -> T -> bool;          (* < ; false when an operand is NaN *)
  nleb : T -> T -> bool;          (* <= *)
  neqb : T -> T -> bool;          (* == *)
  (* irrational literals, ECMech_const.h:17-55,128-137 *)
  sqr2 : T; sqr3 : T; sqr3b2 : T; sqr2i : T; sqr3i : T;
  sqr6 : T; sqr6i : T; sqr2b3 : T; halfsqr3 : T; twosqr3 : T
}.

Declare Scope num_scope.
Delimit Scope num_scope with num.
Infix "+" := nadd : num_scope.
Infix "-" := nsub : num_scope.
Infix "*" := nmul : num_scope.
Infix "/" := ndiv : num_scope.
Notation "- x" := (nopp x) : num_scope.
Infix "<?" := nltb : num_scope.
Infix "<=?" := nleb : num_scope.
Infix "=?" := neqb : num_scope.

Section Consts.
  Context {T : Type} {N : Num T}.
  Local Open Scope num_scope.

  (* ECMech_const.h:115-126 *)
  Definition zero : T := nZ 0.
  Definition one : T := nZ 1.
  Definition two : T := nZ 2.
  Definition three : T := nZ 3.
  Definition six : T := nZ 6.
  Definition onehalf : T := nlit 5 (-1).
  Definition onethird : T := one / three.
  Definition oneninth : T := one / nZ 9.
  Definition oneqrtr : T := nlit 25 (-2).
  Definition thrhalf : T := nlit 15 (-1).
  Definition fourthirds : T := nZ 4 / three.
  Definition twothird : T := two / three.

  (* ECMech_const.h:139-153 *)
  Definition idp_tiny_sqrt : T := nlit 1 (-90).
  Definition idp_eps_sqrt : T := nlit 1 (-8).
  Definition gam_ratio_min : T := nlit 1 (-60).
  Definition ln_gam_ratio_min : T := nlit (-13816) (-2).
  Definition gam_ratio_ovffx : T := nlit 1 45.
  Definition gam_ratio_ovf : T := nlit 1 60.
  Definition epsdot_scl_nzeff : T := idp_eps_sqrt.
  Definition e_scale : T := nlit 5 (-4).
  Definition r_scale : T := nlit 1 (-2).
End Consts.

(* ECMech_const.h:78-113 *)
Definition nsvp := 7%nat.
Definition ndim := 3%nat.
Definition ne := 1%nat.
Definition nsvec := 6%nat.
Definition nsvec2 := 36%nat.
Definition nvr := 4%nat.
Definition nMiller := 4%nat.
Definition ntvec := 5%nat.
Definition nwvec := 3%nat.
Definition qdim := 4%nat.
Definition invdim := 4%nat.
Definition emapdim := 3%nat.
Definition iSvecS := 5%nat.   (* nsvec - 1 *)
Definition iSvecP := 6%nat.   (* nsvec *)
Definition i_sdd_bulk := 0%nat.
Definition i_sdd_gmod := 1%nat.
Definition nsdd := 2%nat.

Section Arr.
  Context {T : Type} {N : Num T}.

  (** [a[i]] *)
  Definition get (a : list T) (i : nat) : T := nth i a nundef.

  (** [for i in 0..n-1: v[i] = f i] on a fresh array *)
  Definition tab (n : nat) (f : nat -> T) : list T := map f (seq 0 n).

  (** row-major n-by-m matrix, [P[i*m+j] = f i j]; ECMECH_NM_INDX, ECMech_util.h:24-25 *)
  Definition tab2 (n m : nat) (f : nat -> nat -> T) : list T :=
    flat_map (fun i => map (f i) (seq 0 m)) (seq 0 n).

  (** ECMECH_NN_INDX(p,q,n) and ECMECH_NM_INDX(p,q,np,nq), ECMech_util.h:24-25 *)
  Definition get2 (nq : nat) (a : list T) (p q : nat) : T := get a (p * nq + q).

  (** RAJA::View with a 3-index row-major layout (n, nq, nr) *)
  Definition get3 (nq nr : nat) (a : list T) (p q r : nat) : T := get a ((p * nq + q) * nr + r).

  (** [s = 0; for i in 0..n-1: s += f i] *)
  Definition sum (n : nat) (f : nat -> T) : T :=
    fold_left (fun s i => nadd s (f i)) (seq 0 n) (nZ 0).

  (** [a[i] = v], no effect outside the array *)
  Fixpoint upd (a : list T) (i : nat) (v : T) : list T :=
    match a, i with
    | nil, _ => nil
    | _ :: r, O => v :: r
    | x :: r, S k => x :: upd r k v
    end.

  (** sub-array view [&a[i]], of length n *)
  Definition sub (a : list T) (i n : nat) : list T := firstn n (skipn i a).

  (** write the list [v] at position [i] *)
  Fixpoint updl (a : list T) (i : nat) (v : list T) : list T :=
    match v with
    | nil => a
    | x :: r => updl (upd a i x) (S i) r
    end.
End Arr.
