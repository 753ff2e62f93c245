(** What a caller sees of the library built with USE_DPEFF, compared with the default build. *)
From Coq Require Import List ZArith Bool Reals.
From Verif Require Import Num NumR Hard Evptn MatModel EvptnDp Cases SpecTensor SpecSlip SpecApi SpecStep P_Batch3 P_Api P_Builtin.
Import ListNotations.
Local Open Scope R_scope.

(** cell [j] of the history buffer is one of the first two entries of one of [n] points *)
Definition first_two {T} (s : MM T) (n j : nat) : Prop :=
  exists i k, (i < n)%nat /\ (k < 2)%nat /\ j = (stride_of (mm_strides s) AH * i + k)%nat.
(** the same buffers except for those cells *)
Definition same_but {T} (s : MM T) (n : nat) (m m' : Mem T) : Prop :=
  (forall a, List.length (m a) = List.length (m' a)) /\
  forall a j, ~ (a = AH /\ first_two s n j) -> nth_error (m a) j = nth_error (m' a) j.

(** A program that uses the library: before each call it stores values into buffers. *)
Record Use (T : Type) := { u_stores : list (arr * nat * T); u_solver : Solver T; u_lu : LUSolver T; u_dt : T; u_mtan : bool }.
Arguments u_stores {T}. Arguments u_solver {T}. Arguments u_lu {T}. Arguments u_dt {T}. Arguments u_mtan {T}.
Definition store {T} (m : Mem T) (w : arr * nat * T) : Mem T :=
  let '(a, j, v) := w in mset m a (upd (m a) j v).
(** outcomes of its calls and the memory at the end; it goes on after a failed call *)
Fixpoint program {T} (call : Use T -> Mem T -> bout * Mem T) (l : list (Use T)) (m : Mem T) : list bout * Mem T :=
  match l with
  | [] => ([], m)
  | u :: r => let x := call u (fold_left store (u_stores u) m) in
              let y := program call r (snd x) in (fst x :: fst y, snd y)
  end.

(** a successful call of this build *)
Definition good_dp {N : Num R} (hs : Solver R) (c : MClass R) (b : BCall) : Prop :=
  builtin hs c /\ reachable c (b_s b) /\ batch_ok c (b_s b) (b_mtan b) (b_n b) (b_m b) /\
  mm_getResponse_dp (b_solver b) (b_lu b) c (b_s b) (b_dt b) (b_mtan b) (Z.of_nat (b_n b)) (b_m b) = (BRet Done, b_m1 b).
Fixpoint chain_dp {N : Num R} (hs : Solver R) (c : MClass R) (bufs : list arr) (l : list BCall) : Prop :=
  match l with
  | [] => True
  | b :: r => good_dp hs c b /\ match r with [] => True | b' :: _ => follows bufs b b' end /\ chain_dp hs c bufs r
  end.

(** the plastic deformation rate that belongs to the stored slip rates of point [i] *)
Definition plastic_rate (c : MClass R) (md sd : nat -> V3) (s : MM R) (m : Mem R) (i : nat) : M3 :=
  slip_sum (c_nslip c) (fun k => val s m AH i (14 + k)) (fun k => symp (outer (sd k) (md k))).
