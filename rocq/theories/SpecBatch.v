(** What a batch call is compared with: the same call on one point alone, the cells a call may write,
    and runs of the per-point tasks in any order. *)
From Coq Require Import List ZArith Bool Lia Reals.
From Verif Require Import Num NumR Hard Evptn MatModel SpecApi P_Batch P_Batch3 P_Builtin.
Import ListNotations.

(** The values of point [i], in buffers that hold nothing else. *)
Definition point {T} {N : Num T} (c : MClass T) (s : MM T) (mtan : bool) (m : Mem T) (i : nat) : Mem T :=
  fun a => map (fun k => nth (stride_of (mm_strides s) a * i + k) (m a) nundef) (seq 0 (per_point (c_nH c) (c_nslip c) mtan a)).

(** The call with that point alone. *)
Definition alone {T} {N : Num T} (solver : Solver T) (lu : LUSolver T) (c : MClass T) (s : MM T) (dt : T) (mtan : bool)
    (m : Mem T) (i : nat) : bout * Mem T :=
  mm_getResponse solver lu c s dt mtan 1 (point c s mtan m i).

(** Cell [j] of buffer [a] is an entry of one of the [n] points in a buffer the call may write. *)
Definition output_cell {T} (c : MClass T) (s : MM T) (mtan : bool) (n : nat) (a : arr) (j : nat) : Prop :=
  In a [AE; AS; AH; AT; AB; AM] /\ exists i k, (i < n)%nat /\ (k < per_point (c_nH c) (c_nslip c) mtan a)%nat /\
    j = (stride_of (mm_strides s) a * i + k)%nat.

(** All tasks have ended. *)
Definition ended {T} (ps : list (prog T)) : Prop := forall p, In p ps -> exists o, p = Ret o.

(** A program that loads from the input arrays and from [own], and stores to [own], in any order. *)
Definition confined {T} (own : arr -> nat -> Prop) (p : prog T) : Prop := conf own p.
