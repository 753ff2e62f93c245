(** A material point on its way through a sequence of calls: it may sit in another batch, at another position, in another
    layout, on another object each time. *)
From Coq Require Import List ZArith Bool.
From Verif Require Import Num Hard Evptn MatModel SpecApi P_Batch3 P_Builtin.
Import ListNotations.
Local Open Scope nat_scope.

(** a call and the position of the point in it: object, time step, tangent requested, number of points, position, memory before and after *)
Record Visit (T : Type) := { v_s : MM T; v_dt : T; v_mtan : bool; v_n : nat; v_i : nat; v_m : Mem T; v_m1 : Mem T }.
Arguments v_s {T}. Arguments v_dt {T}. Arguments v_mtan {T}. Arguments v_n {T}. Arguments v_i {T}. Arguments v_m {T}. Arguments v_m1 {T}.

Section V.
  Context {T : Type} {N : Num T}.
  Variables (c : MClass T) (pars : list T) (solver : Solver T) (lu : LUSolver T).
  (** entry [k] of point [i] in buffer [a]; None: outside the buffer *)
  Definition entry (s : MM T) (m : Mem T) (a : arr) (i k : nat) : option T := nth_error (m a) (stride_of (mm_strides s) a * i + k).
  (** the call was made with the parameters [pars], with large enough buffers, and returned normally *)
  Definition visit (v : Visit T) : Prop := in_use c (v_s v) pars /\ batch_ok c (v_s v) (v_mtan v) (v_n v) (v_m v) /\ v_i v < v_n v /\
    mm_getResponse solver lu c (v_s v) (v_dt v) (v_mtan v) (Z.of_nat (v_n v)) (v_m v) = (BRet Done, v_m1 v).
  (** the step imposed on the point: time step, deformation rate, spin, volumes; and whether the tangent is wanted *)
  Definition same_drive (v v' : Visit T) : Prop := v_dt v = v_dt v' /\ v_mtan v = v_mtan v' /\
    forall a k, In a [AD; AW; AV] -> k < per_point (c_nH c) (c_nslip c) (v_mtan v) a -> entry (v_s v) (v_m v) a (v_i v) k = entry (v_s v') (v_m v') a (v_i v') k.
  (** the state of a point: energy, stress, and the history except the entries 0 (shear rate), 2 (flow strength) and 3 (counter) *)
  Definition same_state (s : MM T) (m : Mem T) (i : nat) (s' : MM T) (m' : Mem T) (i' : nat) : Prop :=
    forall a k, In a [AE; AS; AH] -> k < per_point (c_nH c) (c_nslip c) false a -> (a = AH -> ~ In k [0; 2; 3]) -> entry s m a i k = entry s' m' a i' k.
  (** the state is handed on from call to call, and nothing else *)
  Fixpoint journey (l : list (Visit T)) : Prop :=
    match l with
    | [] => True
    | v :: r => visit v /\ match r with [] => True | v' :: _ => same_state (v_s v) (v_m1 v) (v_i v) (v_s v') (v_m v') (v_i v') end /\ journey r
    end.
  (** all results of the point are the same: energy, stress, history, temperature, moduli, tangent *)
  Definition same_result (v v' : Visit T) : Prop := forall a k, k < per_point (c_nH c) (c_nslip c) (v_mtan v) a ->
    entry (v_s v) (v_m1 v) a (v_i v) k = entry (v_s v') (v_m1 v') a (v_i v') k /\ entry (v_s v) (v_m1 v) a (v_i v) k <> None.
  Definition same_start (l l' : list (Visit T)) : Prop :=
    match l, l' with
    | v :: _, v' :: _ => same_state (v_s v) (v_m v) (v_i v) (v_s v') (v_m v') (v_i v')
    | _, _ => True
    end.
End V.
