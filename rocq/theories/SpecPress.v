(** What the pressure and the bulk modulus of a cubic model may depend on. *)
From Coq Require Import List ZArith Bool.
From Verif Require Import Num Hard Evptn MatModel Cases SpecApi P_Batch3 P_Builtin SpecState SpecThermo SpecTemp.
Import ListNotations.
Local Open Scope nat_scope.

Section V.
  Context {T : Type} {N : Num T}.
  (** the six cubic models *)
  Definition cubic_model (hs : Solver T) (c : MClass T) : Prop := voce_model hs c \/ mts_cubic hs c.
  (** parameters of two models (of different lengths, perhaps) with the same elastic constants c11 and c12 (entries 3 and 4) and the same
      Grueneisen constant (last but one entry) *)
  Definition same_bulk (c : MClass T) (pars : list T) (c' : MClass T) (pars' : list T) : Prop :=
    nth_error pars 3 = nth_error pars' 3 /\ nth_error pars 4 = nth_error pars' 4 /\ nth_error pars (mm_nParams c - 2) = nth_error pars' (mm_nParams c' - 2).
  (** the same new volume and volume increment *)
  Definition same_volumes (v v' : Visit T) : Prop := forall k, In k [1; 3] -> entry (v_s v) (v_m v) AV (v_i v) k = entry (v_s v') (v_m v') AV (v_i v') k.
  (** the same number after the call, and there is one *)
  Definition same_after (v v' : Visit T) (a : arr) (k : nat) : Prop :=
    entry (v_s v) (v_m1 v) a (v_i v) k = entry (v_s v') (v_m1 v') a (v_i v') k /\ entry (v_s v) (v_m1 v) a (v_i v) k <> None.
End V.
