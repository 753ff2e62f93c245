(** Calculations that agree in the energies handed to the library before every step. *)
From Coq Require Import List ZArith Bool.
From Verif Require Import Num Hard Evptn MatModel Cases SpecApi P_Batch3 P_Builtin SpecState.
Import ListNotations.
Local Open Scope nat_scope.

Section V.
  Context {T : Type} {N : Num T}.
  (** the cubic models whose slip law has a thermal activation *)
  Definition mts_cubic (hs : Solver T) (c : MClass T) : Prop := c = cls_FCC_B hs \/ c = cls_BCC_A hs.
  (** and the hexagonal one *)
  Definition mts_model (hs : Solver T) (c : MClass T) : Prop := mts_cubic hs c \/ c = cls_HCP_A hs.
  (** parameter vectors that differ at most in the density (entry 0) and in the last but one entry, the Grueneisen constant *)
  Definition same_but_pressure (c : MClass T) (pars pars' : list T) : Prop := forall k, k < mm_nParams c -> k <> 0 -> k + 2 <> mm_nParams c -> nth_error pars k = nth_error pars' k.
  (** the same internal energy before the call *)
  Definition same_energy (v v' : Visit T) : Prop := entry (v_s v) (v_m v) AE (v_i v) 0 = entry (v_s v') (v_m v') AE (v_i v') 0.
  (** the same pressure before the call *)
  Definition same_pressure (v v' : Visit T) : Prop := entry (v_s v) (v_m v) AS (v_i v) 6 = entry (v_s v') (v_m v') AS (v_i v') 6.
End V.
