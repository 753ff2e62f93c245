(** The mechanical part of a material point and of a parameter vector. *)
From Coq Require Import List ZArith Bool.
From Verif Require Import Num Hard Evptn MatModel Cases SpecApi P_Batch3 P_Builtin SpecState.
Import ListNotations.
Local Open Scope nat_scope.

Section V.
  Context {T : Type} {N : Num T}.
  (** the models with the Voce slip law *)
  Definition voce_model (hs : Solver T) (c : MClass T) : Prop := c = cls_FCC_A hs \/ c = cls_FCC_AH hs \/ c = cls_BCC_B hs \/ c = cls_BCC_BH hs.
  (** parameter vectors that differ at most in the density (entry 0), the heat capacity (entry 1), and the last two entries, the
      other constants of the equation of state *)
  Definition same_mechanics (c : MClass T) (pars pars' : list T) : Prop := forall k, 2 <= k -> k + 2 < mm_nParams c -> nth_error pars k = nth_error pars' k.
  (** the same history, without the entries 0 (shear rate), 2 (flow strength) and 3 (counter) *)
  Definition same_history (c : MClass T) (s : MM T) (m : Mem T) (i : nat) (s' : MM T) (m' : Mem T) (i' : nat) : Prop :=
    forall k, k < mm_numHist c -> ~ In k [0; 2; 3] -> entry s m AH i k = entry s' m' AH i' k.
  (** the same deviatoric stress (the first six of the seven numbers), history (all of it), and shear modulus (the second modulus) *)
  Definition same_mech_result (c : MClass T) (v v' : Visit T) : Prop :=
    let eq a k := entry (v_s v) (v_m1 v) a (v_i v) k = entry (v_s v') (v_m1 v') a (v_i v') k /\ entry (v_s v) (v_m1 v) a (v_i v) k <> None in
    (forall k, k < 6 -> eq AS k) /\ (forall k, k < mm_numHist c -> eq AH k) /\ eq AB 1.
  (** the history is handed on from call to call; energy, stress, temperature and moduli are whatever the caller puts there *)
  Fixpoint hjourney (c : MClass T) (pars : list T) (solver : Solver T) (lu : LUSolver T) (l : list (Visit T)) : Prop :=
    match l with
    | [] => True
    | v :: r => visit c pars solver lu v /\ match r with [] => True | v' :: _ => same_history c (v_s v) (v_m1 v) (v_i v) (v_s v') (v_m v') (v_i v') end /\ hjourney c pars solver lu r
    end.
  Definition same_hstart (c : MClass T) (l l' : list (Visit T)) : Prop :=
    match l, l' with
    | v :: _, v' :: _ => same_history c (v_s v) (v_m v) (v_i v) (v_s v') (v_m v') (v_i v')
    | _, _ => True
    end.
End V.
