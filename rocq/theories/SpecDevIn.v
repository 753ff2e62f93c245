(** Calculations that agree in everything but the deviatoric stress handed in. *)
From Coq Require Import List ZArith Bool.
From Verif Require Import Num Hard Evptn MatModel Cases SpecApi P_Batch3 P_Builtin SpecState.
Import ListNotations.
Local Open Scope nat_scope.

Section V.
  Context {T : Type} {N : Num T}.
  (** everything handed back, except the energy *)
  Definition same_but_energy (c : MClass T) (v v' : Visit T) : Prop := forall a k, a <> AE -> k < per_point (c_nH c) (c_nslip c) (v_mtan v) a ->
    entry (v_s v) (v_m1 v) a (v_i v) k = entry (v_s v') (v_m1 v') a (v_i v') k /\ entry (v_s v) (v_m1 v) a (v_i v) k <> None.
End V.
