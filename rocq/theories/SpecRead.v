(** The entries of the deformation rate, the spin and the volumes that matter. *)
From Coq Require Import List ZArith Bool.
From Verif Require Import Num Hard Evptn MatModel SpecApi P_Batch3 P_Builtin SpecState.
Import ListNotations.
Local Open Scope nat_scope.

(** of the deformation rate the six components but not the seventh number (the trace part); the spin; of the four volume numbers all
    but the third (the rate of the volume) *)
Definition matters (a : arr) (k : nat) : Prop := match a with AD => k < 6 | AW => True | AV => k <> 2 | _ => False end.
Section V.
  Context {T : Type} {N : Num T}.
  Variable c : MClass T.
  (** the same step, as far as these entries go *)
  Definition same_step (v v' : Visit T) : Prop := v_dt v = v_dt v' /\ v_mtan v = v_mtan v' /\
    forall a k, matters a k -> k < per_point (c_nH c) (c_nslip c) (v_mtan v) a -> entry (v_s v) (v_m v) a (v_i v) k = entry (v_s v') (v_m v') a (v_i v') k.
  (** everything handed back *)
  Definition same_outputs (v v' : Visit T) : Prop := forall a k, ~ In a [AD; AW; AV] -> k < per_point (c_nH c) (c_nslip c) (v_mtan v) a ->
    entry (v_s v) (v_m1 v) a (v_i v) k = entry (v_s v') (v_m1 v') a (v_i v') k /\ entry (v_s v) (v_m1 v) a (v_i v) k <> None.
End V.
