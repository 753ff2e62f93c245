(** C42 for whole calls: valid parameters, valid points, the same call on defined numbers. *)
From Coq Require Import List ZArith Bool Reals String.
From Verif Require Import Num NumR NumO Hard KinVoce KinKMBalD Elast Evptn MatModel Cases SpecTensor SpecApi SpecDef.
Import ListNotations.
Local Open Scope R_scope.

(** buffers of defined numbers *)
Definition liftM (m : Mem R) : Mem (option R) := fun a => L (m a).
Definition liftB (r : bout * Mem R) : bout * Mem (option R) := (fst r, liftM (snd r)).

(** the parameters of the slip kinetics *)
Definition kin_pars (c : MClass R) (pars : list R) : list R := sub pars (3 + c_sgNP c + c_elNP c) (c_kinNP c).

(** [co] and [cr] are the same built-in model, over [option R] and over R, and [pars] are valid parameters for it: nonzero heat
    capacity, valid kinetics, and for hexagonal crystals a positive ratio of the lattice constants *)
Section V.
Variable u : bool.
Local Hint Extern 0 (Num (option R)) => exact (ONum u) : typeclass_instances.
Inductive valid_class (hso : Solver (option R)) (hsr : Solver R) (pars : list R) : MClass (option R) -> MClass R -> Prop :=
| v_FCC_A : p_cv pars <> 0 -> voce_valid false (kin_pars (cls_FCC_A hsr) pars) -> valid_class hso hsr pars (cls_FCC_A hso) (cls_FCC_A hsr)
| v_FCC_AH : p_cv pars <> 0 -> voce_valid true (kin_pars (cls_FCC_AH hsr) pars) -> valid_class hso hsr pars (cls_FCC_AH hso) (cls_FCC_AH hsr)
| v_FCC_B : p_cv pars <> 0 -> km_valid false 1 (kin_pars (cls_FCC_B hsr) pars) -> valid_class hso hsr pars (cls_FCC_B hso) (cls_FCC_B hsr)
| v_BCC_A : p_cv pars <> 0 -> km_valid true 1 (kin_pars (cls_BCC_A hsr) pars) -> valid_class hso hsr pars (cls_BCC_A hso) (cls_BCC_A hsr)
| v_BCC_B : p_cv pars <> 0 -> voce_valid false (kin_pars (cls_BCC_B hsr) pars) -> valid_class hso hsr pars (cls_BCC_B hso) (cls_BCC_B hsr)
| v_BCC_BH : p_cv pars <> 0 -> voce_valid true (kin_pars (cls_BCC_BH hsr) pars) -> valid_class hso hsr pars (cls_BCC_BH hso) (cls_BCC_BH hsr)
| v_HCP_A : p_cv pars <> 0 -> km_valid true 24 (kin_pars (cls_HCP_A hsr) pars) -> 0 < nth 3 pars 0 ->
    valid_class hso hsr pars (cls_HCP_A hso) (cls_HCP_A hsr).

(** freshly constructed objects with the same strides *)
Inductive fresh (co : MClass (option R)) (cr : MClass R) : MM (option R) -> MM R -> Prop :=
| fresh_new : fresh co cr (mm_new co) (mm_new cr)
| fresh_strides st len so sr : mm_newStrides co st len = Some so -> mm_newStrides cr st len = Some sr -> fresh co cr so sr.
End V.

(** a point the library is meant to handle: nonzero relative volumes, an orientation, a positive temperature *)
Definition valid_point (c : MClass R) (pars : list R) (s : MM R) (m : Mem R) (i : nat) : Prop :=
  vOld s m i <> 0 /\ 0 < vNew s m i /\ norm2 (quat s m i) <> 0 /\ 0 < (eInt s m i - p_ec0 c pars) / p_cv pars.
