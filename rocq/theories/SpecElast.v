(** Independent specification: linear elasticity of cubic and hexagonal crystals in crystal axes. *)
From Coq Require Import List Reals Lra.
From Verif Require Import SpecTensor.
Local Open Scope R_scope.

(** Voigt stiffness written out on tensors: sigma_xx = c11 E_xx + c12 (E_yy + E_zz), sigma_yz = 2 c44 E_yz, ... *)
Definition hooke_cubic (c11 c12 c44 : R) (E : M3) : M3 :=
  mk3 (c11 * a00 E + c12 * (a11 E + a22 E)) (2 * c44 * a01 E) (2 * c44 * a02 E)
      (2 * c44 * a10 E) (c11 * a11 E + c12 * (a00 E + a22 E)) (2 * c44 * a12 E)
      (2 * c44 * a20 E) (2 * c44 * a21 E) (c11 * a22 E + c12 * (a00 E + a11 E)).
(** hexagonal, c axis along z, c66 = (c11 - c12) / 2 *)
Definition hooke_hex (c11 c12 c13 c33 c44 : R) (E : M3) : M3 :=
  mk3 (c11 * a00 E + c12 * a11 E + c13 * a22 E) ((c11 - c12) * a01 E) (2 * c44 * a02 E)
      ((c11 - c12) * a10 E) (c12 * a00 E + c11 * a11 E + c13 * a22 E) (2 * c44 * a12 E)
      (2 * c44 * a20 E) (2 * c44 * a21 E) (c13 * (a00 E + a11 E) + c33 * a22 E).
(** an isotropic material *)
Definition hooke_iso (lam mu : R) (E : M3) : M3 := add3 (scal3 (lam * trace E) I3) (scal3 (2 * mu) E).

Definition energy_law (C : M3 -> M3) : Prop := forall A B, is_sym A -> is_sym B -> inner A (C B) = inner (C A) B.
Definition pos_def (C : M3 -> M3) : Prop := forall A, is_sym A -> A <> Z3 -> 0 < inner A (C A).
(** Voigt averages: K = I:C:I / 9, and G = (C_ijij - C_iijj / 3) / 10 = sum over the deviatoric basis of B:C:B / 10 *)
Definition voigt_bulk (C : M3 -> M3) : R := inner I3 (C I3) / 9.
Definition voigt_shear (C : M3 -> M3) : R :=
  (inner (basis 0) (C (basis 0)) + inner (basis 1) (C (basis 1)) + inner (basis 2) (C (basis 2))
   + inner (basis 3) (C (basis 3)) + inner (basis 4) (C (basis 4))) / 10.

(** [q] turns vectors the way [C] does: q v q* = C v *)
Definition rotates (q : list R) (C : M3) : Prop :=
  forall v, hmul (hmul (toH q) (0, v)) (hconj (toH q)) = (0, mulv C v).
