(** Property theorems C34, C35: elasticity. *)
From Coq Require Import List Bool Reals Lra.
From Verif Require Import Num NumR Util Elast SpecTensor SpecElast P_Tensor P_Elast.
Import ListNotations.
Local Open Scope R_scope.

(** C34. [el_eval] takes the components of the strain in the orthonormal basis and returns those of the
    Kirchhoff stress; its deviatoric part is Hooke's law, its spherical part comes from the pressure. *)
Theorem C34_cubic c11 c12 c44 E p e : is_sym E ->
  el_eval (cubic_setParams [c11; c12; c44]) (vec6 E) p e = vec5 (hooke_cubic c11 c12 c44 E) ++ [- sqrt 3 * exp (trace E) * p].
Proof. exact (cubic_law c11 c12 c44 E p e). Qed.
Theorem C34_hexagonal c11 c12 c13 c33 c44 g E p e : is_sym E ->
  el_eval (hexag_setParams [c11; c12; c13; c33; c44; g]) (vec6 E) p e =
  vec5 (add3 (hooke_hex c11 c12 c13 c33 c44 E) (scal3 (- (exp (trace E) * g * e)) (basis 1)))
  ++ [- sqrt 3 * exp (trace E) * p + sqrt 2 / 3 * (c13 + c33 - c11 - c12) * inner E (basis 1)].
Proof. exact (hex_law c11 c12 c13 c33 c44 g E p e). Qed.
(** the volumetric-deviatoric coupling in the last component is the one of Hooke's law *)
Theorem C34_spherical c11 c12 c13 c33 c44 E : is_sym E ->
  inner (hooke_cubic c11 c12 c44 E) (basis 5) = (c11 + 2 * c12) * inner E (basis 5) /\
  inner (hooke_hex c11 c12 c13 c33 c44 E) (basis 5) =
    (2 * (c11 + c12) + 4 * c13 + c33) / 3 * inner E (basis 5) + sqrt 2 / 3 * (c13 + c33 - c11 - c12) * inner E (basis 1).
Proof. exact (fun H => conj (cubic_sph c11 c12 c44 E H) (hex_sph c11 c12 c13 c33 c44 E H)). Qed.
Theorem C34_symmetric c11 c12 c13 c33 c44 :
  energy_law (hooke_cubic c11 c12 c44) /\ energy_law (hooke_hex c11 c12 c13 c33 c44).
Proof. exact (conj (cubic_sym c11 c12 c44) (hex_sym c11 c12 c13 c33 c44)). Qed.
Theorem C34_positive_cubic c11 c12 c44 : 0 < c11 - c12 -> 0 < c11 + 2 * c12 -> 0 < c44 -> pos_def (hooke_cubic c11 c12 c44).
Proof. exact (cubic_pd c11 c12 c44). Qed.
Theorem C34_positive_hexagonal c11 c12 c13 c33 c44 : 0 < c11 - c12 -> 0 < c11 + c12 -> 2 * c13 * c13 < (c11 + c12) * c33 -> 0 < c44 ->
  pos_def (hooke_hex c11 c12 c13 c33 c44).
Proof. exact (hex_pd c11 c12 c13 c33 c44). Qed.
(** the stability inequalities are also necessary *)
Theorem C34_stability c11 c12 c13 c33 c44 :
  (pos_def (hooke_cubic c11 c12 c44) -> 0 < c11 - c12 /\ 0 < c11 + 2 * c12 /\ 0 < c44) /\
  (pos_def (hooke_hex c11 c12 c13 c33 c44) -> 0 < c11 - c12 /\ 0 < c11 + c12 /\ 2 * c13 * c13 < (c11 + c12) * c33 /\ 0 < c44).
Proof. exact (conj (cubic_pd_conv c11 c12 c44) (hex_pd_conv c11 c12 c13 c33 c44)). Qed.
Theorem C34_bulk c11 c12 c13 c33 c44 g b :
  (el_getBulkMod (cubic_setParams [c11; c12; c44]) = Some b -> b = voigt_bulk (hooke_cubic c11 c12 c44) /\ 0 < b) /\
  (el_getBulkMod (hexag_setParams [c11; c12; c13; c33; c44; g]) = Some b -> b = voigt_bulk (hooke_hex c11 c12 c13 c33 c44) /\ 0 < b).
Proof. exact (conj (cubic_bulk_some c11 c12 c44 b) (hex_bulk_some c11 c12 c13 c33 c44 g b)). Qed.
(** constants of the repository's tests are stable *)
Example C34_case : pos_def (hooke_cubic 3 1 1) /\ pos_def (hooke_hex 1.624 0.92 0.69 1.807 0.467) /\
  is_sym (mk3 1 2 3 2 4 5 3 5 6) /\
  el_getBulkMod (cubic_setParams [3; 1; 1]) = Some (5 / 3) /\
  el_getBulkMod (hexag_setParams [1.624; 0.92; 0.69; 1.807; 0.467; 0]) = Some ((2 * (1.624 + 0.92) + 4 * 0.69 + 1.807) / 9).
Proof. exact elast_case. Qed.

(** C35. The shear moduli reported for an isotropic material by the two classes differ by a factor of two:
    the cubic class reports twice the shear modulus. *)
Theorem C35_refuted : exists lam mu g1 g2, 0 < lam /\ 0 < mu /\
  (forall E, hooke_cubic (lam + 2 * mu) lam mu E = hooke_iso lam mu E) /\
  (forall E, hooke_hex (lam + 2 * mu) lam lam (lam + 2 * mu) mu E = hooke_iso lam mu E) /\
  el_getGmod (cubic_setParams [lam + 2 * mu; lam; mu]) = Some g1 /\
  el_getGmod (hexag_setParams [lam + 2 * mu; lam; lam; lam + 2 * mu; mu; 0]) = Some g2 /\
  g1 <> mu /\ g1 <> g2.
Proof. exact gmod_refuted. Qed.
Theorem C35_actual c11 c12 c13 c33 c44 g : 
  (forall b, el_getGmod (cubic_setParams [c11; c12; c44]) = Some b -> b = 2 * voigt_shear (hooke_cubic c11 c12 c44)) /\
  (forall b, el_getGmod (hexag_setParams [c11; c12; c13; c33; c44; g]) = Some b -> b = voigt_shear (hooke_hex c11 c12 c13 c33 c44)) /\
  (forall lam mu, voigt_shear (hooke_iso lam mu) = mu).
Proof. exact (conj (cubic_gmod_some c11 c12 c44) (conj (hex_gmod_some c11 c12 c13 c33 c44 g) iso_shear)). Qed.
Example C35_case : exists b, el_getGmod (cubic_setParams [3; 1; 1]) = Some b.
Proof. exact gmod_case. Qed.

Print Assumptions C34_cubic.
Print Assumptions C34_hexagonal.
Print Assumptions C34_spherical.
Print Assumptions C34_symmetric.
Print Assumptions C34_positive_cubic.
Print Assumptions C34_positive_hexagonal.
Print Assumptions C34_stability.
Print Assumptions C34_bulk.
Print Assumptions C35_refuted.
Print Assumptions C35_actual.
