(** What a caller sees of hardening: parameters, strength and slip rates in the history buffer. *)
From Coq Require Import List Bool Reals.
From Verif Require Import Num Hard MatModel SpecApi SpecKin.
Import ListNotations.
Local Open Scope R_scope.

(** entry [k] of the kinetics part of the parameter vector *)
Definition kin_par (c : MClass R) (pars : list R) (k : nat) : R := nth (3 + c_sgNP c + c_elNP c + k) pars 0.
(** strength variable and slip rates of point [i] in the history buffer *)
Definition strength s m i : R := val s m AH i 13.
Definition slip_rates (c : MClass R) s m i : list R := map (fun k => val s m AH i (14 + k)) (seq 0 (c_nslip c)).
Definition shear_of c s m i : R := shear_sum (slip_rates c s m i).

(** Voce: parameters mu, xm, gam_w, h0, tausi, taus0, [exponent], xms, gamss0, h_init *)
Definition voce_sat_at (nl : bool) c pars shr : R :=
  let k := if nl then 1%nat else 0%nat in voce_sat (kin_par c pars 5) (kin_par c pars (7 + k)) (kin_par c pars (6 + k)) shr.
Definition voce_rate_at c pars shr h : R :=
  voce_hardening (kin_par c pars 3) (kin_par c pars 4) (voce_sat_at false c pars shr) shr h.
Definition voce_nl_rate_at c pars shr h : R :=
  voce_hardening_nl (kin_par c pars 3) (kin_par c pars 4) (voce_sat_at true c pars shr) (kin_par c pars 6) shr h.
(** dislocation-density models: [n] groups of constants *)
Definition km_groups (c : MClass R) : nat := if hexagonal c then 24 else 1.
Definition km_rate_at c pars shr rho : R :=
  let j := (8 + 3 * km_groups c)%nat in
  km_hardening (kin_par c pars j) (km_k2_at (kin_par c pars (1 + j)) (kin_par c pars (3 + j)) (kin_par c pars (2 + j)) shr) shr rho.
(** the old density is not taken below 1e-4 of the initial one *)
Definition km_old c pars rho : R := Rmax rho (/ 10 ^ 4 * kin_par c pars (12 + 3 * km_groups c)).
