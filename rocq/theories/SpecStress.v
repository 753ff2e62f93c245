(** What the stress returned by a call has to be: Hooke's law for the elastic strain in the history
    variables, turned by the orientation in the history variables. *)
From Coq Require Import List ZArith Bool Reals.
From Verif Require Import Num NumR MatModel SpecTensor SpecElast SpecApi.
Import ListNotations.
Local Open Scope R_scope.

(** Lattice strain: the five stored deviatoric components are scaled by v^(1/3); the volumetric
    part is ln v. *)
Definition latStrain (s : MM R) (m : Mem R) (i : nat) (v : R) : M3 :=
  add3 (scal3 (/ Rpower v (1 / 3)) (ten5 (map (fun k => val s m AH i (4 + k)) [0; 1; 2; 3; 4]%nat)))
       (scal3 (ln v / 3) I3).
(** Hooke's law of the crystal with the parameters [pars] *)
Definition p_hooke (c : MClass R) (pars : list R) : M3 -> M3 :=
  if hexagonal c then hooke_hex (nth 4 pars 0) (nth 5 pars 0) (nth 6 pars 0) (nth 7 pars 0) (nth 8 pars 0)
  else hooke_cubic (nth 3 pars 0) (nth 4 pars 0) (nth 5 pars 0).
(** thermal-pressure anisotropy (last elastic parameter of hexagonal crystals) *)
Definition p_ghex (c : MClass R) (pars : list R) : R := if hexagonal c then nth 9 pars 0 else 0.
(** crystal-frame Cauchy stress up to its spherical part *)
Definition latStress (c : MClass R) (pars : list R) (v e : R) (E : M3) : M3 :=
  add3 (scal3 (/ v) (p_hooke c pars E)) (scal3 (- (p_ghex c pars * e)) (basis 1)).
