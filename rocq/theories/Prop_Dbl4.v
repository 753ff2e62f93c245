(** C63: rounding error of the deviatoric stress stored by a call on doubles. *)
From Coq Require Import List ZArith Bool Lia Reals.
From Flocq Require Import Core IEEE754.BinarySingleNaN.
From Verif Require Import Num SpecTensor SpecElast SpecApi MatModel Cases NumD P_Dbl SpecDbl SpecDblFin SpecDblAcc SpecDblStress P_Dbl23 P_Demo12 P_Demo14 P_Demo18 P_Demo20.
Import ListNotations.
Local Open Scope R_scope.

(** The six stored deviatoric components are those of Hooke's law of the stored elastic strain and the volume read, with the thermal
    term of hexagonal crystals, turned into the sample frame by the stored orientation. *)
Theorem C63_stress L hs c b i pars : trig_ok L -> libm_ok L -> dgood L hs c b -> (i < d_n b)%nat -> @in_use dbl (DNum L) c (d_s b) pars ->
  moderate_params c pars -> moderate_point b i -> moderate_answers (d_solver b) ->
  forall W k, rotates (dunit b i) W -> (k < 6)%nat ->
  within12 (rout b AS i k) (nth k (voigt (cong W (dev3 (dlatStress c pars b i)))) 0) (dstress_mag c pars b i).
Proof. intros TR LM. exact (call_dstress L TR LM hs c b i pars). Qed.
(** A call at volume 2 that leaves an elastic strain component of 1, at an orientation that is not the identity; there is a rotation. *)
Example C63_case : trig_ok xlm /\ libm_ok xlm /\ dgood xlm zsol x_c v_b /\ mcall xlm x_c 1 v_b /\
  (exists W, rotates (dunit v_b 1) W) /\ rout v_b AH 1 5 = 1 /\ rin v_b AV 1 1 = 2.
Proof.
  split; [exact xlm_ok|]. split; [exact xlm_libm|]. split; [exact (x_good (Z2D 1) v_m v_pos)|]. split; [exact v_call|].
  split; [exact v_turn|]. split; [exact v_strain|exact v_vol1].
Qed.

Print Assumptions C63_stress.
