(** C60: rounding errors of internal energy, pressure, temperature and bulk modulus of a call on doubles. *)
From Coq Require Import List ZArith Bool Lia Reals.
From Flocq Require Import Core IEEE754.BinarySingleNaN.
From Verif Require Import Num SpecTensor SpecApi MatModel Cases NumD SpecDbl SpecDblFin SpecDblAcc P_Dbl21 P_Demo12 P_Demo14 P_Demo18.
Import ListNotations.
Local Open Scope R_scope.

(** The stored internal energy is the energy read plus the work on the point: minus volume increment times pressure read,
    plus time step times mean relative volume times mean of the stress powers before and after.  All on the doubles read and stored;
    the error is at most 1e-13 of the sum of the magnitudes of the terms. *)
Theorem C60_energy L hs c b i pars : trig_ok L -> libm_ok L -> dgood L hs c b -> (i < d_n b)%nat -> @in_use dbl (DNum L) c (d_s b) pars ->
  moderate_params c pars -> moderate_point b i -> moderate_answers (d_solver b) ->
  within (rout b AE i 0) (rin b AE i 0 + dwork b i) (escale b i).
Proof. intros TR LM G Hi HU MP MI HA. exact (proj1 (call_acc L TR LM hs c b i pars G Hi HU MP MI HA)). Qed.
(** Over any number of calls, each one starting from the energies the previous one left, the errors add up and nothing else is lost. *)
Theorem C60_energy_history L hs c i b l : trig_ok L -> libm_ok L -> echain L hs c (b :: l) -> Forall (mcall L c i) (b :: l) ->
  Rabs (efinal b l i - (rin b AE i 0 + over (fun x => dwork x i) (b :: l))) <=
  / 10 ^ 13 * over (fun x => escale x i) (b :: l) + / 10 ^ 40 * INR (length (b :: l)).
Proof. intros TR LM. exact (energy_history L TR LM hs c i l b). Qed.
(** The stored pressure is that of the equation of state at the new volume and the energy after the volume work, less the
    anisotropic coupling term in hexagonal crystals, with the bulk modulus of the elastic constants. *)
Theorem C60_pressure L hs c b i pars : trig_ok L -> libm_ok L -> dgood L hs c b -> (i < d_n b)%nat -> @in_use dbl (DNum L) c (d_s b) pars ->
  moderate_params c pars -> moderate_point b i -> moderate_answers (d_solver b) ->
  within (rout b AS i 6) (dpress c pars b i) (dpress_mag c pars b i).
Proof. intros TR LM G Hi HU MP MI HA. exact (proj1 (proj2 (call_acc L TR LM hs c b i pars G Hi HU MP MI HA))). Qed.
(** The stored temperature is that of the energy read. *)
Theorem C60_temperature L hs c b i pars : trig_ok L -> libm_ok L -> dgood L hs c b -> (i < d_n b)%nat -> @in_use dbl (DNum L) c (d_s b) pars ->
  moderate_params c pars -> moderate_point b i -> moderate_answers (d_solver b) ->
  within (rout b AT i 0) (dtemp c pars (rin b AE i 0)) (dtemp_mag c pars (rin b AE i 0)).
Proof. intros TR LM G Hi HU MP MI HA. exact (proj1 (proj2 (proj2 (call_acc L TR LM hs c b i pars G Hi HU MP MI HA)))). Qed.
(** The stored bulk modulus is that of the equation of state, floored at 1e-5 of the reference value. *)
Theorem C60_bulk L hs c b i pars : trig_ok L -> libm_ok L -> dgood L hs c b -> (i < d_n b)%nat -> @in_use dbl (DNum L) c (d_s b) pars ->
  moderate_params c pars -> moderate_point b i -> moderate_answers (d_solver b) ->
  within (rout b AB i 0) (dbulk c pars b i) (dbulk_mag c pars b i).
Proof. intros TR LM G Hi HU MP MI HA. exact (proj2 (proj2 (proj2 (call_acc L TR LM hs c b i pars G Hi HU MP MI HA)))). Qed.
(** A volume doubling under pressure 3 from energy 2, then a deforming call from the energy left. *)
Example C60_case : trig_ok xlm /\ libm_ok xlm /\ echain xlm zsol x_c [v_b; w_b] /\ Forall (mcall xlm x_c 1) [v_b; w_b] /\
  rin v_b AV 1 0 = 1 /\ Rabs (rin w_b AE 1 0 - (-1)) <= / 10 ^ 10.
Proof.
  split; [exact xlm_ok|]. split; [exact xlm_libm|]. split; [exact vw_chain|]. split; [exact (Forall_cons _ v_call (Forall_cons _ w_call (Forall_nil _)))|].
  split; [exact v_vol|exact (proj2 v_energy)].
Qed.

Print Assumptions C60_energy.
Print Assumptions C60_energy_history.
Print Assumptions C60_pressure.
Print Assumptions C60_temperature.
Print Assumptions C60_bulk.
