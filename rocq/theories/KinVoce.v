(** Model of ECMech_kinetics_VocePL.h. *)
From Coq Require Import List ZArith Bool String.
From Verif Require Import Num Util Hard.
Import ListNotations.

Section Voce.
  Context {T : Type} {N : Num T}.
  Local Open Scope num_scope.

  (* members, ECMech_kinetics_VocePL.h:129-152 *)
  Record Voce := {
    v_nonlinear : bool;          (* template argument *)
    v_mu : T; v_xm : T; v_gam_w : T;
    v_t_max : T; v_t_min : T; v_xn : T; v_xnn : T;
    v_h0 : T; v_tausi : T; v_taus0 : T; v_xms : T; v_gamss0 : T;
    v_xmprime : T; v_xmprime1 : T;
    v_hdn_init : T
  }.

  (* ECMech_kinetics_VocePL.h:20 *)
  Definition voce_nParams (nonlinear : bool) : nat := 3 + 5 + 1 + (if nonlinear then 1 else 0).

  (* ECMech_kinetics_VocePL.h:31-78 *)
  Definition voce_setParams (nonlinear : bool) (p : list T) : Voce :=
    let xm := get p 1 in
    let xnn := one / xm in
    let k := if nonlinear then 1%nat else 0%nat in      (* shift of the parameters after xmprime *)
    let xmprime := if nonlinear then get p 6 else one in
    {| v_nonlinear := nonlinear;
       v_mu := get p 0; v_xm := xm; v_gam_w := get p 2;
       v_xnn := xnn; v_xn := xnn - one;
       v_t_min := npow gam_ratio_min xm;
       v_t_max := npow gam_ratio_ovf xm;
       v_h0 := get p 3; v_tausi := get p 4; v_taus0 := get p 5;
       v_xmprime := xmprime;
       v_xmprime1 := if nonlinear then xmprime - one else zero;
       v_xms := get p (6 + k); v_gamss0 := get p (7 + k);
       v_hdn_init := get p (8 + k) |}.

  (* ECMech_kinetics_VocePL.h:80-114 *)
  Definition voce_getParams (v : Voce) : list T :=
    [v_mu v; v_xm v; v_gam_w v; v_h0 v; v_tausi v; v_taus0 v; v_xms v; v_gamss0 v; v_hdn_init v].

  (* ECMech_kinetics_VocePL.h:116-125; (name, init, plot, state) *)
  Definition voce_histInfo (v : Voce) : list (string * T * bool * bool) :=
    [("h"%string, v_hdn_init v, true, true)].

  (* ECMech_kinetics_VocePL.h:156-161 *)
  Definition voce_getFixedRefRate (v : Voce) (vals : list T) : T := v_gam_w v.

  (* ECMech_kinetics_VocePL.h:163-175 *)
  Definition voce_getVals (p tK : T) (h_state : list T) : list T * T :=
    ([get h_state 0], get h_state 0).
  (* assert at line 173 *)
  Definition voce_valsOk (p tK : T) (h_state : list T) : bool := zero <? get h_state 0.

  (* ECMech_kinetics_VocePL.h:198-279; (gdot, l_act, dgdot_dtau, dgdot_dg) *)
  Definition voce_evalGdot (v : Voce) (gIn tau : T) : T * bool * T * T :=
    let g_i := one / gIn in
    let t_frac := tau * g_i in
    let at_ := nabs t_frac in
    if v_t_min v <? at_ then
      if v_t_max v <? at_ then
        (ncopysign (gam_ratio_ovffx * v_gam_w v) tau, true, zero, zero)
      else
        let abslog := nlog at_ in
        let blog := v_xn v * abslog in
        let temp := v_gam_w v * nexp blog in
        let dgdot_dtau := temp * v_xnn v * g_i in
        (temp * t_frac, true, dgdot_dtau, - dgdot_dtau * t_frac)
    else (zero, false, zero, zero).

  (* ECMech_kinetics_VocePL.h:177-196 *)
  Definition voce_evalGdots (v : Voce) (nslip : nat) (tau vals : list T) : list T * list T * list T :=
    let gAll := get vals 0 in
    let r iS := voce_evalGdot v gAll (get tau iS) in
    (tab nslip (fun iS => fst (fst (fst (r iS)))),
     tab nslip (fun iS => snd (fst (r iS))),
     tab nslip (fun iS => snd (r iS))).

  (* ECMech_kinetics_VocePL.h:299-315; (shrate_eff, sv_sat) *)
  Definition voce_getEvolVals (v : Voce) (nslip : nat) (gdot : list T) : T * T :=
    let shrate_eff := vecsssumabs nslip gdot in
    let sv_sat := if idp_tiny_sqrt <? shrate_eff
                  then v_taus0 v * npow (shrate_eff / v_gamss0 v) (v_xms v)
                  else v_taus0 v in
    (shrate_eff, sv_sat).

  (* ECMech_kinetics_VocePL.h:317-345; (sdot, dsdot_ds) *)
  Definition voce_getSdot1 (v : Voce) (ev : T * T) (h : T) : T * T :=
    let '(shrate_eff, sv_sat) := ev in
    let temp2 := if sv_sat <=? v_tausi v then zero else one / (sv_sat - v_tausi v) in
    if v_nonlinear v then
      let temp1 := npow ((sv_sat - h) * temp2) (v_xmprime1 v) in
      (v_h0 v * temp1 * (sv_sat - h) * temp2 * shrate_eff,
       - v_h0 v * temp2 * shrate_eff * v_xmprime v * temp1)
    else
      let temp1 := v_h0 v * ((sv_sat - h) * temp2) in
      (temp1 * shrate_eff, - v_h0 v * temp2 * shrate_eff).

  (* ECMech_kinetics_VocePL.h:281-297 *)
  Definition voce_updateH (solver : Solver T) (v : Voce) (nslip : nat) (hs_o : list T) (dt : T) (gdot : list T)
    : option (list T * nat) :=
    match updateH1 solver (voce_getSdot1 v (voce_getEvolVals v nslip gdot)) (get hs_o 0) dt with
    | None => None
    | Some (h, n) => Some ([h], n)
    end.

  (** KineticsVocePL as the template argument Kinetics, ECMech_kinetics_VocePL.h:15-346 *)
  Definition voce_kinetics (solver : Solver T) (v : Voce) (nslip : nat) : Kinetics T :=
    {| k_nslip := nslip; k_nH := 1;
       k_getVals := voce_getVals; k_valsOk := voce_valsOk;
       k_getFixedRefRate := voce_getFixedRefRate v;
       k_evalGdots := voce_evalGdots v nslip;
       k_updateH := voce_updateH solver v nslip |}.
End Voce.
Arguments Voce T : clear implicits.
