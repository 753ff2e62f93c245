(** Model of ECMech_kinetics_KMBalD.h. *)
From Coq Require Import List ZArith Bool String.
From Verif Require Import Num Util Hard.
Import ListNotations.

Section KM.
  Context {T : Type} {N : Num T}.
  Local Open Scope num_scope.

  (* template arguments and members, ECMech_kinetics_KMBalD.h:37-41, 199-226 *)
  Record KM := {
    km_withGAthermal : bool; km_pOne : bool; km_qOne : bool; km_perSS : bool; km_nVPer : nat;
    km_mu_ref : T; km_tK_ref : T; km_tau_a : T; km_p : T; km_q : T; km_gam_ro : T; km_gam_wo : T;
    km_c_1 : list T; km_wrD : T; km_go : list T; km_s : list T;
    km_t_max : list T; km_t_min : list T; km_xn : list T; km_xnn : list T;
    km_k1 : T; km_k2o : T; km_ninv : T; km_gamma_o : T;
    km_hdn_init : T; km_hdn_min : T
  }.

  (* ECMech_kinetics_KMBalD.h:46 *)
  Definition km_nParams (nVPer : nat) : nat := 8 + 3 * nVPer + 4 + 1.

  (* the constructor's asserts, ECMech_kinetics_KMBalD.h:52-59 *)
  Definition km_ctorOk (perSS : bool) (nVPer nslip : nat) : bool :=
    if perSS then Nat.eqb nslip nVPer else Nat.eqb nVPer 1.

  (* ECMech_kinetics_KMBalD.h:64-134.  The parameter order is mu_ref, tK_ref, c_1[nVPer], tau_a, p, q,
     gam_wo, gam_ro, wrD, go[nVPer], s[nVPer], k1, k2o, ninv, gamma_o, hdn_init. *)
  Definition km_setParams (withGAthermal pOne qOne perSS : bool) (nVPer : nat) (p : list T) : KM :=
    let i1 := (2 + nVPer)%nat in             (* tau_a *)
    let i2 := (i1 + 6)%nat in                (* go *)
    let i3 := (i2 + nVPer)%nat in            (* s *)
    let i4 := (i3 + nVPer)%nat in            (* k1 *)
    let mu_ref := get p 0 in
    let tK_ref := get p 1 in
    let c_1 := sub p 2 nVPer in
    let pp := get p (i1 + 1) in
    let qq := get p (i1 + 2) in
    let xm i := one / (two * ((get c_1 i / tK_ref) * mu_ref * pp * qq)) in
    let hdn_init := get p (i4 + 4) in
    {| km_withGAthermal := withGAthermal; km_pOne := pOne; km_qOne := qOne; km_perSS := perSS;
       km_nVPer := nVPer;
       km_mu_ref := mu_ref; km_tK_ref := tK_ref; km_c_1 := c_1;
       km_tau_a := get p i1; km_p := pp; km_q := qq;
       km_gam_wo := get p (i1 + 3); km_gam_ro := get p (i1 + 4); km_wrD := get p (i1 + 5);
       km_go := sub p i2 nVPer; km_s := sub p i3 nVPer;
       km_xnn := tab nVPer (fun i => one / xm i);
       km_xn := tab nVPer (fun i => one / xm i - one);
       km_t_min := tab nVPer (fun i => npow gam_ratio_min (xm i));
       km_t_max := tab nVPer (fun i => npow gam_ratio_ovf (xm i));
       km_k1 := get p i4; km_k2o := get p (i4 + 1); km_ninv := get p (i4 + 2); km_gamma_o := get p (i4 + 3);
       km_hdn_init := hdn_init; km_hdn_min := nlit 1 (-4) * hdn_init |}.
  (* the asserts at lines 92-97 *)
  Definition km_paramsOk (k : KM) : bool :=
    (if km_pOne k then km_p k =? one else true) && (if km_qOne k then km_q k =? one else true).

  (* ECMech_kinetics_KMBalD.h:136-184 *)
  Definition km_getParams (k : KM) : list T :=
    [km_mu_ref k; km_tK_ref k] ++ km_c_1 k ++
    [km_tau_a k; km_p k; km_q k; km_gam_wo k; km_gam_ro k; km_wrD k] ++
    km_go k ++ km_s k ++
    [km_k1 k; km_k2o k; km_ninv k; km_gamma_o k; km_hdn_init k].

  (* ECMech_kinetics_KMBalD.h:186-195 *)
  Definition km_histInfo (k : KM) : list (string * T * bool * bool) :=
    [("rho_dd"%string, km_hdn_init k, true, true)].

  (* ECMech_kinetics_KMBalD.h:230-236 *)
  Definition km_getFixedRefRate (vals : list T) : T := get vals 0 + get vals 1.

  (* ECMech_kinetics_KMBalD.h:244-279 *)
  Definition km_getVals (k : KM) (p tK : T) (h_state : list T) : list T * T :=
    let n := km_nVPer k in
    let nVPerInv := nZ 1 / nZ (Z.of_nat n) in
    let sqrtDDens := nsqrt (get h_state 0) in
    let hdnI i := get (km_go k) i + get (km_s k) i * sqrtDDens in
    ([km_gam_wo k / sqrtDDens; km_gam_ro k * sqrtDDens * sqrtDDens] ++
       tab n hdnI ++ tab n (fun i => get (km_c_1 k) i / tK),
     sum n hdnI * nVPerInv).
  (* the asserts at lines 268 and 275 *)
  Definition km_valsOk (k : KM) (p tK : T) (h_state : list T) : bool :=
    if km_withGAthermal k then zero <? km_tau_a k
    else forallb (fun i => zero <? get (fst (km_getVals k p tK h_state)) (2 + i)) (seq 0 (km_nVPer k)).

  (* ECMech_kinetics_KMBalD.h:301-356; (exp_arg, mts_dfac) *)
  Definition get_mts_dG (k : KM) (c_e denom_i t_frac : T) : T * T :=
    let mts_dfac0 := c_e * denom_i in
    let '(p_func, mts_dfac1) :=
      if km_pOne k then (t_frac, mts_dfac0)
      else if nabs t_frac <? idp_tiny_sqrt then (zero, mts_dfac0 * nlit 1 10)
      else
        let p_func := ncopysign (npow (nabs t_frac) (km_p k)) t_frac in
        (p_func, mts_dfac0 * km_p k * p_func / t_frac) in
    let q_arg := one - p_func in
    if q_arg <? idp_tiny_sqrt then
      (- c_e * zero, zero)
    else if km_qOne k then (- c_e * q_arg, mts_dfac1)
    else
      let temp := npow (nabs q_arg) (km_q k) in
      let mts_dfac2 := mts_dfac1 * km_q k * temp / nabs q_arg in
      (- c_e * ncopysign temp q_arg, mts_dfac2).

  (* the inactive return value *)
  Definition km_inactive : T * bool * T * T := (zero, false, zero, zero).

  (* ECMech_kinetics_KMBalD.h:358-604; (gdot, l_act, dgdot_dtau, dgdot_dg); [iVal] is the index chosen
     at lines 391-409; mu is always _mu_ref (line 296). dgdot_wg is only used when not withGAthermal. *)
  Definition km_evalGdot (k : KM) (vals : list T) (iVal : nat) (tau : T) : T * bool * T * T :=
    let gdot_w_pl_scaling := nZ 10 in
    let mu := km_mu_ref k in
    let gam_w := get vals 0 in
    let gam_r := get vals 1 in
    let gIn := get vals (2 + iVal) in
    let c_t := get vals (2 + km_nVPer k + iVal) in
    let xn := get (km_xn k) iVal in
    let xnn := get (km_xnn k) iVal in
    let t_max := get (km_t_max k) iVal in
    let t_min := get (km_t_min k) iVal in
    let wGA := km_withGAthermal k in
    if negb wGA && (tau =? zero) then km_inactive else
    let gAth := if wGA then gIn else km_tau_a k in
    let g_i := if wGA then one / km_tau_a k else one / gIn in
    let at_0 := nmax zero (nabs tau - gAth) * g_i in
    let exp_arg_r := (nabs tau - gAth) / km_wrD k in
    if exp_arg_r <? gam_ratio_min then km_inactive else
    let '(gdot_r, temp_r) :=
      if exp_arg_r <? idp_eps_sqrt then (gam_r * exp_arg_r, one - exp_arg_r)
      else let temp := nexp (- exp_arg_r) in (gam_r * (one - temp), temp) in
    let dgdot_r := gam_r * temp_r / km_wrD k in
    if t_max <? at_0 then
      (ncopysign gdot_r tau, true, dgdot_r,
       if wGA then - ncopysign dgdot_r tau else zero)
    else
    let c_e := c_t * mu in
    let t_frac := (nabs tau - gAth) * g_i in
    let '(exp_arg, mts_dfac) := get_mts_dG k c_e g_i t_frac in
    if exp_arg <? ln_gam_ratio_min then km_inactive else
    let gdot_w1 := gam_w * nexp exp_arg in
    let dgdot_w1 := mts_dfac * gdot_w1 in
    let dgdot_wg1 := dgdot_w1 * t_frac in
    let t_frac_m := (- nabs tau - gAth) * g_i in
    let '(exp_arg_m, mts_dfac_m) := get_mts_dG k c_e g_i t_frac_m in
    let bal := ln_gam_ratio_min <? exp_arg_m in
    let gdot_w_m := gam_w * nexp exp_arg_m in
    let contrib_m := mts_dfac_m * gdot_w_m in
    let gdot_w2 := if bal then gdot_w1 - gdot_w_m else gdot_w1 in
    let dgdot_w2 := if bal then dgdot_w1 - contrib_m else dgdot_w1 in
    let dgdot_wg2 := if bal then dgdot_wg1 - contrib_m * t_frac_m else dgdot_wg1 in
    if bal && (nabs (gdot_w2 / gam_w) <? gam_ratio_min) then km_inactive else
    let '(gdot_w, dgdot_w, dgdot_wg) :=
      if t_min <? at_0 then
        let abslog := nlog at_0 in
        let blog := xn * abslog in
        let temp := (gam_w * gdot_w_pl_scaling) * nexp blog in
        let gdot_w_pl := temp * at_0 in
        let contrib := temp * xnn * g_i in
        (gdot_w2 + gdot_w_pl, dgdot_w2 + contrib, dgdot_wg2 + contrib * at_0)
      else (gdot_w2, dgdot_w2, dgdot_wg2) in
    let gdot := one / (one / gdot_w + one / gdot_r) in
    let gdrdiv2 := one / (gdot_r * gdot_r) in
    let gdwdiv2 := one / (gdot_w * gdot_w) in
    let dgdot_dtau := (gdot * gdot) * (dgdot_w * gdwdiv2 + dgdot_r * gdrdiv2) in
    let temp := gdot * ncopysign gdot tau * gdwdiv2 in
    let dgdot_dg0 := if wGA then - temp * dgdot_w else - temp * dgdot_wg in
    let temp2 := gdot * ncopysign gdot tau * gdrdiv2 in
    let dgdot_dg := if wGA then - temp2 * dgdot_r + dgdot_dg0 else dgdot_dg0 in
    (ncopysign gdot tau, true, dgdot_dtau, dgdot_dg).

  (* ECMech_kinetics_KMBalD.h:281-299 and 391-409 *)
  Definition km_evalGdots (k : KM) (nslip : nat) (tau vals : list T) : list T * list T * list T :=
    let r iS := km_evalGdot k vals (if km_perSS k then iS else 0%nat) (get tau iS) in
    (tab nslip (fun iS => fst (fst (fst (r iS)))),
     tab nslip (fun iS => snd (fst (r iS))),
     tab nslip (fun iS => snd (r iS))).

  (* ECMech_kinetics_KMBalD.h:628-645; (shrate_eff, k2) *)
  Definition km_getEvolVals (k : KM) (nslip : nat) (gdot : list T) : T * T :=
    let shrate_eff := vecsssumabs nslip gdot in
    let k2 := if idp_tiny_sqrt <? shrate_eff
              then km_k2o k * npow (km_gamma_o k / shrate_eff) (km_ninv k)
              else km_k2o k in
    (shrate_eff, k2).

  (* ECMech_kinetics_KMBalD.h:647-675; h is the logarithm of the density *)
  Definition km_getSdot1 (k : KM) (ev : T * T) (h : T) : T * T :=
    let '(shrate_eff, k2) := ev in
    let temp_hs_a := nexp (- onehalf * h) in
    let temp1 := km_k1 k * temp_hs_a - k2 in
    (temp1 * shrate_eff, (- km_k1 k * onehalf * temp_hs_a) * shrate_eff).

  (* ECMech_kinetics_KMBalD.h:606-626 *)
  Definition km_updateH (solver : Solver T) (k : KM) (nslip : nat) (hs_o : list T) (dt : T) (gdot : list T)
    : option (list T * nat) :=
    let log_hs_o := nlog (nmax (get hs_o 0) (km_hdn_min k)) in
    match updateH1 solver (km_getSdot1 k (km_getEvolVals k nslip gdot)) log_hs_o dt with
    | None => None
    | Some (l, n) => Some ([nexp l], n)
    end.

  (** KineticsKMBalD as the template argument Kinetics, ECMech_kinetics_KMBalD.h:37-676 *)
  Definition km_kinetics (solver : Solver T) (k : KM) (nslip : nat) : Kinetics T :=
    {| k_nslip := nslip; k_nH := 1;
       k_getVals := km_getVals k; k_valsOk := km_valsOk k;
       k_getFixedRefRate := km_getFixedRefRate;
       k_evalGdots := km_evalGdots k nslip;
       k_updateH := km_updateH solver k nslip |}.
End KM.
Arguments KM T : clear implicits.
