(** Model of ECMech_eosSimple.h. *)
From Coq Require Import List ZArith Bool.
From Verif Require Import Num.
Import ListNotations.

Section Eos.
  Context {T : Type} {N : Num T}.
  Local Open Scope num_scope.

  (* members, ECMech_eosSimple.h:161-164 *)
  Record Eos := {
    eos_iso : bool;              (* the template argument isothermal *)
    eos_rho0 : T; eos_bulk : T; eos_cvav : T; eos_gamma : T; eos_ec0 : T;
    eos_dtde : T; eos_tK0 : T
  }.

  Definition eos_nParams := 5%nat.      (* ECMech_eosSimple.h:17 *)

  (* ECMech_eosSimple.h:28-51; reads params[0..4]; the iParam check always passes *)
  Definition eos_setParams (isothermal : bool) (params : list T) : Eos :=
    let cvav := get params 2 in
    let ec0 := get params 4 in
    let dtde := one / cvav in
    {| eos_iso := isothermal;
       eos_rho0 := get params 0; eos_bulk := get params 1; eos_cvav := cvav;
       eos_gamma := get params 3; eos_ec0 := ec0;
       eos_dtde := dtde; eos_tK0 := - ec0 * dtde |}.

  (* ECMech_eosSimple.h:53-74 *)
  Definition eos_getParams (e : Eos) : list T :=
    [eos_rho0 e; eos_bulk e; eos_cvav e; eos_gamma e; eos_ec0 e].

  (* ECMech_eosSimple.h:76-91; returns (p, tK) *)
  Definition evalPT (eos : Eos) (v e : T) : T * T :=
    let mu := one / v - one in
    if eos_iso eos then (eos_bulk eos * mu, eos_tK0 eos)
    else (eos_bulk eos * mu + eos_gamma eos * e, eos_tK0 eos + e * eos_dtde eos).

  (* ECMech_eosSimple.h:146-156 *)
  Definition evalT (eos : Eos) (e : T) : T :=
    if eos_iso eos then eos_tK0 eos else eos_tK0 eos + e * eos_dtde eos.

  Record PTDiff := { ptd_p : T; ptd_tK : T; ptd_bulk : T; ptd_dpde : T; ptd_dtde : T }.

  (* ECMech_eosSimple.h:93-118 *)
  Definition evalPTDiff (eos : Eos) (v e : T) : PTDiff :=
    let eta := one / v in
    let mu := eta - one in
    if eos_iso eos then
      {| ptd_p := eos_bulk eos * mu; ptd_tK := evalT eos e; ptd_bulk := eos_bulk eos * eta;
         ptd_dpde := zero; ptd_dtde := nlit 1 (-8) * eos_dtde eos |}
    else
      {| ptd_p := eos_bulk eos * mu + eos_gamma eos * e; ptd_tK := evalT eos e;
         ptd_bulk := eos_bulk eos * eta;
         ptd_dpde := eos_gamma eos; ptd_dtde := eos_dtde eos |}.

  (* ECMech_eosSimple.h:120-130; (vMin, vMax, e0, v0) *)
  Definition eos_getInfo : T * T * T * T := (nlit 1 (-1), nZ 10, nZ 0, nZ 1).
  (* ECMech_eosSimple.h:132-136 *)
  Definition getBulkRef (eos : Eos) : T := eos_bulk eos.
  (* ECMech_eosSimple.h:138-142 *)
  Definition getRho0 (eos : Eos) : T := eos_rho0 eos.

  Record Upd := { u_press : T; u_tK : T; u_eNew : T; u_bulkNew : T; u_dpde : T; u_dpdv : T; u_dtde : T }.

  (* ECMech_eosSimple.h:167-191 *)
  Definition updateSimple (eos : Eos) (vNew volInc eOld pOld : T) : Upd :=
    let eNew := eOld - volInc * pOld in
    let d := evalPTDiff eos vNew eNew in
    let dpdv := - ptd_bulk d / vNew in
    let bulkMin := nlit 1 (-5) * getBulkRef eos in
    {| u_press := ptd_p d; u_tK := ptd_tK d; u_eNew := eNew;
       u_bulkNew := nmax bulkMin (ptd_bulk d + ptd_dpde d * pOld * vNew);
       u_dpde := ptd_dpde d; u_dpdv := dpdv; u_dtde := ptd_dtde d |}.
End Eos.
Arguments Eos T : clear implicits.
Arguments PTDiff T : clear implicits.
Arguments Upd T : clear implicits.
