(** Model of the elasticity classes of ECMech_evptn.h:42-403. *)
From Coq Require Import List ZArith Bool.
From Verif Require Import Num Util.
Import ListNotations.

Section Elast.
  Context {T : Type} {N : Num T}.
  Local Open Scope num_scope.

  (** Both classes have the same shape: a diagonal on the five deviatoric components, one coupling
      coefficient [el_K_sdax3] between component iTvecHex = 1 and the volumetric component, one
      Grueneisen coefficient.  [el_hex] says which class it is; the cubic class has no coupling code. *)
  Record Elast := {
    el_hex : bool;
    el_pars : list T;                (* c11,c12,c44 or c11,c12,c13,c33,c44,g_vecd2 *)
    el_K_diag : list T;
    el_K_sdax3 : T;
    el_g_vecd2 : T;
    el_K_bulkMod : T;
    el_K_gmod : T
  }.

  Definition cubic_nParams := 3%nat.   (* ECMech_evptn.h:51 *)
  Definition hexag_nParams := 6%nat.   (* ECMech_evptn.h:234 *)
  Definition iTvecHex := 1%nat.        (* ECMech_evptn.h:402 *)

  (* ECMech_evptn.h:59-78 *)
  Definition cubic_setParams (p : list T) : Elast :=
    let c11 := get p 0 in let c12 := get p 1 in let c44 := get p 2 in
    let K_vecds_s := c11 + two * c12 in
    {| el_hex := false; el_pars := [c11; c12; c44];
       el_K_diag := [c11 - c12; c11 - c12; two * c44; two * c44; two * c44];
       el_K_sdax3 := zero; el_g_vecd2 := zero;
       el_K_bulkMod := onethird * K_vecds_s;
       el_K_gmod := (two * c11 - two * c12 + six * c44) * nlit 2 (-1) |}.

  (* ECMech_evptn.h:242-268 *)
  Definition hexag_setParams (p : list T) : Elast :=
    let c11 := get p 0 in let c12 := get p 1 in let c13 := get p 2 in
    let c33 := get p 3 in let c44 := get p 4 in let g := get p 5 in
    let K_diag := [ c11 - c12;
                    c11 * onethird + c12 * onethird - fourthirds * c13 + twothird * c33;
                    c11 - c12; two * c44; two * c44 ] in
    let K_vecds_s := twothird * c11 + twothird * c12 + fourthirds * c13 + c33 * onethird in
    {| el_hex := true; el_pars := [c11; c12; c13; c33; c44; g];
       el_K_diag := K_diag;
       el_K_sdax3 := sqr2 * (- c11 - c12 + c13 + c33) * onethird;
       el_g_vecd2 := g;
       el_K_bulkMod := onethird * K_vecds_s;
       el_K_gmod := nlit 5 (-1) * nlit 2 (-1) * vecsssum 5 K_diag |}.

  (* ECMech_evptn.h:80-95 and 270-289 *)
  Definition el_getParams (e : Elast) : list T := el_pars e.

  (* ECMech_evptn.h:97-111 (cubic) and 291-316 (hexagonal); arguments in the code's order, tK unused *)
  Definition el_eval (e : Elast) (Ee_vecds : list T) (p_EOS eVref : T) : list T :=
    let ln_J := sqr3 * get Ee_vecds iSvecS in
    let J := nexp ln_J in
    let Ts_bulk := - sqr3 * J * p_EOS in
    let Td := vecsVAdiagB 5 (el_K_diag e) Ee_vecds in
    let T_vecds := Td ++ [Ts_bulk] in
    if el_hex e then
      let T1 := upd T_vecds iTvecHex (get T_vecds iTvecHex + el_K_sdax3 e * get Ee_vecds iSvecS) in
      let T2 := upd T1 iSvecS (get T1 iSvecS + el_K_sdax3 e * get Ee_vecds iTvecHex) in
      upd T2 iTvecHex (get T2 iTvecHex + J * (- el_g_vecd2 e * eVref))
    else T_vecds.

  (* ECMech_evptn.h:121-134 and 321-334 *)
  Definition el_multDTDepsT (e : Elast) (A : list T) (a_V_ri : T) (p : nat) : list T :=
    tab2 5 p (fun iT iP => (get (el_K_diag e) iT * a_V_ri) * get2 p A iT iP).

  (* ECMech_evptn.h:136-145 and 336-345 *)
  Definition el_getCauchy (T_vecds : list T) (detVi : T) : list T :=
    tab 6 (fun i => detVi * get T_vecds i).

  (* ECMech_evptn.h:159-187 and 347-373 *)
  Definition el_multCauchyDif (e : Elast) (A : list T) (detVi a_V_ri : T) : list T :=
    tab2 6 6 (fun i j =>
      if Nat.eqb j 5 then nZ 0
      else if Nat.eqb i 5 then
        (if el_hex e then detVi * a_V_ri * el_K_sdax3 e * get2 5 A iTvecHex j else nZ 0)
      else detVi * a_V_ri * get (el_K_diag e) i * get2 5 A i j).

  (* ECMech_evptn.h:189-196 and 375-382; None models ECMECH_FAIL *)
  Definition el_getBulkMod (e : Elast) : option T :=
    if el_K_bulkMod e <=? nZ 0 then None else Some (el_K_bulkMod e).
  (* ECMech_evptn.h:198-208 and 384-394 *)
  Definition el_getGmod (e : Elast) : option T :=
    if el_K_gmod e <=? nZ 0 then None else Some (el_K_gmod e).
End Elast.
Arguments Elast T : clear implicits.
