(** Model of ECMech_slipgeom.h. *)
From Coq Require Import List ZArith Bool.
From Verif Require Import Num Util.
Import ListNotations.

Section SlipGeom.
  Context {T : Type} {N : Num T}.
  Local Open Scope num_scope.

  (** What a SlipGeom object holds after setParams: number of systems and the
      arrays behind getP() (ntvec * nslip) and getQ() (nwvec * nslip). ECMech_slipgeom.h:108-113, 301-306 *)
  Record SlipGeom := { sg_nslip : nat; sg_P : list T; sg_Q : list T }.

  (** [&(vecs[iSlip * ndim])] *)
  Definition row3 (a : list T) (i : nat) : list T := sub a (i * 3) 3.

  (** P and Q of one system: ECMech_slipgeom.h:29-34 *)
  Definition schmidPQ (mVec sVec : list T) : list T * list T := matToPQ (vecsMaTb 3 sVec mVec).

  (* ECMech_slipgeom.h:12-47; None models the ECMECH_FAIL of line 24 (built without NO_CHECKS).
     Columns already stored when a later system fails are not represented. *)
  Definition fillFromMS (mVecs sVecs : list T) (nslip : nat) : option SlipGeom :=
    if existsb (fun iS => idp_eps_sqrt <? nabs (vecsyadotb 3 (row3 mVecs iS) (row3 sVecs iS))) (seq 0 nslip)
    then None
    else Some
      {| sg_nslip := nslip;
         sg_P := tab2 5 nslip (fun iT iS => get (fst (schmidPQ (row3 mVecs iS) (row3 sVecs iS))) iT);
         sg_Q := tab2 3 nslip (fun iW iS => get (snd (schmidPQ (row3 mVecs iS) (row3 sVecs iS))) iW) |}.

  (* ECMech_slipgeom.h:69-82 *)
  Definition fcc_m : list T :=
    [ sqr3i; sqr3i; sqr3i;
      sqr3i; sqr3i; sqr3i;
      sqr3i; sqr3i; sqr3i;
      - sqr3i; sqr3i; sqr3i;
      - sqr3i; sqr3i; sqr3i;
      - sqr3i; sqr3i; sqr3i;
      - sqr3i; - sqr3i; sqr3i;
      - sqr3i; - sqr3i; sqr3i;
      - sqr3i; - sqr3i; sqr3i;
      sqr3i; - sqr3i; sqr3i;
      sqr3i; - sqr3i; sqr3i;
      sqr3i; - sqr3i; sqr3i ].
  (* ECMech_slipgeom.h:83-96 *)
  Definition fcc_s : list T :=
    [ zero; sqr2i; - sqr2i;
      - sqr2i; zero; sqr2i;
      sqr2i; - sqr2i; zero;
      - sqr2i; zero; - sqr2i;
      zero; - sqr2i; sqr2i;
      sqr2i; sqr2i; zero;
      zero; - sqr2i; - sqr2i;
      sqr2i; zero; sqr2i;
      - sqr2i; sqr2i; zero;
      sqr2i; zero; - sqr2i;
      zero; sqr2i; sqr2i;
      - sqr2i; - sqr2i; zero ].
  (* ECMech_slipgeom.h:60-100 *)
  Definition slipGeomFCC : option SlipGeom := fillFromMS fcc_m fcc_s 12.

  (* ECMech_slipgeom.h:157-184 : the base family has the FCC tables with m and s exchanged *)
  Definition bcc_m0 : list T :=
    [ zero; sqr2i; - sqr2i;
      - sqr2i; zero; sqr2i;
      sqr2i; - sqr2i; zero;
      - sqr2i; zero; - sqr2i;
      zero; - sqr2i; sqr2i;
      sqr2i; sqr2i; zero;
      zero; - sqr2i; - sqr2i;
      sqr2i; zero; sqr2i;
      - sqr2i; sqr2i; zero;
      sqr2i; zero; - sqr2i;
      zero; sqr2i; sqr2i;
      - sqr2i; - sqr2i; zero ].
  (* ECMech_slipgeom.h:171-184 and 209-222 (identical tables) *)
  Definition bcc_s0 : list T :=
    [ sqr3i; sqr3i; sqr3i;
      sqr3i; sqr3i; sqr3i;
      sqr3i; sqr3i; sqr3i;
      - sqr3i; sqr3i; sqr3i;
      - sqr3i; sqr3i; sqr3i;
      - sqr3i; sqr3i; sqr3i;
      - sqr3i; - sqr3i; sqr3i;
      - sqr3i; - sqr3i; sqr3i;
      - sqr3i; - sqr3i; sqr3i;
      sqr3i; - sqr3i; sqr3i;
      sqr3i; - sqr3i; sqr3i;
      sqr3i; - sqr3i; sqr3i ].
  (* ECMech_slipgeom.h:190-208 *)
  Definition bcc_mA : list T :=
    let twSqr6i := nZ 2 * sqr6i in
    [ - twSqr6i; sqr6i; sqr6i;
      sqr6i; - twSqr6i; sqr6i;
      sqr6i; sqr6i; - twSqr6i;
      - sqr6i; - twSqr6i; sqr6i;
      twSqr6i; sqr6i; sqr6i;
      - sqr6i; sqr6i; - twSqr6i;
      twSqr6i; - sqr6i; sqr6i;
      - sqr6i; twSqr6i; sqr6i;
      - sqr6i; - sqr6i; - twSqr6i;
      sqr6i; twSqr6i; sqr6i;
      - twSqr6i; - sqr6i; sqr6i;
      sqr6i; - sqr6i; - twSqr6i ].
  (* ECMech_slipgeom.h:228-260 *)
  Definition bcc_mB : list T :=
    let a := nZ 1 / nsqrt (nZ 14) in
    let b := nZ 2 / nsqrt (nZ 14) in
    let c := nZ 3 / nsqrt (nZ 14) in
    [ c; - a; - b;
      - b; c; - a;
      - a; - b; c;
      a; c; - b;
      - c; - b; - a;
      b; - a; c;
      - c; a; - b;
      b; - c; - a;
      a; b; c;
      - a; - c; - b;
      c; b; - a;
      - b; a; c;
      - a; c; b;
      c; - b; a;
      - b; - a; - c;
      - c; - a; b;
      b; c; a;
      a; - b; - c;
      a; - c; b;
      - c; b; a;
      b; a; - c;
      c; a; b;
      - b; - c; a;
      - a; b; - c ].
  (* ECMech_slipgeom.h:261-286 *)
  Definition bcc_sB : list T :=
    [ sqr3i; sqr3i; sqr3i;
      sqr3i; sqr3i; sqr3i;
      sqr3i; sqr3i; sqr3i;
      - sqr3i; sqr3i; sqr3i;
      - sqr3i; sqr3i; sqr3i;
      - sqr3i; sqr3i; sqr3i;
      - sqr3i; - sqr3i; sqr3i;
      - sqr3i; - sqr3i; sqr3i;
      - sqr3i; - sqr3i; sqr3i;
      sqr3i; - sqr3i; sqr3i;
      sqr3i; - sqr3i; sqr3i;
      sqr3i; - sqr3i; sqr3i;
      sqr3i; sqr3i; - sqr3i;
      sqr3i; sqr3i; - sqr3i;
      sqr3i; sqr3i; - sqr3i;
      - sqr3i; sqr3i; - sqr3i;
      - sqr3i; sqr3i; - sqr3i;
      - sqr3i; sqr3i; - sqr3i;
      - sqr3i; - sqr3i; - sqr3i;
      - sqr3i; - sqr3i; - sqr3i;
      - sqr3i; - sqr3i; - sqr3i;
      sqr3i; - sqr3i; - sqr3i;
      sqr3i; - sqr3i; - sqr3i;
      sqr3i; - sqr3i; - sqr3i ].

  (* ECMech_slipgeom.h:120-141: the template argument is asserted to be 12, 24 or 48 *)
  Definition bcc_nslip_ok (n : nat) : bool := Nat.eqb n 12 || Nat.eqb n 24 || Nat.eqb n 48.
  (* ECMech_slipgeom.h:148-289 *)
  Definition bcc_m (nslip : nat) : list T :=
    bcc_m0 ++ (if Nat.leb 24 nslip then bcc_mA else []) ++ (if Nat.leb 48 nslip then bcc_mB else []).
  Definition bcc_s (nslip : nat) : list T :=
    bcc_s0 ++ (if Nat.leb 24 nslip then bcc_s0 else []) ++ (if Nat.leb 48 nslip then bcc_sB else []).
  (* ECMech_slipgeom.h:138-293; None also when the assertion of the constructor (line 139) fails *)
  Definition slipGeomBCC (nslip : nat) : option SlipGeom :=
    if bcc_nslip_ok nslip then fillFromMS (bcc_m nslip) (bcc_s nslip) nslip else None.

  (** Rows of the HCP tables given the two pyramidal systems. ECMech_slipgeom.h:367-424 *)
  Definition hcp_m (my : list T) (mypp : T) (mc : list T) (mcpp : T) : list T :=
    let y0 := get my 0 in let y1 := get my 1 in let y2 := get my 2 in
    let c0 := get mc 0 in let c1 := get mc 1 in let c2 := get mc 2 in
    [ zero; zero; one;
      zero; zero; one;
      zero; zero; one;

      - halfsqr3; onehalf; zero;
      - halfsqr3; - onehalf; zero;
      zero; - one; zero;

      y0; y1; y2;
      y0; - y1; - y2;
      y0; y1; - y2;
      - y0; y1; - y2;
      zero; mypp; - y2;
      zero; - mypp; - y2;

      c0; c1; c2;
      c0; - c1; - c2;
      c0; c1; - c2;
      zero; mcpp; - c2;
      - c0; c1; - c2;
      - c0; - c1; - c2;
      zero; - mcpp; - c2;
      zero; mcpp; c2;
      - c0; c1; c2;
      - c0; - c1; c2;
      c0; - c1; c2;
      zero; - mcpp; c2 ].
  (* ECMech_slipgeom.h:396-424 *)
  Definition hcp_s (sy sc : list T) (scpp : T) : list T :=
    let y0 := get sy 0 in let y1 := get sy 1 in
    let c0 := get sc 0 in let c1 := get sc 1 in let c2 := get sc 2 in
    [ onehalf; halfsqr3; zero;
      onehalf; - halfsqr3; zero;
      one; zero; zero;

      onehalf; halfsqr3; zero;
      onehalf; - halfsqr3; zero;
      one; zero; zero;

      y0; y1; zero;
      y0; - y1; zero;
      - y0; - y1; zero;
      - y0; y1; zero;
      - one; zero; zero;
      one; zero; zero;

      c0; c1; c2;
      c0; - c1; - c2;
      - scpp; zero; - c2;
      c0; c1; - c2;
      - c0; c1; - c2;
      scpp; zero; - c2;
      - c0; - c1; - c2;
      - c0; c1; c2;
      scpp; zero; c2;
      - c0; - c1; c2;
      - scpp; zero; c2;
      c0; - c1; c2 ].

  (** The m and s tables for a given c/a; ECMech_slipgeom.h:342-424 *)
  Definition hcp_tables (cOverA : T) : option (list T * list T) :=
    match miller_to_orthog_sngl [one; zero; - one; one] [one; - two; one; zero] cOverA with
    | None => None
    | Some (m_ya, s_ya) =>
      let m_ya_pp := nsqrt (nZ 1 - get m_ya 2 * get m_ya 2) in
      match miller_to_orthog_sngl [one; zero; - one; one] [- one; - one; two; three] cOverA with
      | None => None
      | Some (m_y1ca, s_y1ca) =>
        let m_y1ca_pp := nsqrt (nZ 1 - get m_y1ca 2 * get m_y1ca 2) in
        let s_y1ca_pp := nsqrt (nZ 1 - get s_y1ca 2 * get s_y1ca 2) in
        Some (hcp_m m_ya m_ya_pp m_y1ca m_y1ca_pp, hcp_s s_ya s_y1ca s_y1ca_pp)
      end
    end.
  (* ECMech_slipgeom.h:332-430 *)
  Definition slipGeomHCP (cOverA : T) : option SlipGeom :=
    match hcp_tables cOverA with
    | None => None
    | Some (m, s) => fillFromMS m s 24
    end.
End SlipGeom.
Arguments SlipGeom T : clear implicits.
