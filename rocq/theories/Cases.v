(** Model of ECMech_cases.h and ECMech_cases.cxx: the built-in models and the factory. *)
From Coq Require Import List ZArith Bool String.
From Verif Require Import Num Util SlipGeom Eos Hard KinVoce KinKMBalD Elast Evptn MatModel.
Import ListNotations.

Section Cases.
  Context {T : Type} {N : Num T}.
  (** the nonlinear solver used inside the hardness updates *)
  Variable hsolver : Solver T.

  (** KineticsVocePL<nonlinear> constructed with nslip, then setParams *)
  Definition kinVoce (nonlinear : bool) (nslip : nat) (p : list T) : option (Kinetics T * list (HistEntry T)) :=
    let v := voce_setParams nonlinear p in
    Some (voce_kinetics hsolver v nslip, voce_histInfo v).
  (** KineticsKMBalD<...>: None when an assert of the constructor or of setParams fails *)
  Definition kinKM (ga p1 q1 perSS : bool) (nVPer nslip : nat) (p : list T) : option (Kinetics T * list (HistEntry T)) :=
    let k := km_setParams ga p1 q1 perSS nVPer p in
    if km_ctorOk perSS nVPer nslip && km_paramsOk k then Some (km_kinetics hsolver k nslip, km_histInfo k) else None.

  (* ECMech_cases.h:14-17 *)
  Definition cls_FCC_A : MClass T :=
    {| c_nslip := 12; c_nH := 1; c_sgNP := 0; c_sgSet := fun _ => slipGeomFCC;
       c_elNP := cubic_nParams; c_elSet := cubic_setParams;
       c_kinNP := voce_nParams false; c_kinSet := kinVoce false 12; c_iso := false |}.
  (* ECMech_cases.h:19-22 *)
  Definition cls_FCC_AH : MClass T :=
    {| c_nslip := 12; c_nH := 1; c_sgNP := 0; c_sgSet := fun _ => slipGeomFCC;
       c_elNP := cubic_nParams; c_elSet := cubic_setParams;
       c_kinNP := voce_nParams true; c_kinSet := kinVoce true 12; c_iso := false |}.
  (* ECMech_cases.h:12, 24-27 *)
  Definition cls_FCC_B : MClass T :=
    {| c_nslip := 12; c_nH := 1; c_sgNP := 0; c_sgSet := fun _ => slipGeomFCC;
       c_elNP := cubic_nParams; c_elSet := cubic_setParams;
       c_kinNP := km_nParams 1; c_kinSet := kinKM false false false false 1 12; c_iso := false |}.
  (* ECMech_cases.h:11, 29-33 *)
  Definition cls_BCC_A : MClass T :=
    {| c_nslip := 12; c_nH := 1; c_sgNP := 0; c_sgSet := fun _ => slipGeomBCC 12;
       c_elNP := cubic_nParams; c_elSet := cubic_setParams;
       c_kinNP := km_nParams 1; c_kinSet := kinKM true false false false 1 12; c_iso := false |}.
  (* ECMech_cases.h:35-44; the HCP slip geometry has the parameter c/a *)
  Definition cls_HCP_A : MClass T :=
    {| c_nslip := 24; c_nH := 1; c_sgNP := 1; c_sgSet := fun p => slipGeomHCP (get p 0);
       c_elNP := hexag_nParams; c_elSet := hexag_setParams;
       c_kinNP := km_nParams 24; c_kinSet := kinKM true true true true 24 24; c_iso := false |}.

  (* pyecmech/ecmechpy.cpp:13-15; a model of the Python module only *)
  Definition cls_BCC_B : MClass T :=
    {| c_nslip := 12; c_nH := 1; c_sgNP := 0; c_sgSet := fun _ => slipGeomBCC 12;
       c_elNP := cubic_nParams; c_elSet := cubic_setParams;
       c_kinNP := voce_nParams false; c_kinSet := kinVoce false 12; c_iso := false |}.
  (* pyecmech/ecmechpy.cpp:17-19; a model of the Python module only *)
  Definition cls_BCC_BH : MClass T :=
    {| c_nslip := 12; c_nH := 1; c_sgNP := 0; c_sgSet := fun _ => slipGeomBCC 12;
       c_elNP := cubic_nParams; c_elSet := cubic_setParams;
       c_kinNP := voce_nParams true; c_kinSet := kinVoce true 12; c_iso := false |}.

  (* ECMech_cases.cxx:7-37; None models ECMECH_FAIL *)
  Definition makeMatModel (name : string) : option (MClass T * MM T) :=
    let mk c := Some (c, mm_new c) in
    if String.eqb name "evptn_FCC_A" then mk cls_FCC_A
    else if String.eqb name "evptn_FCC_AH" then mk cls_FCC_AH
    else if String.eqb name "evptn_FCC_B" then mk cls_FCC_B
    else if String.eqb name "evptn_BCC_A" then mk cls_BCC_A
    else if String.eqb name "evptn_HCP_A" then mk cls_HCP_A
    else None.

  (** the models of the factory and the two further ones of the Python module, ECMech_cases.h, ecmech_classes.hpp *)
  Definition builtin (c : MClass T) : Prop :=
    c = cls_FCC_A \/ c = cls_FCC_AH \/ c = cls_FCC_B \/ c = cls_BCC_A \/ c = cls_BCC_B \/ c = cls_BCC_BH \/ c = cls_HCP_A.
End Cases.
