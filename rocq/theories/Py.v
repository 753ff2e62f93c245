(** Model of the Python module: pyecmech/ecmechpy.cpp, pyecmech/ecmech_classes.hpp. *)
From Coq Require Import List ZArith Bool String.
From Verif Require Import Num Util SlipGeom Eos Hard KinVoce KinKMBalD Elast Evptn MatModel Cases.
Import ListNotations.

(** How a call from Python ends: a value, an exception or failed assert, undefined behaviour of C++. *)
Inductive PyRes (A : Type) := POk (a : A) | PFail (o : outcome) | PUndef.
Arguments POk {A} a. Arguments PFail {A} o. Arguments PUndef {A}.

Section Py.
  Context {T : Type} {N : Num T}.
  Local Open Scope num_scope.

  (** ** Arrays *)
  (** pybind11::array_t<double> (ecmechpy.hpp:11) seen through request(): the allocated doubles, the index of the double
      [ptr] points to, shape, and strides counted in doubles.  Two arrays never share memory here; an argument of another
      element type, which pybind11 copies, is the subject of PyBind.v. *)
  Record PyArr := { py_base : list T; py_off : nat; py_shape : list Z; py_strides : list Z }.
  (** the doubles from [ptr] on: the member ptr of the buffer_info of request(), ecmechpy.hpp:11 *)
  Definition py_ptr (a : PyArr) : list T := skipn (py_off a) (py_base a).
  (** the array after the doubles from [ptr] on have become [l] *)
  Definition py_put (a : PyArr) (l : list T) : PyArr :=
    {| py_base := firstn (py_off a) (py_base a) ++ l; py_off := py_off a; py_shape := py_shape a; py_strides := py_strides a |}.

  (* ecmechpy.cpp:35-56; false: it throws *)
  Definition check2D_dim (a : PyArr) (dim1 dim2 : Z) : bool :=
    match py_shape a with
    | [s0; s1] => negb (negb (s0 =? dim1)%Z || negb (s1 =? dim2)%Z)
    | _ => false
    end.

  (* ecmechpy.cpp:61-76 and 169-184: [int lparam = shape[0]] doubles from [ptr] on, whatever the stride;
     None: it throws.  The conversion of the extent to int is not modelled. *)
  Definition py_params (a : PyArr) : option (PyRes (list T)) :=
    match py_shape a with
    | [s0] => let n := Z.to_nat s0 in
              Some (if Nat.ltb (List.length (py_ptr a)) n then PUndef else POk (firstn n (py_ptr a)))
    | _ => None
    end.

  Section Obj.
    Variable hsolver : Solver T.

    (* ecmechpy.cpp:82-107: the names; the five of the factory go through makeMatModel, two are constructed here *)
    Definition py_model (name : string) : option (MClass T * MM T) :=
      if String.eqb name "voce_fcc_norm" then makeMatModel hsolver "evptn_FCC_A"
      else if String.eqb name "voce_nl_fcc_norm" then makeMatModel hsolver "evptn_FCC_AH"
      else if String.eqb name "voce_bcc_norm" then Some (cls_BCC_B hsolver, mm_new (cls_BCC_B hsolver))
      else if String.eqb name "voce_nl_bcc_norm" then Some (cls_BCC_BH hsolver, mm_new (cls_BCC_BH hsolver))
      else if String.eqb name "km_bal_dd_fcc_norm" then makeMatModel hsolver "evptn_FCC_B"
      else if String.eqb name "km_bal_dd_bcc_norm" then makeMatModel hsolver "evptn_BCC_A"
      else if String.eqb name "km_bal_dd_hcp_norm" then makeMatModel hsolver "evptn_HCP_A"
      else None.

    (* ecmechpy.cpp:58-113 *)
    Definition py_new (name : string) (params : PyArr) : PyRes (MClass T * MM T) :=
      match py_params params with
      | None => PFail Failed
      | Some PUndef => PUndef
      | Some (PFail o) => PFail o
      | Some (POk pars) =>
        match py_model name with
        | None => PFail Failed
        | Some (c, s) =>
          match mm_init c s [] pars [] with
          | (Done, s1) => POk (c, mm_doComplete (mm_setExec s1 CPU))
          | (o, _) => PFail o
          end
        end
      end.
  End Obj.

  (* ecmechpy.cpp:115-128 *)
  Definition py_getHistoryInfo (c : MClass T) (s : MM T) : option (list (HistEntry T)) := mm_getHistInfo c s.
  (* ecmechpy.hpp:24 *)
  Definition py_getNumberHistory (c : MClass T) : nat := mm_getNumHist c.

  (* ecmechpy.cpp:130-162.  The arrays are named like the buffers of getResponseECM; AM is not used. *)
  Definition py_solve (solver : Solver T) (lu : LUSolver T) (c : MClass T) (s : MM T) (dt : T)
      (a : arr -> PyArr) (nPassed : Z) : bout * (arr -> PyArr) :=
    if negb (check2D_dim (a AD) nPassed 7) then (BRet Failed, a) else
    if negb (check2D_dim (a AW) nPassed 3) then (BRet Failed, a) else
    if negb (check2D_dim (a AV) nPassed 4) then (BRet Failed, a) else
    if negb (check2D_dim (a AE) nPassed 1) then (BRet Failed, a) else
    if negb (check2D_dim (a AS) nPassed 7) then (BRet Failed, a) else
    if negb (check2D_dim (a AH) nPassed (Z.of_nat (mm_getNumHist c))) then (BRet Failed, a) else
    if negb (check2D_dim (a AT) nPassed 1) then (BRet Failed, a) else
    if negb (check2D_dim (a AB) nPassed 2) then (BRet Failed, a) else
    let '(o, m) := mm_getResponse solver lu c s dt false nPassed (fun b => py_ptr (a b)) in
    (o, fun b => py_put (a b) (m b)).

  (** ** The developer interface (ECMECH_PYDEV): pyEvptn_norm, ecmech_classes.hpp:87-415 *)

  (** what setup copies or computes; members at ecmech_classes.hpp:62-84 *)
  Record DevIn := {
    di_dt : T; di_d : list T; di_d_vecd : list T; di_quat_n : list T;
    di_tkelv : T; di_pEOS : T; di_bulkNew : T; di_hard_u : list T;
    di_prob : Prob T; di_last : option (Ev T)          (* by-products of the last computeRJ *)
  }.
  (** members at ecmech_classes.hpp:62-84; [dv_eDevTot] and [dv_halfVMidDt] are set by no constructor and not by setup *)
  Record Dev := {
    dv_mat : Mat T; dv_rhv : list (HistEntry T);
    dv_eDevTot : T; dv_halfVMidDt : T; dv_eNew : T; dv_in : option DevIn
  }.

  (* ecmech_classes.hpp:406-409: the parameters of the slip geometry are not counted *)
  Definition dev_nParams (c : MClass T) : nat := 3 + c_kinNP c + c_elNP c + (eos_nParams - 3).

  (* ecmech_classes.hpp:141-180 *)
  Definition dev_histInfo (c : MClass T) (kinH : list (HistEntry T)) : list (HistEntry T) :=
    ([ ("effective_shearing_rate", nZ 0, true, true); ("effective_shearing", nZ 0, true, true);
       ("flow_strength", nZ 0, true, false); ("n_function_evals", nZ 0, true, false) ]%string
     ++ map (fun i => (("deviatoric_elastic_strain_" ++ dec (i + 1))%string, nZ 0, true, true)) (seq 0 5)
     ++ map (fun i => (("quat_" ++ dec (i + 1))%string, (if Nat.eqb i 0 then nZ 1 else nZ 0), true, true)) (seq 0 4)
     ++ kinH
     ++ map (fun i => (("shearing_rate_" ++ dec (i + 1))%string, nZ 0, true, true)) (seq 0 (c_nslip c)))%list.

  (* ecmech_classes.hpp:92-186.  [j1 j2 j3]: whatever the uninitialised members m_eDevTot, m_halfVMidDt, m_eNew hold.
     Copying parameters from beyond the end of the vector is undefined behaviour. *)
  Definition dev_make (c : MClass T) (pars : list T) (j1 j2 j3 : T) : PyRes Dev :=
    if negb (Nat.eqb (List.length pars) (dev_nParams c)) then PFail Failed else
    let i1 := 3%nat in
    let i2 := (i1 + c_sgNP c)%nat in
    let i3 := (i2 + c_elNP c)%nat in
    let i4 := (i3 + c_kinNP c)%nat in
    let i5 := (i4 + (eos_nParams - 3))%nat in
    match c_sgSet c (sub pars i1 (c_sgNP c)) with
    | None => PFail Failed
    | Some sg =>
      let el := c_elSet c (sub pars i2 (c_elNP c)) in
      match c_kinSet c (sub pars i3 (c_kinNP c)) with
      | None => PFail AssertFailed
      | Some (kin, kinH) =>
        match el_getBulkMod el with
        | None => PFail Failed
        | Some bulk =>
          if Nat.ltb (List.length pars) i5 then PUndef else
          let eos := eos_setParams (c_iso c) ([get pars 0; bulk; get pars 1] ++ sub pars i4 (eos_nParams - 3)) in
          if negb (Nat.eqb i5 (dev_nParams c)) then PFail Failed else
          let rhv := dev_histInfo c kinH in
          if negb (Nat.eqb (List.length rhv) (mm_numHist c)) then PFail Failed else
          POk {| dv_mat := {| m_sg := sg; m_kin := kin; m_el := el; m_eos := eos |}; dv_rhv := rhv;
                 dv_eDevTot := j1; dv_halfVMidDt := j2; dv_eNew := j3; dv_in := None |}
        end
      end
    end.

  (* ecmechpy.cpp:166-204 *)
  Definition dev_new (hsolver : Solver T) (name : string) (params : PyArr) (j1 j2 j3 : T) : PyRes (MClass T * Dev) :=
    match py_params params with
    | None => PFail Failed
    | Some PUndef => PUndef
    | Some (PFail o) => PFail o
    | Some (POk pars) =>
      match py_model hsolver name with        (* the same names, ecmechpy.cpp:187-203 *)
      | None => PFail Failed
      | Some (c, _) => match dev_make c pars j1 j2 j3 with POk v => POk (c, v) | PFail o => PFail o | PUndef => PUndef end
      end
    end.

  (* ecmech_classes.hpp:190-292 through ecmechpy.cpp:221-240.  The arguments are the doubles from [ptr] on; nothing is
     checked.  The tolerance is stored and not used, the temperature argument is only read.  When the hardness update or
     an assert of the new problem fails the object is left without a problem here (the code keeps the old one, which then
     sees a mixture of old and new members); using it is reported as undefined. *)
  Definition dev_setup (v : Dev) (dt : T) (d w volRatio eInt stress hist : list T) : outcome * Dev :=
    let m := dv_mat v in
    let nH := k_nH (m_kin m) in
    let d_vecd := svecToVecd d in
    let e_n := sub hist iHistLbE 5 in
    let quat_n := vecsVNormalize 4 (sub hist iHistLbQ 4) in
    let eOld := get eInt 0 in
    let pOld := get stress 6 in
    let tkelv := snd (evalPT (m_eos m) (get volRatio 0) eOld) in
    let u := updateSimple (m_eos m) (get volRatio 1) (get volRatio 3) eOld pOld in
    let with_in x := {| dv_mat := m; dv_rhv := dv_rhv v; dv_eDevTot := dv_eDevTot v; dv_halfVMidDt := dv_halfVMidDt v;
                        dv_eNew := u_eNew u; dv_in := x |} in
    match k_updateH (m_kin m) (sub hist iHistLbH nH) dt (sub hist (iHistLbGdot nH) (sg_nslip (m_sg m))) with
    | None => (Failed, with_in None)
    | Some (h_u, _) =>
      if negb (k_valsOk (m_kin m) (u_press u) tkelv h_u) then (AssertFailed, with_in None) else
      (Done, with_in (Some
        {| di_dt := dt; di_d := d; di_d_vecd := d_vecd; di_quat_n := quat_n; di_tkelv := tkelv;
           di_pEOS := u_press u; di_bulkNew := u_bulkNew u; di_hard_u := h_u;
           di_prob := mkProb (m_sg m) (m_kin m) (m_el m) dt (get volRatio 1) (u_eNew u) (u_press u) tkelv h_u e_n quat_n d_vecd w;
           di_last := None |}))
    end.

  (* ecmech_classes.hpp:294-299; None: there is no problem *)
  Definition dev_computeRJ (v : Dev) (x : list T) : option (list T * list T * Dev) :=
    match dv_in v with
    | None => None
    | Some i =>
      Some (fst (computeRJ (di_prob i) x), snd (computeRJ (di_prob i) x),
        {| dv_mat := dv_mat v; dv_rhv := dv_rhv v; dv_eDevTot := dv_eDevTot v; dv_halfVMidDt := dv_halfVMidDt v;
           dv_eNew := dv_eNew v;
           dv_in := Some {| di_dt := di_dt i; di_d := di_d i; di_d_vecd := di_d_vecd i; di_quat_n := di_quat_n i;
                            di_tkelv := di_tkelv i; di_pEOS := di_pEOS i; di_bulkNew := di_bulkNew i;
                            di_hard_u := di_hard_u i; di_prob := di_prob i; di_last := Some (evalEv (di_prob i) x) |} |})
    end.

  (* ecmech_classes.hpp:301-391; None: no problem, or no computeRJ yet (its results are not initialised).
     [pt_mtan] of the argument is not used. *)
  Definition dev_getState (v : Dev) (x : list T) (pt : Pt T) : option (outcome * Dev * Pt T) :=
    match dv_in v with
    | None => None
    | Some i =>
      match di_last i with
      | None => None
      | Some ev =>
        let m := dv_mat v in
        let p := di_prob i in
        let nH := k_nH (m_kin m) in
        let '(e_u, quat_u) := stateFromX p x in
        let h1 := updl (pt_hist pt) iHistLbE e_u in
        let h2 := updl h1 iHistLbQ quat_u in
        let h3 := updl h2 iHistLbH (di_hard_u i) in
        let h4 := updl h3 (iHistLbGdot nH) (ev_gdot ev) in
        let h5 := upd h4 iHistA_shrateEff (ev_shrateEff ev) in
        let h6 := upd h5 iHistA_shrEff (get h5 iHistA_shrEff + ev_shrateEff ev * di_dt i) in
        let dEff := vecd_Deff (di_d_vecd i) in
        let flow := if idp_tiny_sqrt <? dEff then ev_disRate ev / dEff else pb_hdn_scale p in
        let h7 := upd h6 iHistA_flowStr flow in
        let h8 := upd h7 iHistA_nFEval (nZ 0) in
        let stress' := stress_out quat_u (elastNEtoC p e_u) in
        let eDevTot := dv_eDevTot v + dv_halfVMidDt v * vecsInnerSvecDev stress' (di_d i) in
        let h9 := if vecsyadotb 4 quat_u (di_quat_n i) <? zero
                  then updl h8 iHistLbQ (tab 4 (fun k => - get quat_u k)) else h8 in
        let v' eNew := {| dv_mat := m; dv_rhv := dv_rhv v; dv_eDevTot := eDevTot; dv_halfVMidDt := dv_halfVMidDt v;
                          dv_eNew := eNew; dv_in := dv_in v |} in
        let st := updl (pt_stress pt) 0 stress' in
        match el_getGmod (m_el m) with
        | None => Some (Failed, v' (dv_eNew v),
                    {| pt_eInt := pt_eInt pt; pt_stress := st; pt_hist := h9; pt_tkelv := pt_tkelv pt; pt_sdd := pt_sdd pt;
                       pt_mtan := pt_mtan pt |})
        | Some gmod =>
          let eNew := dv_eNew v + eDevTot in
          Some (Done, v' eNew,
                    {| pt_eInt := upd (pt_eInt pt) 0 eNew; pt_stress := st; pt_hist := h9; pt_tkelv := di_tkelv i;
                       pt_sdd := upd (upd (pt_sdd pt) i_sdd_bulk (di_bulkNew i)) i_sdd_gmod gmod; pt_mtan := pt_mtan pt |})
        end
      end
    end.

  (* ecmech_classes.hpp:19-30, ecmechpy.cpp:205-219 *)
  Definition dev_getHistoryInfo (v : Dev) : list (HistEntry T) := dv_rhv v.

  (** calls of the developer interface, one after the other; ecmechpy.cpp:205-266 *)
  Inductive DevOp :=
  | DSetup (dt : T) (d w volRatio eInt stress hist : list T)
  | DRJ (x : list T)
  | DState (x : list T) (pt : Pt T).
  (** the object after a call; None: undefined *)
  Definition dev_step (v : Dev) (op : DevOp) : option Dev :=
    match op with
    | DSetup dt d w vr e s h => Some (snd (dev_setup v dt d w vr e s h))
    | DRJ x => option_map snd (dev_computeRJ v x)
    | DState x pt => option_map (fun r => snd (fst r)) (dev_getState v x pt)
    end.
  Fixpoint dev_run (v : Dev) (ops : list DevOp) : option Dev :=
    match ops with
    | [] => Some v
    | op :: r => match dev_step v op with None => None | Some v' => dev_run v' r end
    end.
End Py.
Arguments PyArr T : clear implicits.
Arguments Dev T : clear implicits.
Arguments DevIn T : clear implicits.
Arguments DevOp T : clear implicits.
