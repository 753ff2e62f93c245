(** Model of evptn::matModel (ECMech_evptnWrap.h) on top of matModelBase (ECMech_matModelBase.h):
    construction, initialisation, inquiry, and the batched response over the caller's buffers. *)
From Coq Require Import List ZArith Bool String DecimalString Decimal DecimalNat.
From Verif Require Import Num Util SlipGeom Eos Hard Elast Evptn.
Import ListNotations.

(** ** The caller's memory *)

(** the buffers passed to getResponseECM, ECMech_evptnWrap.h:286-297 *)
Inductive arr := AD | AW | AV | AE | AS | AH | AT | AB | AM.
  (* defRateV spinV volRatioV eIntV stressSvecPV histV tkelvV sddV mtanSDV *)
(** Infrastructure of the model, no counterpart in the code. *)
Definition arr_eqb (a b : arr) : bool :=
  match a, b with
  | AD, AD | AW, AW | AV, AV | AE, AE | AS, AS | AH, AH | AT, AT | AB, AB | AM, AM => true
  | _, _ => false
  end.

(** How a call ends: normally, by an exception or a failed assert ([outcome]), or by undefined
    behaviour of C++ (access outside a buffer, signed overflow, use of an uninitialised value).
    Infrastructure of the model, no counterpart in the code. *)
Inductive bout := BRet (o : outcome) | BUndef.

Section Mem.
  Context {T : Type} {N : Num T}.

  (** Infrastructure of the model, no counterpart in the code. The contents of the buffers of ECMech_evptnWrap.h:286-297. *)
  Definition Mem := arr -> list T.
  (** Infrastructure of the model, no counterpart in the code. *)
  Definition mset (m : Mem) (a : arr) (l : list T) : Mem := fun b => if arr_eqb a b then l else m b.

  (** One thread of work: single loads and stores. Infrastructure of the model, no counterpart in the code. *)
  Inductive prog :=
  | Ret (o : bout)
  | Read (a : arr) (j : nat) (k : T -> prog)
  | Write (a : arr) (j : nat) (v : T) (p : prog).

  (** Infrastructure of the model, no counterpart in the code. An access outside a buffer is undefined behaviour. *)
  Fixpoint exec (p : prog) (m : Mem) : bout * Mem :=
    match p with
    | Ret o => (o, m)
    | Read a j k => match nth_error (m a) j with Some v => exec (k v) m | None => (BUndef, m) end
    | Write a j v p' =>
        if Nat.ltb j (List.length (m a)) then exec p' (mset m a (upd (m a) j v)) else (BUndef, m)
    end.

  (** load [n] consecutive cells / store a list. Infrastructure of the model, no counterpart in the code. *)
  Fixpoint readL (a : arr) (j n : nat) (k : list T -> prog) : prog :=
    match n with
    | O => k []
    | S n' => Read a j (fun v => readL a (S j) n' (fun l => k (v :: l)))
    end.
  Fixpoint writeL (a : arr) (j : nat) (l : list T) (p : prog) : prog :=
    match l with
    | [] => p
    | v :: r => Write a j v (writeL a (S j) r p)
    end.
End Mem.
Arguments Mem T : clear implicits.
Arguments prog T : clear implicits.

(** ** Addresses: an [unsigned int] stride times an [int] index is computed modulo 2^32;
    ECMech_evptnWrap.h:303-310, 321-329, 348-356, 372-380 *)
Definition addr (stride i : nat) : nat := Z.to_nat ((Z.of_nat stride * Z.of_nat i) mod 2 ^ 32).
(** [ecmech::nsvec2 * i] is a product of ints: undefined when it exceeds INT_MAX;
    ECMech_evptnWrap.h:316, 344, 367 *)
Definition mtan_addr (i : nat) : option nat :=
  if (36 * Z.of_nat i <=? 2147483647)%Z then Some (36 * i)%nat else None.

(** indices into the stride vector, ECMech_const.h:57-65 *)
Definition st_def_rate := 0%nat. Definition st_spin := 1%nat. Definition st_vol_ratio := 2%nat.
Definition st_int_eng := 3%nat. Definition st_stress := 4%nat. Definition st_history := 5%nat.
Definition st_tkelv := 6%nat. Definition st_sdd := 7%nat.
Definition gstride (s : list nat) (k : nat) : nat := nth k s 0%nat.

Section MM.
  Context {T : Type} {N : Num T}.
  Local Open Scope num_scope.

  (** The work for one point: the body of the RAJA loops, ECMech_evptnWrap.h:315-334.  The order of the
      loads and stores inside the body is fixed here (inputs, then outputs); the proofs about
      interleavings only use which cells it touches. *)
  Definition pointProg (solver : Solver T) (lu : LUSolver T) (mat : Mat T) (dt tol : T)
      (strides : list nat) (nH nslip : nat) (mtan : bool) (i : nat) : prog T :=
    let oD := addr (gstride strides st_def_rate) i in
    let oW := addr (gstride strides st_spin) i in
    let oV := addr (gstride strides st_vol_ratio) i in
    let oE := addr (gstride strides st_int_eng) i in
    let oS := addr (gstride strides st_stress) i in
    let oH := addr (gstride strides st_history) i in
    let oT := addr (gstride strides st_tkelv) i in
    let oB := addr (gstride strides st_sdd) i in
    let body (oM : nat) (mt0 : option (list T)) : prog T :=
      readL AD oD 7 (fun d => readL AW oW 3 (fun w => readL AV oV 4 (fun vr =>
      readL AE oE 1 (fun e => readL AS oS 7 (fun s => readL AH oH (numHist nH nslip) (fun h =>
      readL AT oT 1 (fun t => readL AB oB 2 (fun b =>
        let '(o, pt) := getResponseSngl solver lu mat dt tol d w vr
            {| pt_eInt := e; pt_stress := s; pt_hist := h; pt_tkelv := get t 0; pt_sdd := b; pt_mtan := mt0 |} in
        writeL AT oT [pt_tkelv pt] (writeL AM oM (match pt_mtan pt with Some l => l | None => [] end)
          (writeL AH oH (pt_hist pt) (writeL AS oS (pt_stress pt) (writeL AE oE (pt_eInt pt)
            (writeL AB oB (pt_sdd pt) (Ret (BRet o))))))))))))))) in
    if mtan then
      match mtan_addr i with
      | None => Ret BUndef
      | Some oM => readL AM oM 36 (fun mt => body oM (Some mt))
      end
    else body 0%nat None.

  (** RAJA::loop_exec, ECMech_evptnWrap.h:369: indices in order; an exception ends the loop *)
  Fixpoint runSeq (body : nat -> prog T) (is : list nat) (m : Mem T) : bout * Mem T :=
    match is with
    | [] => (BRet Done, m)
    | i :: r => match exec (body i) m with
                | (BRet Done, m') => runSeq body r m'
                | x => x
                end
    end.

  (** ** Template arguments of matModel *)
  (* one entry of the vectors names, vals, plot, state of getHistInfo, ECMech_evptnWrap.h:392-404 *)
  Definition HistEntry : Type := (string * T * bool * bool)%type.   (* name, initial value, plot, state *)
  Record MClass := {
    c_nslip : nat; c_nH : nat;
    c_sgNP : nat; c_sgSet : list T -> option (SlipGeom T);                       (* None: ECMECH_FAIL *)
    c_elNP : nat; c_elSet : list T -> Elast T;
    c_kinNP : nat; c_kinSet : list T -> option (Kinetics T * list HistEntry);    (* None: failed assert *)
    c_iso : bool
  }.

  (* ECMech_evptnWrap.h:32-36 *)
  Definition mm_nParams (c : MClass) : nat := 3 + c_sgNP c + c_kinNP c + c_elNP c + (eos_nParams - 3).
  (* ECMech_evptn.h:30-40 via ECMech_evptnWrap.h:28 *)
  Definition mm_numHist (c : MClass) : nat := numHist (c_nH c) (c_nslip c).

  Inductive Exec := CPU | GPU | OPENMP.

  (** Members, ECMech_evptnWrap.h:435-453 and ECMech_matModelBase.h:23-26.  None stands for a
      member that no statement has set yet. *)
  Record MM := {
    mm_complete : bool; mm_rho0 : T; mm_cvav : T; mm_v0 : T; mm_e0 : T; mm_bulkRef : option T;
    mm_out : Z; mm_accel : Exec;
    mm_sg : option (SlipGeom T); mm_kin : option (Kinetics T); mm_el : option (Elast T); mm_eos : option (Eos T);
    mm_tol : option T; mm_strides : list nat; mm_rhv : list HistEntry;
    mm_opts : list Z; mm_pars : list T; mm_strs : list string
  }.

  (* ECMech_matModelBase.h:30-39 and member construction *)
  Definition mm_base (strides : list nat) : MM :=
    {| mm_complete := false; mm_rho0 := - one; mm_cvav := - one; mm_v0 := - one; mm_e0 := - one;
       mm_bulkRef := Some (- one); mm_out := 0; mm_accel := CPU;
       mm_sg := None; mm_kin := None; mm_el := None; mm_eos := None; mm_tol := None;
       mm_strides := strides; mm_rhv := []; mm_opts := []; mm_pars := []; mm_strs := [] |}.
  (* ECMech_evptnWrap.h:40-53 *)
  Definition mm_new (c : MClass) : MM := mm_base [7; 3; 4; 1; 7; mm_numHist c; 1; 2]%nat.
  (* ECMech_evptnWrap.h:57-152; the order of the checks does not matter for the outcome *)
  Definition mm_newStrides (c : MClass) (strides : list nat) (len : nat) : option MM :=
    if negb (Nat.eqb len 8) then None else
    if Nat.ltb (gstride strides st_def_rate) 7 then None else
    if Nat.ltb (gstride strides st_spin) 3 then None else
    if Nat.ltb (gstride strides st_vol_ratio) 4 then None else
    if Nat.ltb (gstride strides st_int_eng) 1 then None else
    if Nat.ltb (gstride strides st_stress) 7 then None else
    if Nat.ltb (gstride strides st_history) (mm_numHist c) then None else
    if Nat.ltb (gstride strides st_tkelv) 1 then None else
    if Nat.ltb (gstride strides st_sdd) 2 then None else
    Some (mm_base (firstn len strides)).

  (** [os << i] for a non-negative int *)
  Definition dec (n : nat) : string := NilEmpty.string_of_uint (Nat.to_uint n).

  (* ECMech_evptnWrap.h:216-262 (without ECMECH_USE_DPEFF) *)
  Definition mm_histInfo (c : MClass) (kinH : list HistEntry) : list HistEntry :=
    ([ ("shrate_eff", nZ 0, true, true); ("shr_eff", nZ 0, true, true);
       ("flow_str", nZ 0, true, false); ("n_feval", nZ 0, true, false) ]%string
     ++ map (fun i => (("t" ++ dec (i + 1))%string, nZ 0, true, true)) (seq 0 5)
     ++ map (fun i => (("quat_" ++ dec (i + 1))%string, (if Nat.eqb i 0 then nZ 1 else nZ 0), true, true)) (seq 0 4)
     ++ kinH
     ++ map (fun i => (("shrate_" ++ dec (i + 1))%string, nZ 0, true, true)) (seq 0 (c_nslip c)))%list.

  (* the members _opts, _pars, _strs assigned, ECMech_evptnWrap.h:164-275 *)
  Definition with_vecs (s : MM) opts pars strs : MM :=
    {| mm_complete := mm_complete s; mm_rho0 := mm_rho0 s; mm_cvav := mm_cvav s; mm_v0 := mm_v0 s; mm_e0 := mm_e0 s;
       mm_bulkRef := mm_bulkRef s; mm_out := mm_out s; mm_accel := mm_accel s;
       mm_sg := mm_sg s; mm_kin := mm_kin s; mm_el := mm_el s; mm_eos := mm_eos s; mm_tol := mm_tol s;
       mm_strides := mm_strides s; mm_rhv := mm_rhv s; mm_opts := opts; mm_pars := pars; mm_strs := strs |}.
  (* the members _rho0, _cvav, _tolerance assigned, ECMech_evptnWrap.h:164-275 *)
  Definition with_scalars (s : MM) rho0 cvav tol : MM :=
    {| mm_complete := mm_complete s; mm_rho0 := rho0; mm_cvav := cvav; mm_v0 := mm_v0 s; mm_e0 := mm_e0 s;
       mm_bulkRef := mm_bulkRef s; mm_out := mm_out s; mm_accel := mm_accel s;
       mm_sg := mm_sg s; mm_kin := mm_kin s; mm_el := mm_el s; mm_eos := mm_eos s; mm_tol := tol;
       mm_strides := mm_strides s; mm_rhv := mm_rhv s; mm_opts := mm_opts s; mm_pars := mm_pars s; mm_strs := mm_strs s |}.
  Definition with_parts (s : MM) sg el kin eos v0 e0 rhv : MM :=
    {| mm_complete := mm_complete s; mm_rho0 := mm_rho0 s; mm_cvav := mm_cvav s; mm_v0 := v0; mm_e0 := e0;
       mm_bulkRef := mm_bulkRef s; mm_out := mm_out s; mm_accel := mm_accel s;
       mm_sg := sg; mm_kin := kin; mm_el := el; mm_eos := eos; mm_tol := mm_tol s;
       mm_strides := mm_strides s; mm_rhv := rhv; mm_opts := mm_opts s; mm_pars := mm_pars s; mm_strs := mm_strs s |}.

  (* ECMech_evptnWrap.h:160-271.  If a setParams fails half way the component keeps its old value here. *)
  Definition mm_init (c : MClass) (s : MM) (opts : list Z) (pars : list T) (strs : list string) : outcome * MM :=
    let s1 := with_vecs s opts pars strs in
    if negb (Nat.eqb (List.length pars) (mm_nParams c)) then (Failed, s1) else
    if negb (Nat.eqb (List.length opts) 0) then (Failed, s1) else
    if Nat.ltb 1 (List.length strs) then (Failed, s1) else
    let s2 := with_scalars s1 (get pars 0) (get pars 1) (Some (get pars 2)) in
    let i1 := 3%nat in
    let i2 := (i1 + c_sgNP c)%nat in
    let i3 := (i2 + c_elNP c)%nat in
    let i4 := (i3 + c_kinNP c)%nat in
    match c_sgSet c (sub pars i1 (c_sgNP c)) with
    | None => (Failed, s2)
    | Some sg =>
      let el := c_elSet c (sub pars i2 (c_elNP c)) in
      match c_kinSet c (sub pars i3 (c_kinNP c)) with
      | None => (AssertFailed, with_parts s2 (Some sg) (Some el) (mm_kin s2) (mm_eos s2) (mm_v0 s2) (mm_e0 s2) (mm_rhv s2))
      | Some (kin, kinH) =>
        match el_getBulkMod el with
        | None => (Failed, with_parts s2 (Some sg) (Some el) (Some kin) (mm_eos s2) (mm_v0 s2) (mm_e0 s2) (mm_rhv s2))
        | Some bulk =>
          let eos := eos_setParams (c_iso c) ([get pars 0; bulk; get pars 1] ++ sub pars i4 (eos_nParams - 3)) in
          let '(_, _, e0, v0) := eos_getInfo in
          let rhv := mm_histInfo c kinH in
          let s3 := with_parts s2 (Some sg) (Some el) (Some kin) (Some eos) v0 e0 rhv in
          if negb (Nat.eqb (List.length rhv) (mm_numHist c)) then (Failed, s3) else (Done, s3)
        end
      end
    end.

  (* ECMech_evptnWrap.h:275-282 *)
  Definition mm_getParams (s : MM) : list Z * list T * list string := (mm_opts s, mm_pars s, mm_strs s).
  (* ECMech_evptnWrap.h:392-403 *)
  Definition mm_getHistInfo (c : MClass) (s : MM) : option (list HistEntry) :=
    if Nat.eqb (List.length (mm_rhv s)) (mm_numHist c) then Some (mm_rhv s) else None.
  (* ECMech_evptnWrap.h:406-408 *)
  Definition mm_getNumHist (c : MClass) : nat := mm_numHist c.
  (* ECMech_matModelBase.h:210-215 *)
  Definition mm_getRhoRef (s : MM) : option T := if mm_rho0 s <? nZ 0 then None else Some (mm_rho0 s).
  (* ECMech_evptnWrap.h:411-415 *)
  Definition mm_doComplete (s : MM) : MM :=
    {| mm_complete := true; mm_rho0 := mm_rho0 s; mm_cvav := mm_cvav s; mm_v0 := mm_v0 s; mm_e0 := mm_e0 s;
       mm_bulkRef := option_map getBulkRef (mm_eos s); mm_out := mm_out s; mm_accel := mm_accel s;
       mm_sg := mm_sg s; mm_kin := mm_kin s; mm_el := mm_el s; mm_eos := mm_eos s; mm_tol := mm_tol s;
       mm_strides := mm_strides s; mm_rhv := mm_rhv s; mm_opts := mm_opts s; mm_pars := mm_pars s; mm_strs := mm_strs s |}.
  (* ECMech_matModelBase.h:202-204 *)
  Definition mm_setExec (s : MM) (a : Exec) : MM :=
    {| mm_complete := mm_complete s; mm_rho0 := mm_rho0 s; mm_cvav := mm_cvav s; mm_v0 := mm_v0 s; mm_e0 := mm_e0 s;
       mm_bulkRef := mm_bulkRef s; mm_out := mm_out s; mm_accel := a;
       mm_sg := mm_sg s; mm_kin := mm_kin s; mm_el := mm_el s; mm_eos := mm_eos s; mm_tol := mm_tol s;
       mm_strides := mm_strides s; mm_rhv := mm_rhv s; mm_opts := mm_opts s; mm_pars := mm_pars s; mm_strs := mm_strs s |}.
  (* ECMech_matModelBase.h:218 *)
  Definition mm_setOut (s : MM) (l : Z) : MM :=
    {| mm_complete := mm_complete s; mm_rho0 := mm_rho0 s; mm_cvav := mm_cvav s; mm_v0 := mm_v0 s; mm_e0 := mm_e0 s;
       mm_bulkRef := mm_bulkRef s; mm_out := l; mm_accel := mm_accel s;
       mm_sg := mm_sg s; mm_kin := mm_kin s; mm_el := mm_el s; mm_eos := mm_eos s; mm_tol := mm_tol s;
       mm_strides := mm_strides s; mm_rhv := mm_rhv s; mm_opts := mm_opts s; mm_pars := mm_pars s; mm_strs := mm_strs s |}.

  (** The four template objects together with the tolerance, when all have been set. *)
  Definition mm_ready (s : MM) : option (Mat T * T) :=
    match mm_sg s, mm_kin s, mm_el s, mm_eos s, mm_tol s with
    | Some sg, Some kin, Some el, Some eos, Some tol =>
        Some ({| m_sg := sg; m_kin := kin; m_el := el; m_eos := eos |}, tol)
    | _, _, _, _, _ => None
    end.

  (* ECMech_evptnWrap.h:286-388 with the sequential strategy; nPassed <= 0 gives an empty range *)
  Definition mm_getResponse (solver : Solver T) (lu : LUSolver T) (c : MClass) (s : MM) (dt : T)
      (mtan : bool) (n : Z) (m : Mem T) : bout * Mem T :=
    if negb (mm_complete s) then (BRet Failed, m) else
    match seq 0 (Z.to_nat n) with
    | [] => (BRet Done, m)
    | is =>
      match mm_ready s with
      | None => (BUndef, m)
      | Some (mat, tol) =>
          runSeq (pointProg solver lu mat dt tol (mm_strides s) (c_nH c) (c_nslip c) mtan) is m
      end
    end.

  (* ECMech_evptnWrap.h:313-331 (OpenMP) and 334-366 (device): the same loop body as the sequential
     strategy, one task per point, in any order and interleaved in any way.  None when the object is not
     complete or a component was never set.  The host-to-device capture of the members is not modelled. *)
  Definition mm_tasks (solver : Solver T) (lu : LUSolver T) (c : MClass) (s : MM) (dt : T)
      (mtan : bool) (n : Z) : option (list (prog T)) :=
    if negb (mm_complete s) then None else
    match mm_ready s with
    | None => None
    | Some (mat, tol) =>
        Some (map (pointProg solver lu mat dt tol (mm_strides s) (c_nH c) (c_nslip c) mtan) (seq 0 (Z.to_nat n)))
    end.

  (** ** The object as a state machine over API calls: ECMech_matModelBase.h:44-233, ECMech_evptnWrap.h:164-417 *)
  Inductive Op :=
  | OInit (opts : list Z) (pars : list T) (strs : list string)
  | OGetParams | OGetHistInfo | OGetNumHist | OGetRhoRef | OIsComplete | OLog
  | OComplete | OSetExec (a : Exec) | OSetOut (l : Z)
  | OResponse (solver : Solver T) (lu : LUSolver T) (dt : T) (mtan : bool) (n : Z) (m : Mem T).

  (** what the calls return, ECMech_matModelBase.h:44-233 *)
  Inductive Res :=
  | ROut (o : outcome)                 (* a void call: normal return or failure *)
  | RParams (p : list Z * list T * list string)
  | RHist (h : list HistEntry)
  | RCount (n : nat)
  | RRho (r : T)
  | RBool (b : bool)
  | RMem (o : bout) (m : Mem T).

  Definition mm_step (c : MClass) (s : MM) (op : Op) : MM * Res :=
    match op with
    | OInit o p st => let '(r, s') := mm_init c s o p st in (s', ROut r)
    | OGetParams => (s, RParams (mm_getParams s))
    | OLog => (s, RParams (mm_getParams s))         (* ECMech_matModelBase.h:61-71: prints these vectors *)
    | OGetHistInfo => (s, match mm_getHistInfo c s with Some h => RHist h | None => ROut Failed end)
    | OGetNumHist => (s, RCount (mm_getNumHist c))
    | OGetRhoRef => (s, match mm_getRhoRef s with Some r => RRho r | None => ROut Failed end)
    | OIsComplete => (s, RBool (mm_complete s))
    | OComplete => (mm_doComplete s, ROut Done)
    | OSetExec a => (mm_setExec s a, ROut Done)
    | OSetOut l => (mm_setOut s l, ROut Done)
    | OResponse sv lu dt mt n m => let '(o, m') := mm_getResponse sv lu c s dt mt n m in (s, RMem o m')
    end.

  Fixpoint mm_run (c : MClass) (s : MM) (ops : list Op) : MM * list Res :=
    match ops with
    | [] => (s, [])
    | op :: r => let '(s1, x) := mm_step c s op in let '(s2, xs) := mm_run c s1 r in (s2, x :: xs)
    end.
End MM.
Arguments MClass T : clear implicits.
Arguments MM T : clear implicits.
Arguments Op T : clear implicits.
Arguments Res T : clear implicits.
Arguments HistEntry T : clear implicits.
