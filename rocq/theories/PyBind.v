(** Model of the binding of the Python module: pyecmech/ecmech_pybind11.cpp, and what pybind11 does with the arguments. *)
From Coq Require Import List ZArith Bool String.
From Verif Require Import Num Util SlipGeom Eos Hard KinVoce KinKMBalD Elast Evptn MatModel Cases Py.
Import ListNotations.

Section Bind.
  Context {T : Type} {N : Num T}.
  (** objects that are no numpy arrays of (aligned, native) doubles: arrays of another element type, lists, ... *)
  Variable Obj : Type.
  (** numpy's conversion of such an object into a new array of doubles (pybind11's [array_t<double>], which has the flag
      [forcecast]; ecmechpy.hpp:11); None: it cannot be converted and pybind11 raises TypeError.  Any function. *)
  Variable to_double : Obj -> option (PyArr T).

  (** an argument: a numpy array of doubles, with its flag [writeable], or another object; the
      parameters of type array_t<double>, ecmechpy.hpp:11 *)
  Inductive PyArg := ADbl (writeable : bool) (a : PyArr T) | AObj (o : Obj).
  (** what the C++ function gets: the array itself, or a copy (pybind11, for the type at ecmechpy.hpp:11) *)
  Definition arg_load (x : PyArg) : option (PyArr T) := match x with ADbl _ a => Some a | AObj o => to_double o end.
  (** the argument after the C++ function has left [a'] in what it got; the copy is dropped, the flag is not looked at
      ([request()] asks for no writable buffer) *)
  Definition arg_after (x : PyArg) (a' : PyArr T) : PyArg := match x with ADbl w _ => ADbl w a' | AObj o => AObj o end.

  (* ecmech_pybind11.cpp:30-49 *)
  Definition bound_new (hs : Solver T) (name : string) (params : PyArg) : PyRes (MClass T * MM T) :=
    match arg_load params with None => PFail Failed | Some a => py_new hs name a end.

  (** [const int nPassed]: an integer that is no int raises TypeError *)
  Definition is_int (n : Z) : bool := ((- 2 ^ 31 <=? n) && (n <? 2 ^ 31))%Z.
  (* ecmech_pybind11.cpp:63-74: all arguments are converted, then ecmechpy.cpp:130-162 runs; [T] for dt *)
  Definition bound_solve (solver : Solver T) (lu : LUSolver T) (c : MClass T) (s : MM T) (dt : T)
      (args : arr -> PyArg) (nPassed : Z) : bout * (arr -> PyArg) :=
    if negb (is_int nPassed) then (BRet Failed, args) else
    match arg_load (args AD), arg_load (args AW), arg_load (args AV), arg_load (args AE),
          arg_load (args AS), arg_load (args AH), arg_load (args AT), arg_load (args AB) with
    | Some d, Some w, Some v, Some e, Some st, Some h, Some t, Some b =>
      let a x := match x with AD => d | AW => w | AV => v | AE => e | AS => st | AH => h | AT => t | AB => b
                            | AM => {| py_base := []; py_off := 0; py_shape := []; py_strides := [] |} end in
      let '(o, a') := py_solve solver lu c s dt a nPassed in
      (o, fun x => arg_after (args x) (a' x))
    | _, _, _, _, _, _, _, _ => (BRet Failed, args)
    end.

  (* ecmech_pybind11.cpp:123-131 through ecmechpy.cpp:251-264: [double& tkelv] is bound to a variable of pybind11 that holds
     the value of the caller's float; the caller's float [tkelv] stays what it is.  The arrays are arrays of doubles, seen
     from [ptr] on. *)
  Definition bound_getState (v : Dev T) (x eInt stress hist : list T) (tkelv : T) (sdd : list T) :
      option (outcome * Dev T * (list T * list T * list T * T * list T)) :=
    match dev_getState v x {| pt_eInt := eInt; pt_stress := stress; pt_hist := hist; pt_tkelv := tkelv; pt_sdd := sdd; pt_mtan := None |} with
    | None => None
    | Some (o, v', q) => Some (o, v', (pt_eInt q, pt_stress q, pt_hist q, tkelv, pt_sdd q))
    end.
End Bind.
Arguments ADbl {T} {Obj} writeable a.
Arguments AObj {T} {Obj} o.
Arguments arg_load {T} {Obj} to_double x.
Arguments bound_new {T} {N} {Obj} to_double hs name params.
Arguments bound_solve {T} {N} {Obj} to_double solver lu c s dt args nPassed.
