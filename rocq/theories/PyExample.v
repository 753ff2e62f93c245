(** Model of the example of the Python module: pyecmech/example.py (the helper class [ECMechProb] and the loop over time steps),
    and of the numpy functions it uses.  All arrays are arrays of doubles (see PyBind.v for other arguments). *)
From Coq Require Import List ZArith Bool String.
From Verif Require Import Num Util Hard Evptn MatModel Cases Py.
Import ListNotations.

Section Example.
  Context {T : Type} {N : Num T}.

  (** numpy: [np.atleast_2d] of an array of rank 0 ([reshape(1, 1)]), 1 ([a[np.newaxis, :]], a view) or more *)
  Definition atleast_2d (a : PyArr T) : PyArr T :=
    match py_shape a with
    | [] => {| py_base := py_base a; py_off := py_off a; py_shape := [1; 1]%Z; py_strides := [1; 1]%Z |}
    | [n] => {| py_base := py_base a; py_off := py_off a; py_shape := [1%Z; n]; py_strides := 0%Z :: py_strides a |}
    | _ => a
    end.
  (** numpy: [np.zeros((n, w))], [np.asarray] of a list of floats, and the array numpy makes of a float;
      used at example.py:51, 60, 85-102 *)
  Definition np_zeros2 (n w : Z) : PyArr T :=
    {| py_base := repeat (nZ 0) (Z.to_nat (n * w)); py_off := 0; py_shape := [n; w]; py_strides := [w; 1%Z] |}.
  Definition np_list (l : list T) : PyArr T := {| py_base := l; py_off := 0; py_shape := [Z.of_nat (List.length l)]; py_strides := [1%Z] |}.
  Definition np_float (x : T) : PyArr T := {| py_base := [x]; py_off := 0; py_shape := []; py_strides := [] |}.

  (* example.py:41-50: the arrays handed to the module; [eInt.shape[0]] *)
  Definition prob_npts (args : arr -> PyArr T) : Z := nth 0 (py_shape (atleast_2d (args AE))) 0%Z.
  Definition prob_args (args : arr -> PyArr T) : arr -> PyArr T := fun x =>
    match x with AB => np_zeros2 (prob_npts args) 2 | AM => args AM | _ => atleast_2d (args x) end.
  (* example.py:26-52 ECMechProb.solve.  The arrays AE, AS, AH, AT, AB afterwards are the ones returned; those of the arguments
     that were promoted are views of the argument's memory. *)
  Definition prob_solve (solver : Solver T) (lu : LUSolver T) (c : MClass T) (s : MM T) (dt : T) (args : arr -> PyArr T) : bout * (arr -> PyArr T) :=
    py_solve solver lu c s dt (prob_args args) (prob_npts args).

  (* example.py:112-117 *)
  Definition ex_volume (dt : T) (d v : list T) : list T :=
    let v0 := get v 1 in
    let v1 := nmul v0 (nexp (nmul (get d 6) dt)) in
    let v3 := nsub v1 v0 in
    [v0; v1; ndiv v3 (nmul (nmul dt (nlit 5 (-1))) (nadd v0 v1)); v3].

  (** the variables of the script that live through the loop: the lists under [d_svec_kk_sm], [w_veccp_sm] and [volRatio], and
      the arrays [eInt], [stressSvecP], [hist], [tkelv] (and [sdd], which is not read) *)
  Record Ex := { ex_d : list T; ex_w : list T; ex_v : list T; ex_a : arr -> PyArr T }.
  (* example.py:82-109, for deformation rate [d], spin [w] (zeros there) and temperature [t] (300. there); None: no history information *)
  Definition ex_start (c : MClass T) (s : MM T) (d w : list T) (t : T) : option Ex :=
    match py_getHistoryInfo c s with
    | None => None
    | Some h => Some {| ex_d := d; ex_w := w; ex_v := [nZ 1; nZ 1; nZ 0; nZ 0];
        ex_a := fun x => match x with
          | AE => np_list [nZ 0]
          | AS => np_list (repeat (nZ 0) 7)
          | AH => np_list (map (fun e : HistEntry T => snd (fst (fst e))) h)
          | AT => np_float t
          | _ => np_list []
          end |}
    end.
  (* example.py:112-120, one turn of the loop.  The lists are what the promoted views hold after the call. *)
  Definition ex_turn (solver : Solver T) (lu : LUSolver T) (c : MClass T) (s : MM T) (dt : T) (e : Ex) : bout * Ex :=
    let v := ex_volume dt (ex_d e) (ex_v e) in
    let '(o, a') := prob_solve solver lu c s dt (fun x => match x with
      | AD => np_list (ex_d e) | AW => np_list (ex_w e) | AV => np_list v | _ => ex_a e x end) in
    (o, {| ex_d := py_base (a' AD); ex_w := py_base (a' AW); ex_v := py_base (a' AV); ex_a := a' |}).
  (* example.py:111: [k] turns; an exception ends the script *)
  Fixpoint ex_loop (solver : Solver T) (lu : LUSolver T) (c : MClass T) (s : MM T) (dt : T) (k : nat) (e : Ex) : bout * Ex :=
    match k with
    | O => (BRet Done, e)
    | S k' => match ex_turn solver lu c s dt e with
              | (BRet Done, e') => ex_loop solver lu c s dt k' e'
              | (o, e') => (o, e')
              end
    end.
  (* example.py:84-91 *)
  Definition ex_rate : list T :=
    let d_tr := ndiv (nZ 1) (nZ 3) in
    map (fun x => nmul x (nlit 1 (-3))) [nsub (nZ 1) d_tr; nopp d_tr; nopp d_tr; nZ 0; nZ 0; nZ 0; nmul (nZ 3) d_tr].
End Example.
Arguments Ex T : clear implicits.
