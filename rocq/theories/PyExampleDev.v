(** Model of the example of the developer interface of the Python module: pyecmech/example-dev.py, the helper class
    [ECMechProbDev]. *)
From Coq Require Import List ZArith Bool String.
From Verif Require Import Num Util Hard Evptn MatModel Cases Py PyBind.
Import ListNotations.

Section ExampleDev.
  Context {T : Type} {N : Num T}.

  (* example-dev.py:71-78 ECMechProbDev.computeRJ: fresh arrays, filled by the object *)
  Definition devex_rj (v : Dev T) (x : list T) : list T * list T :=
    match dev_computeRJ v x with Some (f, J, _) => (f, J) | None => ([], []) end.

  (** scipy.optimize.root with [jac=True] (example-dev.py:59): [sol.x], and the points at which the function was called, in
      order.  Any function; [sol.success] is not looked at. *)
  Record RootOut := { ro_x : list T; ro_evals : list (list T) }.
  Definition Root := (list T -> list T * list T) -> T -> list T -> RootOut.

  (* example-dev.py:57-62: one pass of the loop, on the row [r] of the arrays.  The rows are without gaps ([np.squeeze] of a row
     is a view that the module reads and writes from its first entry on).  [prob] of line 62 is the object itself (line 109).
     None: computeRJ or getState without a problem, or getState before any computeRJ.  The [tolerance] that
     setup gets is kept by the object and read by nothing (ecmech_classes.hpp:203). *)
  Definition devex_point (root : Root) (v : Dev T) (dt tol : T) (r : arr -> list T) : option (outcome * Dev T * (arr -> list T)) :=
    match dev_setup v dt (r AD) (r AW) (r AV) (r AE) (r AS) (r AH) with
    | (Done, v1) =>
      let sol := root (devex_rj v1) tol (repeat (nZ 0) 8) in
      match dev_run v1 (map DRJ (ro_evals sol)) with
      | None => None
      | Some v2 =>
        match bound_getState v2 (ro_x sol) (r AE) (r AS) (r AH) (get (r AT) 0) (r AB) with
        | None => None
        | Some (o, v3, (e, st, h, t, sd)) =>
          Some (o, v3, fun x => match x with AE => e | AS => st | AH => h | AT => [t] | AB => sd | _ => r x end)
        end
      end
    | (o, v1) => Some (o, v1, r)
    end.

  (* example-dev.py:52 *)
  Definition devex_sdd (r : arr -> list T) (x : arr) : list T := match x with AB => repeat (nZ 0) 2 | _ => r x end.

  (* example-dev.py:56-64: the loop; an exception leaves the rows not yet reached as they are.  Lines 43-51 (promotion of 1D
     arrays, number of rows) are those of example.py, see PyExample.v: here [rows] are the rows after them. *)
  Fixpoint devex_loop (root : Root) (v : Dev T) (dt tol : T) (rows : list (arr -> list T)) : option (outcome * Dev T * list (arr -> list T)) :=
    match rows with
    | [] => Some (Done, v, [])
    | r :: rs =>
      match devex_point root v dt tol r with
      | None => None
      | Some (Done, v', r') =>
        match devex_loop root v' dt tol rs with
        | None => None
        | Some (o, v'', rs') => Some (o, v'', r' :: rs')
        end
      | Some (o, v', r') => Some (o, v', r' :: rs)
      end
    end.
  (* example-dev.py:28-64 ECMechProbDev.solve *)
  Definition devex_solve (root : Root) (v : Dev T) (dt tol : T) (rows : list (arr -> list T)) :=
    devex_loop root v dt tol (map devex_sdd rows).
End ExampleDev.
Arguments RootOut T : clear implicits.
Arguments Root T : clear implicits.
