(** Interface to the nonlinear solver and model of ECMech_kinetics.h (hardness update problems). *)
From Coq Require Import List ZArith Bool.
From Verif Require Import Num Util.
Import ListNotations.

(** What the model uses of a [snls::SNLSTrDlDenseG] object after [solve()].  SNLS is not part of
    the repository, so it is an arbitrary function here.  [so_xlast] is the argument of the last
    [computeRJ] call made by the solver: the problem object keeps by-products of that call.
    [so_nfev_rj] is what getNFEvals() returns after one more [solver.computeRJ] (the tangent
    evaluation); the repository does not say whether that call is counted. *)
Record SolveOut (T : Type) := {
  so_converged : bool;
  so_x : list T;
  so_xlast : list T;
  so_nfev : nat;
  so_nfev_rj : nat
}.
Arguments so_converged {T}. Arguments so_x {T}. Arguments so_xlast {T}.
Arguments so_nfev {T}. Arguments so_nfev_rj {T}.

(** Outcome of a call: normal return, ECMECH_FAIL on the host (an exception,
    ECMech_port.h:26-27), or a failed assert() (abort). *)
Inductive outcome := Done | Failed | AssertFailed.

(** [solver n rj tol maxIter x0]: n unknowns, [rj x] gives (residual, Jacobian) *)
Definition Solver (T : Type) := nat -> (list T -> list T * list T) -> T -> nat -> list T -> SolveOut T.

Section Hard.
  Context {T : Type} {N : Num T}.
  Local Open Scope num_scope.

  (** ** One hardness variable: Kinetics_H1Problem, ECMech_kinetics.h:85-144 *)

  (** the rate function getSdot1 with evolVals applied: h -> (sdot, dsdot_ds) *)
  Definition Sdot1 := T -> T * T.

  (* ECMech_kinetics.h:93-102 *)
  Definition h1_x_scale (h_o : T) : T := nmax h_o (nZ 1).
  Definition h1_res_scale (h_o : T) : T := one / h1_x_scale h_o.
  (* ECMech_kinetics.h:108-112 *)
  Definition h1_getHn (h_o : T) (x : list T) : T := h_o + get x 0 * h1_x_scale h_o.
  (* ECMech_kinetics.h:114-137 *)
  Definition h1_computeRJ (sdot1 : Sdot1) (h_o dt : T) (x : list T) : list T * list T :=
    let h_delta := get x 0 * h1_x_scale h_o in
    let h := h_o + h_delta in
    let '(sdot, dsdot_ds) := sdot1 h in
    ([(h_delta - sdot * dt) * h1_res_scale h_o], [one - dsdot_ds * dt]).

  (* ECMech_kinetics.h:149-187; None models ECMECH_FAIL("Solver failed to converge!").
     The caller has already applied getEvolVals to gdot (line 161). *)
  Definition updateH1 (solver : Solver T) (sdot1 : Sdot1) (hs_o dt : T) : option (T * nat) :=
    let r := solver 1%nat (h1_computeRJ sdot1 hs_o dt) (nlit 1 (-10)) 100%nat [nZ 0] in
    if so_converged r then Some (h1_getHn hs_o (so_x r), so_nfev r) else None.

  (** ** Several hardness variables: Kinetics_HNProblem, ECMech_kinetics.h:192-269 *)

  (** h -> (sdot, dsdot_ds), vectors of length n and n*n *)
  Definition SdotN := list T -> list T * list T.

  (* ECMech_kinetics.h:206-210 *)
  Definition hn_x_scale (n : nat) (h_o : list T) : list T := tab n (fun i => nmax (get h_o i) (nZ 1)).
  Definition hn_res_scale (n : nat) (h_o : list T) : list T := tab n (fun i => one / get (hn_x_scale n h_o) i).
  (* ECMech_kinetics.h:217-223 *)
  Definition hn_getHn (n : nat) (h_o x : list T) : list T :=
    tab n (fun i => get h_o i + get x i * get (hn_x_scale n h_o) i).
  (* ECMech_kinetics.h:225-261 *)
  Definition hn_computeRJ (n : nat) (sdotN : SdotN) (h_o : list T) (dt : T) (x : list T) : list T * list T :=
    let xs := hn_x_scale n h_o in
    let rs := hn_res_scale n h_o in
    let h := tab n (fun i => get h_o i + get x i * get xs i) in
    let '(sdot, J) := sdotN h in
    (tab n (fun i => (get x i * get xs i - get sdot i * dt) * get rs i),
     tab2 n n (fun i j =>
       let a := get2 n J i j * (- get xs j * get rs i * dt) in
       if Nat.eqb i j then a + one else a)).
  (* ECMech_kinetics.h:274-312 *)
  Definition updateHN (solver : Solver T) (n : nat) (sdotN : SdotN) (hs_o : list T) (dt : T)
    : option (list T * nat) :=
    let r := solver n (hn_computeRJ n sdotN hs_o dt) (nlit 1 (-10)) 100%nat (tab n (fun _ => nZ 0)) in
    if so_converged r then Some (hn_getHn n hs_o (so_x r), so_nfev r) else None.

  (** ** The Kinetics interface used by the crystal update, ECMech_kinetics.h:18-79 *)
  Record Kinetics := {
    k_nslip : nat;
    k_nH : nat;
    (* getVals(p, tK, h_state): (vals, return value) *)
    k_getVals : T -> T -> list T -> list T * T;
    (* the assert()s executed by getVals hold *)
    k_valsOk : T -> T -> list T -> bool;
    k_getFixedRefRate : list T -> T;
    (* evalGdots(tau, vals): arrays gdot, dgdot_dtau, dgdot_dg *)
    k_evalGdots : list T -> list T -> list T * list T * list T;
    (* updateH(hs_o, dt, gdot) *)
    k_updateH : list T -> T -> list T -> option (list T * nat)
  }.
End Hard.
Arguments Kinetics T : clear implicits.
Arguments Sdot1 T : clear implicits.
Arguments SdotN T : clear implicits.
