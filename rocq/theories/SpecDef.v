(** What it means that a computation is defined (C42): run on defined numbers over [option R], it gives the defined number
    that it gives over R. *)
From Coq Require Import List ZArith Bool Reals.
From Verif Require Import Num NumR NumO Util SlipGeom Eos Hard KinVoce KinKMBalD Elast Evptn MatModel Cases.
Import ListNotations.
Local Open Scope R_scope.

(** arrays of defined numbers *)
Definition L (l : list R) : list (option R) := map (@Some R) l.
Definition L2 (p : list R * list R) := (L (fst p), L (snd p)).

Definition liftSg (g : SlipGeom R) : SlipGeom (option R) := {| sg_nslip := sg_nslip g; sg_P := L (sg_P g); sg_Q := L (sg_Q g) |}.
Definition liftEos (e : Eos R) : Eos (option R) :=
  {| eos_iso := eos_iso e; eos_rho0 := Some (eos_rho0 e); eos_bulk := Some (eos_bulk e); eos_cvav := Some (eos_cvav e);
     eos_gamma := Some (eos_gamma e); eos_ec0 := Some (eos_ec0 e); eos_dtde := Some (eos_dtde e); eos_tK0 := Some (eos_tK0 e) |}.
Definition liftEl (e : Elast R) : Elast (option R) :=
  {| el_hex := el_hex e; el_pars := L (el_pars e); el_K_diag := L (el_K_diag e); el_K_sdax3 := Some (el_K_sdax3 e);
     el_g_vecd2 := Some (el_g_vecd2 e); el_K_bulkMod := Some (el_K_bulkMod e); el_K_gmod := Some (el_K_gmod e) |}.
Definition liftUpd (d : Upd R) : Upd (option R) :=
  {| u_press := Some (u_press d); u_tK := Some (u_tK d); u_eNew := Some (u_eNew d); u_bulkNew := Some (u_bulkNew d);
     u_dpde := Some (u_dpde d); u_dpdv := Some (u_dpdv d); u_dtde := Some (u_dtde d) |}.
Definition liftSO (r : SolveOut R) : SolveOut (option R) :=
  {| so_converged := so_converged r; so_x := L (so_x r); so_xlast := L (so_xlast r); so_nfev := so_nfev r; so_nfev_rj := so_nfev_rj r |}.
Definition liftPt (p : Pt R) : Pt (option R) :=
  {| pt_eInt := L (pt_eInt p); pt_stress := L (pt_stress p); pt_hist := L (pt_hist p); pt_tkelv := Some (pt_tkelv p);
     pt_sdd := L (pt_sdd p); pt_mtan := option_map L (pt_mtan p) |}.

(** [so] and [sr] are the same solver, which does nothing undefined itself: on defined functions of defined numbers it gives the
    same answer, with as many unknowns as asked for *)
Definition same_solver (so : Solver (option R)) (sr : Solver R) : Prop := forall n rjo rjr tol it x0,
  (forall x, length x = n -> rjo (L x) = L2 (rjr x)) -> length x0 = n ->
  so n rjo (Some tol) it (L x0) = liftSO (sr n rjr tol it x0) /\
  length (so_x (sr n rjr tol it x0)) = n /\ length (so_xlast (sr n rjr tol it x0)) = n.
Definition same_lu (lo : LUSolver (option R)) (lr : LUSolver R) : Prop := forall n a b k,
  lo n (L a) (L b) k = option_map L (lr n a b k) /\ forall x, lr n a b k = Some x -> length x = (k * n)%nat.

(** ** Inputs for which every operation is meant to be defined *)
(** parameters of the power-law kinetics with Voce hardening: nonzero rate sensitivity, positive reference rates; with the nonlinear
    law, an exponent 1, 2, 3, ... *)
Definition voce_valid (nl : bool) (P : list R) : Prop :=
  nth 1 P 0 <> 0 /\ 0 < nth 2 P 0 /\ 0 < nth (if nl then 8 else 7) P 0 /\ (nl = true -> exists k, nth 6 P 0 = INR (S k)).
(** parameters of the dislocation-density kinetics with [n] groups of constants *)
Definition km_valid (ga : bool) (n : nat) (P : list R) : Prop :=
  0 < nth 0 P 0 /\ 0 < nth 1 P 0 /\ (forall v, (v < n)%nat -> 0 < nth (2 + v) P 0) /\
  0 < nth (3 + n) P 0 /\ 0 < nth (4 + n) P 0 /\ 0 < nth (5 + n) P 0 /\ 0 < nth (6 + n) P 0 /\ 0 < nth (7 + n) P 0 /\
  (if ga then 0 < nth (2 + n) P 0 /\ forall v, (v < n)%nat -> 0 <= nth (8 + n + v) P 0 /\ 0 <= nth (8 + 2 * n + v) P 0
   else 0 <= nth (2 + n) P 0) /\
  0 < nth (11 + 3 * n) P 0 /\ 0 < nth (12 + 3 * n) P 0.
