(** What a caller sees of a material model: objects obtained through the interface, buffers read
    through the strides, successful calls and histories of calls. *)
From Coq Require Import List ZArith Bool Lia Reals Lra String.
From Verif Require Import Num NumR Hard Evptn MatModel Cases SpecTensor P_Batch3 P_Api P_Builtin.
Import ListNotations.
Local Open Scope R_scope.

(** entry [k] of point [i] in buffer [a] *)
Definition val (s : MM R) (m : Mem R) (a : arr) (i k : nat) : R := nth (stride_of (mm_strides s) a * i + k) (m a) 0.

(** Entries of a point (documentation of getResponseECM, ECMech_matModelBase.h:95-160). *)
Definition vOld s m i := val s m AV i 0.
Definition vNew s m i := val s m AV i 1.
Definition delv s m i := val s m AV i 3.
Definition eInt s m i := val s m AE i 0.
Definition pres s m i := val s m AS i 6.
Definition tKel s m i := val s m AT i 0.
Definition quat s m i : list R := map (fun k => val s m AH i (9 + k)) [0; 1; 2; 3]%nat.
(** symmetric tensor with Voigt components xx yy zz yz xz xy *)
Definition sym6 (f : nat -> R) : M3 := mk3 (f 0%nat) (f 5%nat) (f 4%nat) (f 5%nat) (f 1%nat) (f 3%nat) (f 4%nat) (f 3%nat) (f 2%nat).
Definition devStress s m i : M3 := sym6 (val s m AS i).
Definition devRate s m i : M3 := sym6 (val s m AD i).

Definition dot4 (p q : list R) : R := nth 0 p 0 * nth 0 q 0 + nth 1 p 0 * nth 1 q 0 + nth 2 p 0 * nth 2 q 0 + nth 3 p 0 * nth 3 q 0.

(** One call of getResponseECM: object, oracles, arguments, memory before and after. *)
Record BCall := {
  b_s : MM R; b_solver : Solver R; b_lu : LUSolver R; b_dt : R; b_mtan : bool; b_n : nat;
  b_m : Mem R; b_m1 : Mem R
}.

(** It was made on an object of class [c] reached through the interface, with buffers that are large
    enough, and it returned normally. *)
Definition good {N : Num R} (hs : Solver R) (c : MClass R) (b : BCall) : Prop :=
  builtin hs c /\ reachable c (b_s b) /\ batch_ok c (b_s b) (b_mtan b) (b_n b) (b_m b) /\
  mm_getResponse (b_solver b) (b_lu b) c (b_s b) (b_dt b) (b_mtan b) (Z.of_nat (b_n b)) (b_m b) = (BRet Done, b_m1 b).

(** [b'] is made after [b] and gets the buffers [bufs] as [b] left them; every other buffer may be
    different, the object may have been re-initialised in between, the solver may behave differently *)
Definition follows (bufs : list arr) (b b' : BCall) : Prop :=
  mm_strides (b_s b') = mm_strides (b_s b) /\ b_n b' = b_n b /\ forall a, In a bufs -> b_m b' a = b_m1 b a.

Fixpoint chain {N : Num R} (hs : Solver R) (c : MClass R) (bufs : list arr) (l : list BCall) : Prop :=
  match l with
  | [] => True
  | b :: r => good hs c b /\ match r with [] => True | b' :: _ => follows bufs b b' end /\ chain hs c bufs r
  end.

(** [in_use c s pars]: [pars] are the parameters of the last initFromParams on [s] that had the right
    numbers of options, parameters and strings, and it succeeded *)
Inductive in_use {T} {N : Num T} (c : MClass T) : MM T -> list T -> Prop :=
| in_use_intro s0 o pars st s1 ops :
    reachable c s0 -> mm_init c s0 o pars st = (Done, s1) -> Forall (harmless c) ops ->
    in_use c (fst (mm_run c s1 ops)) pars.

(** work done on point [i] during the call: volume work against the old pressure and the trapezoidal
    deviatoric work *)
Definition work (b : BCall) (i : nat) : R :=
  let s := b_s b in let m := b_m b in let m1 := b_m1 b in
  - delv s m i * pres s m i +
  b_dt b * ((vOld s m i + vNew s m i) / 2) *
    ((inner (devStress s m i) (devRate s m i) + inner (devStress s m1 i) (devRate s m i)) / 2).

(** Meaning of the entries of the parameter vector of the built-in models (ECMech_cases.h and the
    setParams functions): density, heat capacity, tolerance, [c/a for HCP], elastic constants, slip
    kinetics, Grueneisen parameter, cold energy. *)
Definition hexagonal (c : MClass R) : bool := Nat.eqb (c_elNP c) 6.
Definition p_cv (pars : list R) : R := nth 1 pars 0.
Definition p_gamma (c : MClass R) (pars : list R) : R := nth (mm_nParams c - 2) pars 0.
Definition p_ec0 (c : MClass R) (pars : list R) : R := nth (mm_nParams c - 1) pars 0.
(** Voigt bulk modulus *)
Definition p_bulk (c : MClass R) (pars : list R) : R :=
  if hexagonal c then (2 * (nth 4 pars 0 + nth 5 pars 0) + 4 * nth 6 pars 0 + nth 7 pars 0) / 9
  else (nth 3 pars 0 + 2 * nth 4 pars 0) / 3.
(** c13 + c33 - c11 - c12, the coupling of basal deviatoric strain and pressure of hexagonal crystals *)
Definition p_coupling (c : MClass R) (pars : list R) : R :=
  if hexagonal c then nth 6 pars 0 + nth 7 pars 0 - nth 4 pars 0 - nth 5 pars 0 else 0.
