(** Specification for C69: one crystal of a run of the mini-app next to a crystal of another run. *)
From Coq Require Import List ZArith Reals.
From Verif Require Import Num NumR Hard Evptn MatModel Miniapp SpecTensor SpecApi SpecMini.
Import ListNotations.
Local Open Scope R_scope.

(** crystal [q] of [a] and crystal [p] of [b] are alike: velocity gradient, stress, and stored variables (history, volume, energy) *)
Definition alike (nst : nat) (a : App R) (q : nat) (b : App R) (p : nat) : Prop :=
  velGrad a q = velGrad b p /\ cauchy a q = cauchy b p /\ forall k, (k < nst)%nat -> stored nst a q k = stored nst b p k.
(** the same without the shear rate, flow strength and counter of the step before *)
Definition alike_before (nst : nat) (a : App R) (q : nat) (b : App R) (p : nat) : Prop :=
  velGrad a q = velGrad b p /\ cauchy a q = cauchy b p /\ forall k, (k < nst)%nat -> ~ In k [0; 2; 3]%nat -> stored nst a q k = stored nst b p k.
(** orientation number [q] of those read *)
Definition crystal {T} (ori : list T) (q : nat) : list T := firstn 4 (skipn (4 * q) ori).
(** [a'] is a possible result of a run of the mini-app: [n] crystals with the orientations [ori], [N] time steps that all
    succeed; the memory it starts from is arbitrary (of the allocated size), and the loops visit the crystals in any order *)
Definition computes {T} {NT : Num T} (solver : Solver T) (lu : LUSolver T) (c : MClass T) (s : MM T) (nst : nat) (dt : T) (n : nat) (ori : list T) (N : nat) (a' : App T) : Prop :=
  exists a qs orders a1, sized nst n a /\ visits n qs /\ orders_ok n orders /\ length orders = N /\
    app_start c s ori n qs nst a = Some a1 /\ app_run solver lu c s nst dt n orders a1 = (BRet Done, a').
(** few enough crystals for 32-bit indices *)
Definition few (n : nat) : Prop := (36 * (Z.of_nat n - 1) <= 2147483647)%Z.
(** in any arithmetic: crystal [q] of [a] and crystal [p] of [b] have the same entries in the three arrays *)
Definition same_stress {T} (a : App T) (q : nat) (b : App T) (p : nat) : Prop :=
  forall k, (k < 6)%nat -> nth_error (ap_stress a) (6 * q + k) = nth_error (ap_stress b) (6 * p + k) /\ nth_error (ap_stress a) (6 * q + k) <> None.
Definition same_crystal {T} (nst : nat) (a : App T) (q : nat) (b : App T) (p : nat) : Prop :=
  (forall k, (k < 9)%nat -> nth_error (ap_vgrad a) (9 * q + k) = nth_error (ap_vgrad b) (9 * p + k)) /\ same_stress a q b p /\
  forall k, (k < nst)%nat -> nth_error (ap_m a AH) (nst * q + k) = nth_error (ap_m b AH) (nst * p + k) /\ nth_error (ap_m a AH) (nst * q + k) <> None.
