(** The energy handed back, as a function of the deviatoric stress handed in. *)
From Coq Require Import List ZArith Reals.
From Verif Require Import Num NumR Hard Evptn MatModel Cases SpecApi P_Batch3 P_Builtin SpecState.
Import ListNotations.
Local Open Scope R_scope.

(** the number in entry [k] of the array [a] at the point of the call, as handed in *)
Definition given (v : Visit R) (a : arr) (k : nat) : R := match entry (v_s v) (v_m v) a (v_i v) k with Some x => x | None => 0 end.
(** the number handed back *)
Definition returned (v : Visit R) (a : arr) (k : nat) : R := match entry (v_s v) (v_m1 v) a (v_i v) k with Some x => x | None => 0 end.
(** half of the step's work, per reference volume, of a stress whose entries are [s]: a quarter of the sum of the old and new volumes,
    times the time step, times s : d *)
Definition half_work (v : Visit R) (s : nat -> R) : R :=
  / 4 * (given v AV 0 + given v AV 1) * v_dt v *
  (s 0%nat * given v AD 0 + s 1%nat * given v AD 1 + s 2%nat * given v AD 2 + 2 * (s 3%nat * given v AD 3 + s 4%nat * given v AD 4 + s 5%nat * given v AD 5)).
