(** What a caller expects of a model object: names and layout of the history, models by name, vectors by
    component. *)
From Coq Require Import List ZArith Bool String Reals.
From Verif Require Import Num NumR Util KinVoce KinKMBalD Hard Evptn MatModel Cases SpecApi P_Api.
Import ListNotations.
Local Open Scope string_scope.
Local Open Scope list_scope.

Definition entry_name {T} (h : HistEntry T) : string := fst (fst (fst h)).
Definition entry_init {T} (h : HistEntry T) : T := snd (fst (fst h)).
Definition entry_plot {T} (h : HistEntry T) : bool := snd (fst h).
Definition entry_state {T} (h : HistEntry T) : bool := snd h.

(** the documented names *)
Definition names12 : list string :=
  ["shrate_1"; "shrate_2"; "shrate_3"; "shrate_4"; "shrate_5"; "shrate_6"; "shrate_7"; "shrate_8"; "shrate_9";
   "shrate_10"; "shrate_11"; "shrate_12"].
Definition names24 : list string := names12 ++
  ["shrate_13"; "shrate_14"; "shrate_15"; "shrate_16"; "shrate_17"; "shrate_18"; "shrate_19"; "shrate_20"; "shrate_21";
   "shrate_22"; "shrate_23"; "shrate_24"].
Definition hist_names (hardness : string) (shrates : list string) : list string :=
  ["shrate_eff"; "shr_eff"; "flow_str"; "n_feval"; "t1"; "t2"; "t3"; "t4"; "t5"; "quat_1"; "quat_2"; "quat_3"; "quat_4"]
  ++ [hardness] ++ shrates.

(** position of a name in what getHistInfo returns *)
Fixpoint pos (n : string) (l : list string) : option nat :=
  match l with
  | [] => None
  | x :: r => if String.eqb n x then Some 0%nat else option_map S (pos n r)
  end.
Definition column {T} {N : Num T} (c : MClass T) (s : MM T) (n : string) : option nat :=
  match mm_getHistInfo c s with None => None | Some h => pos n (map entry_name h) end.

(** The documented models: name, class, number of parameters, number of history variables, name of the
    hardness variable, names of the slip rates. *)
Definition table {T} {N : Num T} (hs : Solver T) : list (string * MClass T * nat * nat * string * list string) :=
  [ ("evptn_FCC_A", cls_FCC_A hs, 17%nat, 26%nat, "h", names12);
    ("evptn_FCC_AH", cls_FCC_AH hs, 18%nat, 26%nat, "h", names12);
    ("evptn_FCC_B", cls_FCC_B hs, 24%nat, 26%nat, "rho_dd", names12);
    ("evptn_BCC_A", cls_BCC_A hs, 24%nat, 26%nat, "rho_dd", names12);
    ("evptn_HCP_A", cls_HCP_A hs, 97%nat, 38%nat, "rho_dd", names24) ].

(** API calls by a caller: nothing but initialisation / nothing but completion *)
Definition no_complete {T} (op : Op T) : Prop := op <> OComplete.
Definition no_init {T} (op : Op T) : Prop := forall o p st, op <> OInit o p st.

(** history value of point [i] by its announced name *)
Definition named (c : MClass R) (s : MM R) (m : Mem R) (i : nat) (n : string) : R :=
  match column c s n with Some k => val s m AH i k | None => 0%R end.
