(** Specification for C62. *)
From Coq Require Import List ZArith.
From Verif Require Import Num MatModel.
Import ListNotations.

(** The calls that are meant to change the object: initialise, complete, choose where to execute.  Not: queries, the
    printed log, the output level, computing a response. *)
Definition shapes {T} (op : Op T) : bool :=
  match op with OInit _ _ _ | OComplete | OSetExec _ => true | _ => false end.
(** answers of the calls selected by [keep] *)
Definition answers {T} (keep : Op T -> bool) (ops : list (Op T)) (rs : list (Res T)) : list (Res T) :=
  map snd (filter (fun x => keep (fst x)) (combine ops rs)).
