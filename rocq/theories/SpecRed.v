(** Specification for C68: the parameter list of the linear model with the exponent 1 put in, and answers that are the same up to it. *)
From Coq Require Import List ZArith Reals.
From Verif Require Import Num NumR MatModel.
Import ListNotations.

(** parameters of evptn_FCC_A / voce_bcc: density, heat capacity, tolerance, 3 elastic, 6 kinetic, then the exponent goes here *)
Definition with_one (pars : list R) : list R := firstn 12 pars ++ 1%R :: skipn 12 pars.
Definition op_with_one (op : Op R) : Op R := match op with OInit o p st => OInit o (with_one p) st | x => x end.
(** getParams hands back the vectors of the last initialisation (nothing before the first); everything else is equal *)
Definition same_answer (r r' : Res R) : Prop :=
  match r, r' with
  | RParams (o, p, st), RParams (o', p', st') => o' = o /\ st' = st /\ (p' = with_one p \/ p = [] /\ p' = [])
  | RParams _, _ => False
  | x, y => x = y
  end.
(** every sequence of calls on [s] gives the same answers as the sequence with the exponent put in on [s'], and a response computed in
    parallel consists of the same tasks *)
Definition same_program (c c' : MClass R) (s s' : MM R) : Prop := forall ops,
  Forall2 same_answer (snd (mm_run c s ops)) (snd (mm_run c' s' (map op_with_one ops))) /\
  forall sv lu dt mt n, mm_tasks sv lu c' (fst (mm_run c' s' (map op_with_one ops))) dt mt n = mm_tasks sv lu c (fst (mm_run c s ops)) dt mt n.
