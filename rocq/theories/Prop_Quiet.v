(** C62, and two theorems of C39. *)
From Coq Require Import List ZArith Bool String Reals Lra Lia.
From Verif Require Import Num NumR SlipGeom Eos Hard Elast Evptn MatModel Cases Py SpecQuiet SpecPy P_Demo P_Demo9 P_Py P_Py2 P_Py3 P_Quiet.
Import ListNotations.
Local Open Scope R_scope.

(** ** C62: queries, the log, the output level and earlier responses are not noticed by later calls *)
(** The answer to a call depends only on the initialise, complete and strategy calls before it. *)
Theorem C62_notice {T} {N : Num T} c (s : MM T) ops op :
  snd (mm_step c (fst (mm_run c s ops)) op) = snd (mm_step c (fst (mm_run c s (filter shapes ops))) op).
Proof. exact (run_notice c s ops op). Qed.
(** The same for the tasks of a parallel call. *)
Theorem C62_tasks {T} {N : Num T} c (s : MM T) ops sv lu dt mt n :
  mm_tasks sv lu c (fst (mm_run c s ops)) dt mt n = mm_tasks sv lu c (fst (mm_run c s (filter shapes ops))) dt mt n.
Proof. exact (tasks_notice c s ops sv lu dt mt n). Qed.
(** In a whole program any of the other calls can be dropped: the calls that are kept give the same answers. *)
Theorem C62_drop {T} {N : Num T} c (keep : Op T -> bool) : (forall op, shapes op = true -> keep op = true) -> forall ops (s : MM T),
  answers keep ops (snd (mm_run c s ops)) = snd (mm_run c s (filter keep ops)).
Proof. exact (run_answers c keep). Qed.
(** complete, setExecutionStrategy and setOutputLevel return normally at any time. *)
Theorem C62_setters {T} {N : Num T} c (s : MM T) ops op : op = OComplete \/ (exists a, op = OSetExec a) \/ (exists l, op = OSetOut l) ->
  snd (mm_step c (fst (mm_run c s ops)) op) = ROut Done.
Proof. exact (setters c s ops op). Qed.
Example C62_case : let ops := [OGetParams; OInit [] demo_pars []; OSetOut 3; OComplete; OGetRhoRef; OSetExec GPU; OIsComplete] in
  filter shapes ops = [OInit [] demo_pars []; OComplete; OSetExec GPU] /\ snd (mm_step demo_c (fst (mm_run demo_c (mm_new demo_c) ops)) OIsComplete) = RBool true /\ snd (mm_step demo_c (mm_new demo_c) OIsComplete) = RBool false.
Proof.
  cbv zeta. split; [reflexivity|]. split; [|reflexivity]. rewrite C62_notice. cbn [filter shapes].
  cbn [mm_run]. cbn [mm_step]. destruct (mm_init demo_c (mm_new demo_c) [] demo_pars []). reflexivity.
Qed.

(** ** C39 *)
(** setup starts afresh: what computeRJ and getState use depends on its arguments and the parameters, not on earlier calls. *)
Theorem C39_forgets (v v' : Dev R) ops dt d w vr e s h : dev_run v (ops ++ [DSetup dt d w vr e s h]) = Some v' ->
  dv_in v' = dv_in (snd (dev_setup v dt d w vr e s h)).
Proof. exact (dev_forgets v v' ops dt d w vr e s h). Qed.
(** The constructor throws for an array that is not a vector, an unknown name or a wrong number of parameters (for the
    hexagonal model the number is one too small, see C39_hcp_refuted). *)
Theorem C39_refuses hs name a j1 j2 j3 : (forall n, py_shape a = [n] -> (py_off a + Z.to_nat n <= List.length (py_base a))%nat) ->
  (forall c np nh, In (name, c, np, nh) (py_table hs) ->
    py_shape a <> [Z.of_nat (if String.eqb name "km_bal_dd_hcp_norm" then 96 else np)]) ->
  dev_new hs name a j1 j2 j3 = PFail Failed.
Proof. exact (dev_new_refuses hs name a j1 j2 j3). Qed.
Example C39_refuses_case : dev_new echo "voce_fcc_norm" (packed1 (1 :: demo_pars)) 0 0 0 = PFail Failed /\
  dev_new echo "voce_hcp_norm" (packed1 demo_pars) 0 0 0 = PFail Failed.
Proof.
  split; apply C39_refuses.
  - intros n E. cbn in E. injection E as <-. cbn. lia.
  - intros c np nh H. cbn in H. repeat (destruct H as [H|H]; [injection H; intros; subst; try discriminate; cbn; discriminate|]). contradiction.
  - intros n E. cbn in E. injection E as <-. cbn. lia.
  - intros c np nh H. cbn in H. repeat (destruct H as [H|H]; [injection H; intros; discriminate|]). contradiction.
Qed.
Example C39_forgets_case : exists v0 v, dev_make demo_c demo_pars 5 7 9 = POk v0 /\
  dev_run v0 ([DSetup (/3) [1; -1; 0; 0; 0; 0; 0] [0; 0; 1] [1; 1; 0; 0] [1] [0; 0; 0; 0; 0; 0; 1] (demo_h [1; 0; 0; 0] [1])] ++
    [DSetup (/2) [1; -1; 0; 0; 0; 0; 0] [0; 0; 1] [1; 1; 0; 0] [1] [0; 0; 0; 0; 0; 0; 1] (demo_h [1; 0; 0; 0] [1])]) = Some v.
Proof. destruct (demo_dev 5 7 9) as [v0 E]. exists v0. eexists. exact (conj E eq_refl). Qed.

Print Assumptions C62_notice.
Print Assumptions C62_tasks.
Print Assumptions C62_drop.
Print Assumptions C62_setters.
Print Assumptions C39_forgets.
Print Assumptions C39_refuses.
