(** Property theorems C68: the nonlinear Voce model with exponent one. *)
From Coq Require Import List ZArith Reals.
From Verif Require Import Num NumR Hard Evptn MatModel Cases P_Demo SpecRed P_Red P_Demo28.
Import ListNotations.
Local Open Scope R_scope.

(** ** C68: with exponent 1 the nonlinear Voce models behave as the linear ones (in exact arithmetic): whatever calls are made on two new
    objects, their answers are the same, except that getParams shows the additional parameter *)
Theorem C68_programs hs c c' : c = cls_FCC_A hs /\ c' = cls_FCC_AH hs \/ c = cls_BCC_B hs /\ c' = cls_BCC_BH hs ->
  same_program c c' (mm_new c) (mm_new c').
Proof. exact (new_one hs c c'). Qed.
Print Assumptions C68_programs.
(** the same for objects constructed with strides *)
Theorem C68_strides hs c c' : c = cls_FCC_A hs /\ c' = cls_FCC_AH hs \/ c = cls_BCC_B hs /\ c' = cls_BCC_BH hs ->
  forall strides len, match mm_newStrides c strides len, mm_newStrides c' strides len with
    | Some s, Some s' => same_program c c' s s'
    | None, None => True
    | _, _ => False
    end.
Proof. exact (strided_one hs c c'). Qed.
Print Assumptions C68_strides.

(** initialise, complete, and a response of two deforming points: all succeed *)
Example C68_case : exists m1, snd (mm_run demo_c (mm_new demo_c) rd_ops) = [ROut Done; ROut Done; RMem (BRet Done) m1] /\
  snd (mm_run (cls_FCC_AH echo) (mm_new (cls_FCC_AH echo)) (map op_with_one rd_ops)) = [ROut Done; ROut Done; RMem (BRet Done) m1].
Proof. exact rd_case. Qed.
Example C68_strides_case : exists s, mm_newStrides demo_c [8; 3; 4; 1; 7; 30; 1; 2]%nat 8 = Some s.
Proof. eexists. reflexivity. Qed.
