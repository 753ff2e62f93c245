(** The same three calls on the linear model and, with the exponent 1 put in, on the nonlinear one. *)
From Coq Require Import List ZArith Bool Lia Reals Lra String.
From Verif Require Import Num NumR Arr Util SlipGeom Eos Hard KinVoce Elast Evptn MatModel Cases SpecApi P_Api P_Demo SpecRed P_Red.
Import ListNotations.
Local Open Scope R_scope.

Definition rd_ops : list (Op R) := [OInit [] demo_pars []; OComplete; OResponse echo noLU (/10) false 2 demo_m].
Lemma rd_case : exists m1, snd (mm_run demo_c (mm_new demo_c) rd_ops) = [ROut Done; ROut Done; RMem (BRet Done) m1] /\
  snd (mm_run (cls_FCC_AH echo) (mm_new (cls_FCC_AH echo)) (map op_with_one rd_ops)) = [ROut Done; ROut Done; RMem (BRet Done) m1].
Proof.
  destruct demo_init as [s1 E1].
  destruct (demo_done 2 (/10) demo_m (demo_batch demo_m (fun _ => eq_refl)) (proj2 demo_m_pos)) as [m1 E].
  assert (A : snd (mm_run demo_c (mm_new demo_c) rd_ops) = [ROut Done; ROut Done; RMem (BRet Done) m1]).
  { unfold demo_s in E. unfold rd_ops. cbn [mm_run mm_step] in E |- *. rewrite E1 in E |- *. cbn [fst snd] in E |- *. change (Z.of_nat 2) with 2%Z in E. rewrite E. reflexivity. }
  exists m1. split; [exact A|].
  destruct (new_one echo demo_c (cls_FCC_AH echo) (or_introl (conj eq_refl eq_refl)) rd_ops) as [F _]. rewrite A in F.
  remember (snd (mm_run (cls_FCC_AH echo) (mm_new (cls_FCC_AH echo)) (map op_with_one rd_ops))) as l eqn:EL. clear EL A E E1.
  inversion F as [|? a ? r H1 F1]; subst. inversion F1 as [|? b ? r' H2 F2]; subst. inversion F2 as [|? d ? r'' H3 F3]; subst. inversion F3; subst.
  cbn [same_answer] in *. congruence.
Qed.
