(** The same volumes, energy and stress at a point of a Voce model and of a dislocation-density model (C78). *)
From Coq Require Import List ZArith Bool Lia Reals Lra.
From Verif Require Import Num NumR Evptn MatModel P_Batch3 P_Builtin SpecApi P_Demo P_Demo2 P_Demo3 SpecState P_Demo37 P_Demo38.
Import ListNotations.
Local Open Scope nat_scope.

Lemma pr_same a k : In a [AE; AS; AV] -> k < match a with AE => 1 | AS => 7 | _ => 4 end -> entry demo_s demo_m a 0 k = entry (d3_s tm_hs) (d3_m tm_lo tm_g) a 0 k.
Proof.
  intros Ha Hk. unfold entry. rewrite demo_strides, d3_strides. cbn [In] in Ha.
  destruct Ha as [<-|[<-|[<-|[]]]]; do 7 (destruct k as [|k]; [first [reflexivity|lia]|]); lia.
Qed.
Lemma pr_differ : entry demo_s demo_m AH 0 14 <> entry (d3_s tm_hs) (d3_m tm_lo tm_g) AH 0 14.
Proof. unfold entry. rewrite demo_strides, d3_strides. intros X. cbn in X. apply some_inj in X. lra. Qed.
