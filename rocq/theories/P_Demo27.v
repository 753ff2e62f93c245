(** A history that differs from another one in the entries that are not flagged as state. *)
From Coq Require Import String List ZArith Bool Lia Reals Lra.
From Verif Require Import Num NumR Hard Evptn MatModel Cases SpecApi SpecObj P_Batch3 P_Api P_Builtin P_Api2 P_Demo SpecState P_State3.
Import ListNotations.
Local Open Scope R_scope.

Definition fg_m : Mem R := mset demo_m AH (upd (upd (demo_m AH) 2 7) 3 9).
Lemma fg_case : exists h, mm_getHistInfo demo_c demo_s = Some h /\
  (forall k e, nth_error h k = Some e -> entry_state e = true -> entry demo_s demo_m AH 0 k = entry demo_s fg_m AH 0 k) /\
  (forall k, k = 2%nat \/ k = 3%nat -> entry demo_s demo_m AH 0 k <> entry demo_s fg_m AH 0 k) /\
  same_state demo_c demo_s demo_m 0 demo_s fg_m 0.
Proof.
  assert (T1 : forall m k, entry demo_s m AH 0 k = nth_error (m AH) k) by (intros m k; unfold entry; rewrite Nat.mul_0_r; reflexivity).
  assert (T0 : In ("evptn_FCC_A"%string, demo_c, 17%nat, 26%nat, "h"%string, names12) (table (echo))) by (left; reflexivity).
  destruct (hist_layout echo _ _ _ _ _ _ demo_s demo_pars T0 demo_in_use) as (h & E & L & LN & _ & _ & _ & _ & F).
  exists h. refine (conj E _).
  assert (A : forall k e, nth_error h k = Some e -> entry_state e = true -> entry demo_s demo_m AH 0 k = entry demo_s fg_m AH 0 k).
  { intros k e EN Hs. assert (X : nth_error (map entry_state h) k = Some (entry_state e)) by (now apply map_nth_error).
    rewrite F, Hs in X. rewrite !T1. clear - X.
    assert (C4 : k = 0%nat \/ k = 1%nat \/ k = 2%nat \/ k = 3%nat \/ (4 <= k)%nat) by lia.
    destruct C4 as [->|[->|[->|[->|K4]]]]; [reflexivity|reflexivity|discriminate X|discriminate X|].
    destruct k as [|[|[|[|k]]]]; [lia|lia|lia|lia|]. reflexivity. }
  refine (conj A (conj _ _)).
  - intros k [->| ->]; rewrite !T1; cbn; intros X; injection X; lra.
  - apply (flags_state echo _ _ _ _ _ _ demo_s demo_pars h T0 demo_in_use E); [exact A|].
    intros a k [<-|[<-|[]]] _; reflexivity.
Qed.
