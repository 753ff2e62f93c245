(** The flags of getHistInfo and the state of a point: proof of C66_flags. *)
From Coq Require Import List ZArith Bool Lia.
From Verif Require Import Num Hard Evptn MatModel Cases SpecApi SpecObj P_Batch3 P_Api P_Builtin P_Api2 SpecState.
Import ListNotations.
Local Open Scope nat_scope.

Lemma flags_state {T} {N : Num T} (hs : Solver T) name c np nh hn sr s pars h : In (name, c, np, nh, hn, sr) (table hs) -> in_use c s pars ->
  mm_getHistInfo c s = Some h -> forall s1 m1 i1 s2 m2 i2,
  (forall k e, nth_error h k = Some e -> entry_state e = true -> entry s1 m1 AH i1 k = entry s2 m2 AH i2 k) ->
  (forall a k, In a [AE; AS] -> k < per_point (c_nH c) (c_nslip c) false a -> entry s1 m1 a i1 k = entry s2 m2 a i2 k) ->
  same_state c s1 m1 i1 s2 m2 i2.
Proof.
  intros Hin HU E s1 m1 i1 s2 m2 i2 HH HO a k Ha Hk Hn.
  destruct (hist_layout hs name c np nh hn sr s pars Hin HU) as (h' & E' & L & LN & _ & _ & _ & _ & F).
  rewrite E in E'. injection E' as <-.
  destruct Ha as [<-|[<-|[<-|[]]]]; [apply HO; cbn; auto|apply HO; cbn; auto|].
  change (per_point (c_nH c) (c_nslip c) false AH) with (mm_getNumHist c) in Hk. specialize (Hn eq_refl).
  destruct (nth_error h k) as [e|] eqn:EN; [|apply nth_error_None in EN; lia].
  apply (HH k e EN).
  assert (X : nth_error (map entry_state h) k = Some (entry_state e)) by (now apply map_nth_error).
  rewrite F in X.
  assert (C4 : k = 0 \/ k = 1 \/ k = 2 \/ k = 3 \/ 4 <= k) by lia.
  destruct C4 as [->|[->|[->|[->|K4]]]]; [cbn in X; congruence|cbn in X; congruence|cbn in Hn; tauto|cbn in Hn; tauto|].
  rewrite nth_error_app2 in X by (cbn; lia). cbn [length] in X.
  apply nth_error_In, repeat_spec in X. now rewrite X.
Qed.
