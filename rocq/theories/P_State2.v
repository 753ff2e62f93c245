(** Restart and redistribution of material points (C66). *)
From Coq Require Import List ZArith Bool Lia PeanoNat.
From Verif Require Import Num Arr Util SlipGeom Eos Hard Elast Evptn MatModel Cases P_Sngl P_Sngl2 P_Batch P_Batch2 P_Batch3 P_Api P_Api2 P_Builtin SpecApi P_Hist SpecBatch P_Batch4 P_Gen P_State SpecState.
Import ListNotations.
Local Open Scope nat_scope.

Lemma ne_firstn {A} (l : list A) : forall w k, k < w -> nth_error (firstn w l) k = nth_error l k.
Proof. induction l as [|x l IH]; intros w k Hk; [rewrite firstn_nil; reflexivity|]. destruct w as [|w]; [lia|]. destruct k as [|k]; [reflexivity|]. cbn. apply IH. lia. Qed.
Lemma ne_skipn {A} (l : list A) : forall o k, nth_error (skipn o l) k = nth_error l (o + k).
Proof. induction l as [|x l IH]; intros o k; [rewrite skipn_nil; destruct k, o; reflexivity|]. destruct o as [|o]; [reflexivity|]. cbn. apply IH. Qed.

Section S.
  Context {T : Type} {N : Num T}.
  Variables (c : MClass T).
  Lemma cell_entry s mtan n m a i k : batch_ok c s mtan n m -> i < n -> k < per_point (c_nH c) (c_nslip c) mtan a ->
    nth_error (cell_of c s mtan m a i) k = entry s m a i k.
  Proof.
    intros [HW _] Hi Hk. unfold cell_of, cell, sub, entry. rewrite width_eq. rewrite ne_firstn by exact Hk. rewrite ne_skipn.
    rewrite (offs_eq (mm_strides s) mtan n HW) by assumption. reflexivity.
  Qed.
  Lemma pp_false mtan a : a <> AM -> per_point (c_nH c) (c_nslip c) mtan a = per_point (c_nH c) (c_nslip c) false a.
  Proof. destruct a; try reflexivity. contradiction. Qed.
  Lemma cell_same s s' mtan n n' m m' a i i' : batch_ok c s mtan n m -> batch_ok c s' mtan n' m' -> i < n -> i' < n' ->
    (forall k, k < per_point (c_nH c) (c_nslip c) mtan a -> entry s m a i k = entry s' m' a i' k) -> cell_of c s mtan m a i = cell_of c s' mtan m' a i'.
  Proof.
    intros B B' Hi Hi' H. apply lext. intros j. destruct (Nat.lt_ge_cases j (per_point (c_nH c) (c_nslip c) mtan a)) as [Hj|Hj].
    - rewrite (cell_entry s mtan n m a i j B Hi Hj), (cell_entry s' mtan n' m' a i' j B' Hi' Hj). now apply H.
    - rewrite !(proj2 (nth_error_None _ _)); [reflexivity| |].
      + rewrite (cell_len c mtan s' n' m' a i' B' Hi'). exact Hj.
      + rewrite (cell_len c mtan s n m a i B Hi). exact Hj.
  Qed.
  Lemma state_pagree s s' mtan n n' m m' i i' : batch_ok c s mtan n m -> batch_ok c s' mtan n' m' -> i < n -> i' < n' ->
    same_state c s m i s' m' i' -> pagree (pt_of c s mtan m i) (pt_of c s' mtan m' i').
  Proof.
    intros B B' Hi Hi' H. unfold pagree, pt_of, pt_at. cbn [pt_eInt pt_stress pt_hist pt_sdd pt_mtan].
    change (cell (mm_strides s) (c_nH c) (c_nslip c) mtan) with (cell_of c s mtan). change (cell (mm_strides s') (c_nH c) (c_nslip c) mtan) with (cell_of c s' mtan).
    assert (L : forall a, length (cell_of c s mtan m a i) = per_point (c_nH c) (c_nslip c) mtan a) by (intros a; exact (cell_len c mtan s n m a i B Hi)).
    assert (L' : forall a, length (cell_of c s' mtan m' a i') = per_point (c_nH c) (c_nslip c) mtan a) by (intros a; exact (cell_len c mtan s' n' m' a i' B' Hi')).
    split; [|split; [|split; [|split; [exact (L AB)|split; [exact (L' AB)|]]]]].
    - apply (cell_same s s' mtan n n'); try assumption. intros k Hk. apply H; [now left|exact Hk|discriminate].
    - apply (cell_same s s' mtan n n'); try assumption. intros k Hk. apply H; [right; now left|exact Hk|discriminate].
    - apply hagree_intro.
      + rewrite L. cbn [per_point]. unfold numHist, iHistLbGdot, iHistLbH. lia.
      + now rewrite L, L'.
      + intros k K0 K2 K3. destruct (Nat.lt_ge_cases k (per_point (c_nH c) (c_nslip c) mtan AH)) as [Hj|Hj].
        * rewrite (cell_entry s mtan n m AH i k B Hi Hj), (cell_entry s' mtan n' m' AH i' k B' Hi' Hj). apply H; [right; right; now left|exact Hj|].
          intros _ X. cbn in X. lia.
        * rewrite !(proj2 (nth_error_None _ _)); [reflexivity|rewrite L'; exact Hj|rewrite L; exact Hj].
    - destruct mtan; [|exact I]. split; [exact (L AM)|exact (L' AM)].
  Qed.

  Section One.
    Variables (solver : Solver T) (lu : LUSolver T) (dt : T) (mtan : bool).
    Variables (s s' : MM T) (pars : list T) (n n' : nat) (m m' : Mem T) (i i' : nat).
    Hypothesis U : in_use c s pars.
    Hypothesis U' : in_use c s' pars.
    Hypothesis B : batch_ok c s mtan n m.
    Hypothesis B' : batch_ok c s' mtan n' m'.
    Hypothesis Hi : i < n.
    Hypothesis Hi' : i' < n'.
    Hypothesis HD : forall a k, In a [AD; AW; AV] -> k < per_point (c_nH c) (c_nslip c) mtan a -> entry s m a i k = entry s' m' a i' k.
    Hypothesis HS : same_state c s m i s' m' i'.

    Lemma one_state mat tol : let one := fun s m i => getResponseSngl solver lu mat dt tol (cell_of c s mtan m AD i) (cell_of c s mtan m AW i) (cell_of c s mtan m AV i) (pt_of c s mtan m i) in
      fst (one s m i) = fst (one s' m' i') /\ (fst (one s m i) = Done -> one s m i = one s' m' i').
    Proof.
      cbv zeta beta. rewrite (cell_same s s' mtan n n' m m' AD i i' B B' Hi Hi'), (cell_same s s' mtan n n' m m' AW i i' B B' Hi Hi'), (cell_same s s' mtan n n' m m' AV i i' B B' Hi Hi')
        by (intros k Hk; apply HD; [cbn; tauto|exact Hk]).
      apply sngl_state. exact (state_pagree s s' mtan n n' m m' i i' B B' Hi Hi' HS).
    Qed.
    (** the point alone succeeds in one place when it does in the other *)
    Lemma alone_same : mm_complete s = true -> mm_complete s' = true -> fst (alone solver lu c s dt mtan m i) = fst (alone solver lu c s' dt mtan m' i').
    Proof.
      intros EC EC'. destruct (in_use_ok c s pars U) as (HR & mat & tol & HM). destruct (in_use_ok c s' pars U') as (HR' & _).
      assert (HM' : mm_ready s' = Some (mat, tol)) by (rewrite <- (in_use_ready c s s' pars U U'); exact HM).
      destruct (alone_spec c mtan solver lu dt s n m i mat tol HR EC HM B Hi) as (x & E & _). destruct (alone_spec c mtan solver lu dt s' n' m' i' mat tol HR' EC' HM' B' Hi') as (x' & E' & _).
      rewrite E, E'. cbn [fst]. f_equal. exact (proj1 (one_state mat tol)).
    Qed.
    Lemma result_same m1 m1' : mm_getResponse solver lu c s dt mtan (Z.of_nat n) m = (BRet Done, m1) -> mm_getResponse solver lu c s' dt mtan (Z.of_nat n') m' = (BRet Done, m1') ->
      forall a k, k < per_point (c_nH c) (c_nslip c) mtan a -> entry s m1 a i k = entry s' m1' a i' k /\ entry s m1 a i k <> None.
    Proof.
      intros H H'. destruct (in_use_ok c s pars U) as (HR & mat & tol & HM). destruct (in_use_ok c s' pars U') as (HR' & _).
      assert (HM' : mm_ready s' = Some (mat, tol)) by (rewrite <- (in_use_ready c s s' pars U U'); exact HM).
      destruct (mm_complete s) eqn:EC; [|unfold mm_getResponse in H; rewrite EC in H; discriminate].
      destruct (mm_complete s') eqn:EC'; [|unfold mm_getResponse in H'; rewrite EC' in H'; discriminate].
      destruct (api_batch c s solver lu dt mtan n m mat tol HR EC HM B) as (o & x & E1 & UT & P).
      destruct (api_batch c s' solver lu dt mtan n' m' mat tol HR' EC' HM' B') as (o' & x' & E1' & UT' & P').
      rewrite H in E1. rewrite H' in E1'.
      assert (x = m1) by congruence. assert (o = Done) by congruence. assert (x' = m1') by congruence. assert (o' = Done) by congruence. subst. cbv zeta in P, P'.
      specialize (P i Hi). specialize (P' i' Hi'). cbv beta in P, P'.
      pose proof (one_state mat tol) as [_ OS]. cbv zeta in OS. rewrite P in OS. specialize (OS eq_refl). rewrite P' in OS.
      assert (PE : pt_of c s mtan m1 i = pt_of c s' mtan m1' i') by (clear - OS; congruence).
      pose proof (batch_after c mtan s n m m1 UT B) as B1. pose proof (batch_after c mtan s' n' m' m1' UT' B') as B1'.
      intros a k Hk.
      assert (CE : cell_of c s mtan m1 a i = cell_of c s' mtan m1' a i').
      { assert (D : ro a \/ ~ ro a) by (unfold ro; destruct a; try (left; tauto); right; intros [|[|]]; discriminate). destruct D as [Ha|Ha].
        - unfold cell_of, cell. rewrite (ro_not_own c mtan _ _ _ _ a Ha UT), (ro_not_own c mtan _ _ _ _ a Ha UT').
          apply (cell_same s s' mtan n n' m m' a i i' B B' Hi Hi'). intros j Hj. apply HD; [|exact Hj]. unfold ro in Ha. cbn. intuition.
        - now apply (pt_cells c mtan s s' n n'). }
      rewrite <- (cell_entry s mtan n m1 a i k B1 Hi Hk), <- (cell_entry s' mtan n' m1' a i' k B1' Hi' Hk), CE. split; [reflexivity|].
      apply nth_error_Some. rewrite (cell_len c mtan s' n' m1' a i' B1' Hi'). exact Hk.
    Qed.
  End One.

  Section Way.
    Variables (pars : list T) (solver : Solver T) (lu : LUSolver T).
    Lemma visit_same v v' : visit c pars solver lu v -> visit c pars solver lu v' -> same_drive c v v' -> same_state c (v_s v) (v_m v) (v_i v) (v_s v') (v_m v') (v_i v') -> same_result c v v'.
    Proof.
      intros (U & B & Hi & H) (U' & B' & Hi' & H') (D1 & D2 & D3) HS. rewrite <- D1 in H'. rewrite <- D2 in B', H'.
      intros a k Hk. exact (result_same solver lu (v_dt v) (v_mtan v) (v_s v) (v_s v') pars (v_n v) (v_n v') (v_m v) (v_m v') (v_i v) (v_i v') U U' B B' Hi Hi' D3 HS (v_m1 v) (v_m1 v') H H' a k Hk).
    Qed.
    Lemma state_chain s m i s1 m1 i1 s2 m2 i2 : same_state c s m i s1 m1 i1 -> same_state c s m i s2 m2 i2 -> same_state c s1 m1 i1 s2 m2 i2.
    Proof. intros H H' a k Ha Hk Hn. rewrite <- (H a k Ha Hk Hn). exact (H' a k Ha Hk Hn). Qed.
    Lemma journey_same : forall l l', journey c pars solver lu l -> journey c pars solver lu l' -> Forall2 (same_drive c) l l' -> same_start c l l' -> Forall2 (same_result c) l l'.
    Proof.
      induction l as [|v l IH]; intros l' J J' D ST; [inversion D; constructor|]. inversion D as [|? v' ? r' D1 D2 E1 E2]. subst. cbn [journey] in J, J'. destruct J as (V & C & J). destruct J' as (V' & C' & J').
      assert (R : same_result c v v') by exact (visit_same v v' V V' D1 ST). constructor; [exact R|]. apply (IH r' J J' D2).
      destruct l as [|w l]; destruct r' as [|w' r']; cbn [same_start]; try exact I.
      intros a k Ha Hk Hn. rewrite <- (C a k Ha Hk Hn), <- (C' a k Ha Hk Hn). apply R. rewrite (pp_false (v_mtan v)) by (intros X; subst a; cbn in Ha; intuition discriminate). exact Hk.
    Qed.
    (** a batch whose points are at the state and step of points of successful calls succeeds *)
    Lemma batch_succeeds s n m dt mtan : in_use c s pars -> mm_complete s = true -> batch_ok c s mtan n m ->
      (forall i, i < n -> exists v, visit c pars solver lu v /\ v_dt v = dt /\ v_mtan v = mtan /\
        (forall a k, In a [AD; AW; AV] -> k < per_point (c_nH c) (c_nslip c) mtan a -> entry (v_s v) (v_m v) a (v_i v) k = entry s m a i k) /\
        same_state c (v_s v) (v_m v) (v_i v) s m i) ->
      exists m1, mm_getResponse solver lu c s dt mtan (Z.of_nat n) m = (BRet Done, m1).
    Proof.
      intros U EC B H. destruct (in_use_ok c s pars U) as (HR & _). apply (alone_all c mtan solver lu dt s n m HR B EC). intros i Hi.
      destruct (H i Hi) as (v & (U' & B' & Hi' & E) & D1 & D2 & D3 & HS). rewrite D1, D2 in E. rewrite D2 in B'.
      destruct (in_use_ok c (v_s v) pars U') as (HR' & _).
      assert (EC' : mm_complete (v_s v) = true) by (destruct (mm_complete (v_s v)) eqn:X; [reflexivity|unfold mm_getResponse in E; rewrite X in E; discriminate]).
      destruct (alone_done c mtan solver lu dt (v_s v) (v_n v) (v_m v) (v_m1 v) HR' B' E (v_i v) Hi') as (x & A & _).
      pose proof (alone_same solver lu dt mtan (v_s v) s pars (v_n v) n (v_m v) m (v_i v) i U' U B' B Hi' Hi D3 HS EC' EC) as X. rewrite A in X. cbn [fst] in X.
      destruct (alone solver lu c s dt mtan m i) as [o y]. cbn [fst] in X. exists y. now rewrite <- X.
    Qed.
  End Way.
End S.
