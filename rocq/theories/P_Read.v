(** Entries of the inputs that are not read (C80). *)
From Coq Require Import List ZArith Bool Lia PeanoNat.
From Verif Require Import Num Arr Util SlipGeom Eos Hard Elast Evptn MatModel Cases P_Sngl P_Sngl2 P_Batch P_Batch2 P_Batch3 P_Api P_Api2 P_Builtin SpecApi P_Hist SpecBatch P_Batch4 P_Gen P_State SpecState P_State2 P_Thermo SpecThermo P_Thermo2 SpecTemp P_Temp SpecRead P_Press.
Import ListNotations.
Local Open Scope nat_scope.

Section S.
  Context {T : Type} {N : Num T}.
  Lemma sngl_read solver lu m dt tol (d d' w vr vr' : list T) (p : Pt T) : (forall k, k < 6 -> get d k = get d' k) -> (forall k, k < 4 -> k <> 2 -> get vr k = get vr' k) ->
    getResponseSngl solver lu m dt tol d w vr p = getResponseSngl solver lu m dt tol d' w vr' p.
  Proof.
    intros HD HV.
    assert (E1 : svecToVecd d = svecToVecd d') by (unfold svecToVecd; rewrite !HD by lia; reflexivity).
    assert (E2 : forall s, vecsInnerSvecDev s d = vecsInnerSvecDev s d') by (intros s; unfold vecsInnerSvecDev; rewrite !HD by lia; reflexivity).
    assert (E3 : forall e s, snglUpd m vr e s = snglUpd m vr' e s) by (intros e s; unfold snglUpd; rewrite !HV by lia; reflexivity).
    assert (E4 : forall e, snglTkelv m vr e = snglTkelv m vr' e) by (intros e; unfold snglTkelv; rewrite !HV by lia; reflexivity).
    assert (E5 : forall hu, snglProb m dt d w vr p hu = snglProb m dt d' w vr' p hu) by (intros hu; unfold snglProb; rewrite E1, E3, E4, !HV by lia; reflexivity).
    unfold getResponseSngl. cbv zeta. rewrite E1, E3, E4, !E2, (HV 0), (HV 1) by lia.
    destruct (k_updateH (m_kin m) _ dt _) as [[h_u nh]|]; [|reflexivity]. rewrite !E5.
    destruct (k_valsOk _ _ _ _); cbn [negb]; [|reflexivity].
    set (pr := snglProb m dt d' w vr' p h_u). set (r := solver _ _ _ _ _).
    destruct (so_converged r); cbn [negb]; [|reflexivity].
    destruct (pt_mtan p) as [l|].
    - destruct (mtan_vecds lu pr (so_x r)) as [mv|]; [|reflexivity].
      destruct (stateFromX pr (so_x r)) as [e_u q_u]. rewrite !E2. reflexivity.
    - destruct (stateFromX pr (so_x r)) as [e_u q_u]. rewrite !E2. reflexivity.
  Qed.

  Section One.
    Variables (c : MClass T) (solver : Solver T) (lu : LUSolver T) (dt : T) (mtan : bool).
    Variables (s s' : MM T) (pars : list T) (n n' : nat) (m m' : Mem T) (i i' : nat).
    Hypothesis U : in_use c s pars.
    Hypothesis U' : in_use c s' pars.
    Hypothesis B : batch_ok c s mtan n m.
    Hypothesis B' : batch_ok c s' mtan n' m'.
    Hypothesis Hi : i < n.
    Hypothesis Hi' : i' < n'.
    Hypothesis HD : forall a k, matters a k -> k < per_point (c_nH c) (c_nslip c) mtan a -> entry s m a i k = entry s' m' a i' k.
    Hypothesis HS : same_state c s m i s' m' i'.
    Lemma one_read mat tol : let one := fun s m i => getResponseSngl solver lu mat dt tol (cell_of c s mtan m AD i) (cell_of c s mtan m AW i) (cell_of c s mtan m AV i) (pt_of c s mtan m i) in
      fst (one s m i) = fst (one s' m' i') /\ (fst (one s m i) = Done -> one s m i = one s' m' i').
    Proof.
      cbv zeta beta. rewrite (cell_same c s s' mtan n n' m m' AW i i' B B' Hi Hi') by (intros k Hk; apply HD; [exact I|exact Hk]).
      rewrite (sngl_read solver lu mat dt tol (cell_of c s mtan m AD i) (cell_of c s' mtan m' AD i') (cell_of c s' mtan m' AW i') (cell_of c s mtan m AV i) (cell_of c s' mtan m' AV i')).
      - apply sngl_state. exact (state_pagree c s s' mtan n n' m m' i i' B B' Hi Hi' HS).
      - intros k Hk. assert (Hp : k < per_point (c_nH c) (c_nslip c) mtan AD) by (cbn; clear - Hk; lia).
        apply get_same. rewrite (cell_entry c s mtan n m AD i k B Hi Hp), (cell_entry c s' mtan n' m' AD i' k B' Hi' Hp). apply HD; [exact Hk|exact Hp].
      - intros k Hk Hn. assert (Hp : k < per_point (c_nH c) (c_nslip c) mtan AV) by exact Hk.
        apply get_same. rewrite (cell_entry c s mtan n m AV i k B Hi Hp), (cell_entry c s' mtan n' m' AV i' k B' Hi' Hp). apply HD; [exact Hn|exact Hp].
    Qed.
    Lemma alone_read : mm_complete s = true -> mm_complete s' = true -> fst (alone solver lu c s dt mtan m i) = fst (alone solver lu c s' dt mtan m' i').
    Proof.
      intros EC EC'. destruct (in_use_ok c s pars U) as (HR & mat & tol & HM). destruct (in_use_ok c s' pars U') as (HR' & _).
      assert (HM' : mm_ready s' = Some (mat, tol)) by (rewrite <- (in_use_ready c s s' pars U U'); exact HM).
      destruct (alone_spec c mtan solver lu dt s n m i mat tol HR EC HM B Hi) as (x & E & _). destruct (alone_spec c mtan solver lu dt s' n' m' i' mat tol HR' EC' HM' B' Hi') as (x' & E' & _).
      rewrite E, E'. cbn [fst]. f_equal. exact (proj1 (one_read mat tol)).
    Qed.
    Lemma result_read m1 m1' : mm_getResponse solver lu c s dt mtan (Z.of_nat n) m = (BRet Done, m1) -> mm_getResponse solver lu c s' dt mtan (Z.of_nat n') m' = (BRet Done, m1') ->
      forall a k, ~ In a [AD; AW; AV] -> k < per_point (c_nH c) (c_nslip c) mtan a -> entry s m1 a i k = entry s' m1' a i' k /\ entry s m1 a i k <> None.
    Proof.
      intros H H'. destruct (in_use_ok c s pars U) as (HR & mat & tol & HM). destruct (in_use_ok c s' pars U') as (HR' & _).
      assert (HM' : mm_ready s' = Some (mat, tol)) by (rewrite <- (in_use_ready c s s' pars U U'); exact HM).
      destruct (mm_complete s) eqn:EC; [|unfold mm_getResponse in H; rewrite EC in H; discriminate].
      destruct (mm_complete s') eqn:EC'; [|unfold mm_getResponse in H'; rewrite EC' in H'; discriminate].
      destruct (api_batch c s solver lu dt mtan n m mat tol HR EC HM B) as (o & x & F1 & UT & P).
      destruct (api_batch c s' solver lu dt mtan n' m' mat tol HR' EC' HM' B') as (o' & x' & F1' & UT' & P').
      rewrite H in F1. rewrite H' in F1'.
      assert (x = m1) by congruence. assert (o = Done) by congruence. assert (x' = m1') by congruence. assert (o' = Done) by congruence. subst. cbv zeta in P, P'.
      specialize (P i Hi). specialize (P' i' Hi'). cbv beta in P, P'.
      pose proof (one_read mat tol) as [_ OS]. cbv zeta in OS. rewrite P in OS. specialize (OS eq_refl). rewrite P' in OS.
      assert (PE : pt_of c s mtan m1 i = pt_of c s' mtan m1' i') by (clear - OS; congruence).
      pose proof (batch_after c mtan s n m m1 UT B) as B1. pose proof (batch_after c mtan s' n' m' m1' UT' B') as B1'.
      intros a k Ha Hk.
      assert (Hr : ~ ro a) by (intros X; apply Ha; unfold ro in X; cbn; intuition).
      assert (CE : cell_of c s mtan m1 a i = cell_of c s' mtan m1' a i') by now apply (pt_cells c mtan s s' n n').
      rewrite <- (cell_entry c s mtan n m1 a i k B1 Hi Hk), <- (cell_entry c s' mtan n' m1' a i' k B1' Hi' Hk), CE. split; [reflexivity|].
      apply nth_error_Some. rewrite (cell_len c mtan s' n' m1' a i' B1' Hi'). exact Hk.
    Qed.
  End One.
  Section Way.
    Variables (c : MClass T) (pars : list T) (solver : Solver T) (lu : LUSolver T).
    Lemma visit_read v v' : visit c pars solver lu v -> visit c pars solver lu v' -> same_step c v v' -> same_state c (v_s v) (v_m v) (v_i v) (v_s v') (v_m v') (v_i v') -> same_outputs c v v'.
    Proof.
      intros (U & B & Hi & H) (U' & B' & Hi' & H') (D1 & D2 & D3) HS. rewrite <- D1 in H'. rewrite <- D2 in B', H'.
      exact (result_read c solver lu (v_dt v) (v_mtan v) (v_s v) (v_s v') pars (v_n v) (v_n v') (v_m v) (v_m v') (v_i v) (v_i v') U U' B B' Hi Hi' D3 HS (v_m1 v) (v_m1 v') H H').
    Qed.
    Lemma journey_read : forall l l', journey c pars solver lu l -> journey c pars solver lu l' -> Forall2 (same_step c) l l' -> same_start c l l' -> Forall2 (same_outputs c) l l'.
    Proof.
      induction l as [|v l IH]; intros l' J J' D ST; [inversion D; constructor|]. inversion D as [|? v' ? r' D1 D2 E1 E2]. subst. cbn [journey] in J, J'. destruct J as (V & C & J). destruct J' as (V' & C' & J').
      assert (R : same_outputs c v v') by exact (visit_read v v' V V' D1 ST). constructor; [exact R|]. apply (IH r' J J' D2).
      destruct l as [|w l]; destruct r' as [|w' r']; cbn [same_start]; try exact I.
      intros a k Ha Hk Hn. rewrite <- (C a k Ha Hk Hn), <- (C' a k Ha Hk Hn). apply R.
      - intros X. cbn in Ha, X. intuition congruence.
      - rewrite (pp_false c (v_mtan v)) by (intros X; subst a; cbn in Ha; intuition discriminate). exact Hk.
    Qed.
    Lemma batch_read s n m dt mtan : in_use c s pars -> mm_complete s = true -> batch_ok c s mtan n m ->
      (forall i, i < n -> exists v, visit c pars solver lu v /\ v_dt v = dt /\ v_mtan v = mtan /\
        (forall a k, matters a k -> k < per_point (c_nH c) (c_nslip c) mtan a -> entry (v_s v) (v_m v) a (v_i v) k = entry s m a i k) /\
        same_state c (v_s v) (v_m v) (v_i v) s m i) ->
      exists m1, mm_getResponse solver lu c s dt mtan (Z.of_nat n) m = (BRet Done, m1).
    Proof.
      intros U EC B H. destruct (in_use_ok c s pars U) as (HR & _). apply (alone_all c mtan solver lu dt s n m HR B EC). intros i Hi.
      destruct (H i Hi) as (v & (U' & B' & Hi' & E) & D1 & D2 & D3 & HS). rewrite D1, D2 in E. rewrite D2 in B'.
      destruct (in_use_ok c (v_s v) pars U') as (HR' & _).
      assert (EC' : mm_complete (v_s v) = true) by (destruct (mm_complete (v_s v)) eqn:X; [reflexivity|unfold mm_getResponse in E; rewrite X in E; discriminate]).
      destruct (alone_done c mtan solver lu dt (v_s v) (v_n v) (v_m v) (v_m1 v) HR' B' E (v_i v) Hi') as (x & A & _).
      pose proof (alone_read c solver lu dt mtan (v_s v) s pars (v_n v) n (v_m v) m (v_i v) i U' U B' B Hi' Hi D3 HS EC' EC) as X. rewrite A in X. cbn [fst] in X.
      destruct (alone solver lu c s dt mtan m i) as [o y]. cbn [fst] in X. exists y. now rewrite <- X.
    Qed.
  End Way.
End S.
