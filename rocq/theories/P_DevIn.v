(** The deviatoric stress handed in (C79). *)
From Coq Require Import List ZArith Bool Lia PeanoNat.
From Verif Require Import Num Arr Util SlipGeom Eos Hard Elast Evptn MatModel Cases P_Sngl P_Sngl2 P_Batch P_Batch2 P_Batch3 P_Api P_Api2 P_Builtin SpecApi P_Hist SpecBatch P_Batch4 P_Gen P_State SpecState P_State2 P_Thermo SpecThermo P_Thermo2 SpecTemp SpecDevIn P_Press.
Import ListNotations.
Local Open Scope nat_scope.

Section S.
  Context {T : Type} {N : Num T}.
  Definition dagree (p q : Pt T) : Prop := get (pt_eInt p) 0 = get (pt_eInt q) 0 /\ get (pt_stress p) 6 = get (pt_stress q) 6 /\ length (pt_stress p) = 7 /\ length (pt_stress q) = 7 /\
    hagree (pt_hist p) (pt_hist q) /\ length (pt_sdd p) = 2 /\ length (pt_sdd q) = 2 /\
    match pt_mtan p, pt_mtan q with None, None => True | Some l, Some l' => length l = 36 /\ length l' = 36 | _, _ => False end.
  Definition dsame (p q : Pt T) : Prop := pt_stress p = pt_stress q /\ pt_hist p = pt_hist q /\ pt_tkelv p = pt_tkelv q /\ pt_sdd p = pt_sdd q /\ pt_mtan p = pt_mtan q.
  Lemma sngl_dev solver lu m dt tol d w vr (p q : Pt T) : dagree p q ->
    fst (getResponseSngl solver lu m dt tol d w vr p) = fst (getResponseSngl solver lu m dt tol d w vr q) /\
    (fst (getResponseSngl solver lu m dt tol d w vr p) = Done -> dsame (snd (getResponseSngl solver lu m dt tol d w vr p)) (snd (getResponseSngl solver lu m dt tol d w vr q))).
  Proof.
    intros (A1 & A2 & S1 & S2 & A3 & A4 & A5 & A6). unfold getResponseSngl. cbv zeta.
    assert (SU : snglUpd m vr (pt_eInt p) (pt_stress p) = snglUpd m vr (pt_eInt q) (pt_stress q)) by (unfold snglUpd; rewrite A1, A2; reflexivity).
    assert (ST : snglTkelv m vr (pt_eInt p) = snglTkelv m vr (pt_eInt q)) by (unfold snglTkelv; rewrite A1; reflexivity).
    assert (SP : forall hu, snglProb m dt d w vr p hu = snglProb m dt d w vr q hu).
    { intros hu. unfold snglProb, snglQuatN. rewrite SU, ST, (hagree_sub _ _ _ _ A3), (hagree_sub _ _ iHistLbQ _ A3) by (unfold iHistLbE, iHistLbQ; lia). reflexivity. }
    assert (SQ : snglQuatN (pt_hist p) = snglQuatN (pt_hist q)) by (unfold snglQuatN; rewrite (hagree_sub _ _ _ _ A3) by (unfold iHistLbQ; lia); reflexivity).
    rewrite SU, ST, SQ, (hagree_sub _ _ iHistLbH _ A3), (hagree_sub _ _ (iHistLbGdot (k_nH (m_kin m))) _ A3) by (unfold iHistLbH, iHistLbGdot, iHistLbH; lia).
    destruct (k_updateH (m_kin m) _ dt _) as [[h_u nh]|]; [|split; [reflexivity|discriminate]].
    destruct (k_valsOk _ _ _ _); cbn [negb]; [|split; [reflexivity|discriminate]].
    rewrite SP. set (pr := snglProb m dt d w vr q h_u). set (r := solver _ _ _ _ _).
    destruct (so_converged r); cbn [negb]; [|split; [reflexivity|discriminate]].
    destruct (pt_mtan p) as [l|] eqn:EP; destruct (pt_mtan q) as [l'|] eqn:EQ; try contradiction.
    - destruct A6 as [L1 L2]. destruct (mtan_vecds lu pr (so_x r)) as [mv|]; [|split; [reflexivity|discriminate]].
      destruct (stateFromX pr (so_x r)) as [e_u q_u]. rewrite (hagree_out _ _ _ _ _ _ _ _ _ _ A3).
      rewrite !(gupdl_all (mtanSD_of _ _ _)) by (rewrite mtan_len; congruence).
      destruct (el_getGmod (m_el m)); [|split; [reflexivity|discriminate]]. cbn [fst snd pt_stress pt_mtan]. split; [reflexivity|]. intros _.
      unfold dsame. cbn [pt_stress pt_hist pt_tkelv pt_sdd pt_mtan]. rewrite !sdd_all, !updl7 by (assumption || reflexivity). repeat split.
    - destruct (stateFromX pr (so_x r)) as [e_u q_u]. rewrite (hagree_out _ _ _ _ _ _ _ _ _ _ A3).
      destruct (el_getGmod (m_el m)); [|split; [reflexivity|discriminate]]. cbn [fst snd pt_stress pt_mtan]. split; [reflexivity|]. intros _.
      unfold dsame. cbn [pt_stress pt_hist pt_tkelv pt_sdd pt_mtan]. rewrite !sdd_all, !updl7 by (assumption || reflexivity). repeat split.
  Qed.

  Section One.
    Variables (c : MClass T) (solver : Solver T) (lu : LUSolver T) (dt : T) (mtan : bool).
    Variables (s s' : MM T) (pars : list T) (n n' : nat) (m m' : Mem T) (i i' : nat).
    Hypothesis U : in_use c s pars.
    Hypothesis U' : in_use c s' pars.
    Hypothesis B : batch_ok c s mtan n m.
    Hypothesis B' : batch_ok c s' mtan n' m'.
    Hypothesis Hi : i < n.
    Hypothesis Hi' : i' < n'.
    Hypothesis HD : forall a k, In a [AD; AW; AV] -> k < per_point (c_nH c) (c_nslip c) mtan a -> entry s m a i k = entry s' m' a i' k.
    Hypothesis HE : entry s m AE i 0 = entry s' m' AE i' 0.
    Hypothesis HP : entry s m AS i 6 = entry s' m' AS i' 6.
    Hypothesis HS : same_history c s m i s' m' i'.
    Lemma in_dagree : dagree (pt_of c s mtan m i) (pt_of c s' mtan m' i').
    Proof.
      destruct (hist_tagree c mtan s s' n n' m m' i i' B B' Hi Hi' HD HS) as (T1 & T2 & T3 & T4 & T5 & _).
      split; [|split; [|split; [exact T2|split; [exact T3|split; [exact T1|split; [exact T4|split; [exact T5|]]]]]]].
      - apply get_same. unfold pt_of, pt_at. cbn [pt_eInt].
        change (cell (mm_strides s) (c_nH c) (c_nslip c) mtan) with (cell_of c s mtan). change (cell (mm_strides s') (c_nH c) (c_nslip c) mtan) with (cell_of c s' mtan).
        assert (Hp : 0 < per_point (c_nH c) (c_nslip c) mtan AE) by (cbn; clear; lia). rewrite (cell_entry c s mtan n m AE i 0 B Hi Hp), (cell_entry c s' mtan n' m' AE i' 0 B' Hi' Hp). exact HE.
      - apply get_same. unfold pt_of, pt_at. cbn [pt_stress].
        change (cell (mm_strides s) (c_nH c) (c_nslip c) mtan) with (cell_of c s mtan). change (cell (mm_strides s') (c_nH c) (c_nslip c) mtan) with (cell_of c s' mtan).
        assert (Hp : 6 < per_point (c_nH c) (c_nslip c) mtan AS) by (cbn; clear; lia). rewrite (cell_entry c s mtan n m AS i 6 B Hi Hp), (cell_entry c s' mtan n' m' AS i' 6 B' Hi' Hp). exact HP.
      - pose proof (cell_len c mtan s n m AM i B Hi) as L. pose proof (cell_len c mtan s' n' m' AM i' B' Hi') as L'. unfold pt_of, pt_at. cbn [pt_mtan]. destruct mtan; [|exact I]. split; [exact L|exact L'].
    Qed.
    Lemma one_dev mat tol : let one := fun s m i => getResponseSngl solver lu mat dt tol (cell_of c s mtan m AD i) (cell_of c s mtan m AW i) (cell_of c s mtan m AV i) (pt_of c s mtan m i) in
      fst (one s m i) = fst (one s' m' i') /\ (fst (one s m i) = Done -> dsame (snd (one s m i)) (snd (one s' m' i'))).
    Proof.
      cbv zeta beta. rewrite (cell_same c s s' mtan n n' m m' AD i i' B B' Hi Hi'), (cell_same c s s' mtan n n' m m' AW i i' B B' Hi Hi'), (cell_same c s s' mtan n n' m m' AV i i' B B' Hi Hi')
        by (intros k Hk; apply HD; [cbn; tauto|exact Hk]).
      apply sngl_dev. exact in_dagree.
    Qed.
    Lemma alone_dev : mm_complete s = true -> mm_complete s' = true -> fst (alone solver lu c s dt mtan m i) = fst (alone solver lu c s' dt mtan m' i').
    Proof.
      intros EC EC'. destruct (in_use_ok c s pars U) as (HR & mat & tol & HM). destruct (in_use_ok c s' pars U') as (HR' & _).
      assert (HM' : mm_ready s' = Some (mat, tol)) by (rewrite <- (in_use_ready c s s' pars U U'); exact HM).
      destruct (alone_spec c mtan solver lu dt s n m i mat tol HR EC HM B Hi) as (x & E & _). destruct (alone_spec c mtan solver lu dt s' n' m' i' mat tol HR' EC' HM' B' Hi') as (x' & E' & _).
      rewrite E, E'. cbn [fst]. f_equal. exact (proj1 (one_dev mat tol)).
    Qed.
    Lemma result_dev m1 m1' : mm_getResponse solver lu c s dt mtan (Z.of_nat n) m = (BRet Done, m1) -> mm_getResponse solver lu c s' dt mtan (Z.of_nat n') m' = (BRet Done, m1') ->
      forall a k, a <> AE -> k < per_point (c_nH c) (c_nslip c) mtan a -> entry s m1 a i k = entry s' m1' a i' k /\ entry s m1 a i k <> None.
    Proof.
      intros H H'. destruct (in_use_ok c s pars U) as (HR & mat & tol & HM). destruct (in_use_ok c s' pars U') as (HR' & _).
      assert (HM' : mm_ready s' = Some (mat, tol)) by (rewrite <- (in_use_ready c s s' pars U U'); exact HM).
      destruct (mm_complete s) eqn:EC; [|unfold mm_getResponse in H; rewrite EC in H; discriminate].
      destruct (mm_complete s') eqn:EC'; [|unfold mm_getResponse in H'; rewrite EC' in H'; discriminate].
      destruct (api_batch c s solver lu dt mtan n m mat tol HR EC HM B) as (o & x & F1 & UT & P).
      destruct (api_batch c s' solver lu dt mtan n' m' mat tol HR' EC' HM' B') as (o' & x' & F1' & UT' & P').
      rewrite H in F1. rewrite H' in F1'.
      assert (x = m1) by congruence. assert (o = Done) by congruence. assert (x' = m1') by congruence. assert (o' = Done) by congruence. subst. cbv zeta in P, P'.
      specialize (P i Hi). specialize (P' i' Hi'). cbv beta in P, P'.
      pose proof (one_dev mat tol) as [_ OS]. cbv zeta in OS. rewrite P in OS. specialize (OS eq_refl). rewrite P' in OS. cbn [snd] in OS.
      pose proof (batch_after c mtan s n m m1 UT B) as B1. pose proof (batch_after c mtan s' n' m' m1' UT' B') as B1'.
      destruct OS as (O1 & O2 & O3 & O4 & O5). unfold pt_of, pt_at in O1, O2, O3, O4, O5. cbn [pt_stress pt_hist pt_tkelv pt_sdd pt_mtan] in O1, O2, O3, O4, O5.
      change (cell (mm_strides s) (c_nH c) (c_nslip c) mtan) with (cell_of c s mtan) in O1, O2, O3, O4, O5. change (cell (mm_strides s') (c_nH c) (c_nslip c) mtan) with (cell_of c s' mtan) in O1, O2, O3, O4, O5.
      intros a k Ha Hk.
      assert (CE : nth_error (cell_of c s mtan m1 a i) k = nth_error (cell_of c s' mtan m1' a i') k).
      { assert (D : ro a \/ ~ ro a) by (unfold ro; destruct a; try (left; tauto); right; intros [|[|]]; discriminate). destruct D as [Hr|Hr].
        - f_equal. unfold cell_of, cell. rewrite (ro_not_own c mtan _ _ _ _ a Hr UT), (ro_not_own c mtan _ _ _ _ a Hr UT').
          apply (cell_same c s s' mtan n n' m m' a i i' B B' Hi Hi'). intros j Hj. apply HD; [|exact Hj]. unfold ro in Hr. cbn. intuition.
        - destruct a; try (exfalso; apply Hr; unfold ro; tauto).
          + now rewrite O1.
          + now rewrite O2.
          + pose proof (cell_len c mtan s n m1 AT i B1 Hi) as L. pose proof (cell_len c mtan s' n' m1' AT i' B1' Hi') as L'. cbn [per_point] in L, L', Hk.
            assert (k = 0) by (clear - Hk; lia). subst k. rewrite !nth_get by (rewrite ?L, ?L'; clear; lia). f_equal. exact O3.
          + now rewrite O4.
          + cbn [per_point] in Hk. destruct mtan; [|exfalso; clear - Hk; lia]. f_equal. apply (f_equal (fun o => match o with Some l => l | None => [] end)) in O5. exact O5. }
      rewrite <- (cell_entry c s mtan n m1 a i k B1 Hi Hk), <- (cell_entry c s' mtan n' m1' a i' k B1' Hi' Hk), CE. split; [reflexivity|].
      apply nth_error_Some. rewrite (cell_len c mtan s' n' m1' a i' B1' Hi'). exact Hk.
    Qed.
  End One.
  Section Way.
    Variables (c : MClass T) (pars : list T) (solver : Solver T) (lu : LUSolver T).
    Lemma visit_dev v v' : visit c pars solver lu v -> visit c pars solver lu v' -> same_drive c v v' -> same_energy v v' -> same_pressure v v' ->
      same_history c (v_s v) (v_m v) (v_i v) (v_s v') (v_m v') (v_i v') -> same_but_energy c v v'.
    Proof.
      intros (U & B & Hi & H) (U' & B' & Hi' & H') (D1 & D2 & D3) HE HP HS. rewrite <- D1 in H'. rewrite <- D2 in B', H'.
      exact (result_dev c solver lu (v_dt v) (v_mtan v) (v_s v) (v_s v') pars (v_n v) (v_n v') (v_m v) (v_m v') (v_i v) (v_i v') U U' B B' Hi Hi' D3 HE HP HS (v_m1 v) (v_m1 v') H H').
    Qed.
    Lemma journey_dev : forall l l', hjourney c pars solver lu l -> hjourney c pars solver lu l' -> Forall2 (same_drive c) l l' -> Forall2 same_energy l l' -> Forall2 same_pressure l l' ->
      same_hstart c l l' -> Forall2 (same_but_energy c) l l'.
    Proof.
      induction l as [|v l IH]; intros l' J J' D SE SP ST; [inversion D; constructor|]. inversion D as [|? v' ? r' D1 D2 E1 E2]. subst.
      assert (SS : same_energy v v' /\ Forall2 same_energy l r') by (inversion SE; split; assumption). assert (SS' : same_pressure v v' /\ Forall2 same_pressure l r') by (inversion SP; split; assumption).
      destruct SS as [SE1 SE2]. destruct SS' as [SP1 SP2]. cbn [hjourney] in J, J'. destruct J as (V & C & J). destruct J' as (V' & C' & J').
      assert (R : same_but_energy c v v') by exact (visit_dev v v' V V' D1 SE1 SP1 ST). constructor; [exact R|]. apply (IH r' J J' D2 SE2 SP2).
      destruct l as [|w l]; destruct r' as [|w' r']; cbn [same_hstart]; try exact I.
      intros k Hk Hn. rewrite <- (C k Hk Hn), <- (C' k Hk Hn). apply R; [discriminate|exact Hk].
    Qed.
    Lemma batch_dev s n m dt mtan : in_use c s pars -> mm_complete s = true -> batch_ok c s mtan n m ->
      (forall i, i < n -> exists v, visit c pars solver lu v /\ v_dt v = dt /\ v_mtan v = mtan /\
        (forall a k, In a [AD; AW; AV] -> k < per_point (c_nH c) (c_nslip c) mtan a -> entry s m a i k = entry (v_s v) (v_m v) a (v_i v) k) /\
        entry s m AE i 0 = entry (v_s v) (v_m v) AE (v_i v) 0 /\ entry s m AS i 6 = entry (v_s v) (v_m v) AS (v_i v) 6 /\ same_history c s m i (v_s v) (v_m v) (v_i v)) ->
      exists m1, mm_getResponse solver lu c s dt mtan (Z.of_nat n) m = (BRet Done, m1).
    Proof.
      intros U EC B H. destruct (in_use_ok c s pars U) as (HR & _). apply (alone_all c mtan solver lu dt s n m HR B EC). intros i Hi.
      destruct (H i Hi) as (v & (U' & B' & Hi' & E) & D1 & D2 & D3 & HE & HP & HS). rewrite D1, D2 in E. rewrite D2 in B'.
      destruct (in_use_ok c (v_s v) pars U') as (HR' & _).
      assert (EC' : mm_complete (v_s v) = true) by (destruct (mm_complete (v_s v)) eqn:X; [reflexivity|unfold mm_getResponse in E; rewrite X in E; discriminate]).
      destruct (alone_done c mtan solver lu dt (v_s v) (v_n v) (v_m v) (v_m1 v) HR' B' E (v_i v) Hi') as (x & A & _).
      pose proof (alone_dev c solver lu dt mtan s (v_s v) pars n (v_n v) m (v_m v) i (v_i v) U U' B B' Hi Hi' D3 HE HP HS EC EC') as X. rewrite A in X. cbn [fst] in X.
      destruct (alone solver lu c s dt mtan m i) as [o y]. cbn [fst] in X. exists y. now rewrite X.
    Qed.
  End Way.
End S.
