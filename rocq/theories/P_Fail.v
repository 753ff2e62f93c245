(** What a failed call leaves behind (C67). *)
From Coq Require Import List ZArith Bool Lia PeanoNat.
From Verif Require Import Num Arr Util SlipGeom Eos Hard Elast Evptn MatModel Cases P_Sngl P_Sngl2 P_Batch P_Batch2 P_Batch3 P_Api P_Api2 P_Builtin SpecApi P_Hist SpecBatch P_Batch4 P_Gen P_State SpecState P_State2.
Import ListNotations.
Local Open Scope nat_scope.

Section S.
  Context {T : Type} {N : Num T}.
  (** a point that fails before the results are stored *)
  Lemma sngl_failed solver lu m dt tol d w vr (p p' : Pt T) o : el_getGmod (m_el m) <> None -> getResponseSngl solver lu m dt tol d w vr p = (o, p') -> o <> Done ->
    pt_eInt p' = pt_eInt p /\ pt_stress p' = pt_stress p /\ pt_hist p' = pt_hist p /\ pt_sdd p' = pt_sdd p /\ pt_mtan p' = pt_mtan p.
  Proof.
    intros HG E HO. unfold getResponseSngl in E. cbv zeta in E.
    assert (K : forall o' t, (o', {| pt_eInt := pt_eInt p; pt_stress := pt_stress p; pt_hist := pt_hist p; pt_tkelv := t; pt_sdd := pt_sdd p; pt_mtan := pt_mtan p |}) = (o, p') ->
      pt_eInt p' = pt_eInt p /\ pt_stress p' = pt_stress p /\ pt_hist p' = pt_hist p /\ pt_sdd p' = pt_sdd p /\ pt_mtan p' = pt_mtan p).
    { intros o' t X. apply (f_equal snd) in X. cbn [snd] in X. subst p'. repeat split. }
    destruct (k_updateH (m_kin m) _ dt _) as [[h_u nh]|]; [|exact (K _ _ E)].
    destruct (k_valsOk _ _ _ _); cbn [negb] in E; [|exact (K _ _ E)].
    set (pr := snglProb m dt d w vr p h_u) in E. set (r := solver _ _ _ _ _) in E.
    destruct (so_converged r); cbn [negb] in E; [|exact (K _ _ E)].
    destruct (el_getGmod (m_el m)) as [g|]; [|contradiction].
    destruct (pt_mtan p) as [l|] eqn:EP.
    - destruct (mtan_vecds lu pr (so_x r)) as [mv|].
      + destruct (stateFromX pr (so_x r)) as [e_u q_u]. apply (f_equal fst) in E. cbn [fst] in E. congruence.
      + exact (K _ _ E).
    - destruct (stateFromX pr (so_x r)) as [e_u q_u]. apply (f_equal fst) in E. cbn [fst] in E. congruence.
  Qed.
  Lemma sngl_gmod solver lu m dt tol d w vr (p p' : Pt T) : getResponseSngl solver lu m dt tol d w vr p = (Done, p') -> el_getGmod (m_el m) <> None.
  Proof.
    intros E HG. unfold getResponseSngl in E. cbv zeta in E. rewrite HG in E.
    destruct (k_updateH (m_kin m) _ dt _) as [[h_u nh]|]; [|discriminate].
    destruct (k_valsOk _ _ _ _); cbn [negb] in E; [|discriminate].
    destruct (so_converged _); cbn [negb] in E; [|discriminate].
    destruct (pt_mtan p) as [l|].
    - destruct (mtan_vecds lu _ _); [|discriminate]. destruct (stateFromX _ _). discriminate.
    - destruct (stateFromX _ _). discriminate.
  Qed.

  Variables (c : MClass T) (pars : list T).
  (** a call with these parameters has succeeded at some point: some object, some solvers, some input *)
  Definition proven : Prop := exists solver lu v, visit c pars solver lu v.
  Lemma proven_gmod s mat tol : in_use c s pars -> mm_ready s = Some (mat, tol) -> proven -> el_getGmod (m_el mat) <> None.
  Proof.
    intros U HM (solver & lu & v & U' & B' & Hi' & H').
    destruct (in_use_ok c (v_s v) pars U') as (HR' & _).
    assert (HM' : mm_ready (v_s v) = Some (mat, tol)) by (rewrite <- (in_use_ready c s (v_s v) pars U U'); exact HM).
    destruct (mm_complete (v_s v)) eqn:EC'; [|unfold mm_getResponse in H'; rewrite EC' in H'; discriminate].
    destruct (api_batch c (v_s v) solver lu (v_dt v) (v_mtan v) (v_n v) (v_m v) mat tol HR' EC' HM' B') as (o' & x' & E1' & UT' & P').
    rewrite H' in E1'. assert (x' = v_m1 v) by congruence. assert (o' = Done) by congruence. subst. cbv zeta in P'.
    exact (sngl_gmod _ _ _ _ _ _ _ _ _ _ (P' (v_i v) Hi')).
  Qed.

  Section One.
    Variables (solver : Solver T) (lu : LUSolver T) (dt : T) (mtan : bool) (s : MM T) (n : nat) (m : Mem T).
    Hypothesis U : in_use c s pars.
    Hypothesis PR : proven.
    Hypothesis EC : mm_complete s = true.
    Hypothesis B : batch_ok c s mtan n m.
    Notation call := (mm_getResponse solver lu c s dt mtan (Z.of_nat n) m).
    Lemma entries_kept m1 i : batch_ok c s mtan n m1 -> i < n -> untouched (mm_strides s) (c_nH c) (c_nslip c) mtan n m m1 ->
      pt_eInt (pt_of c s mtan m1 i) = pt_eInt (pt_of c s mtan m i) /\ pt_stress (pt_of c s mtan m1 i) = pt_stress (pt_of c s mtan m i) /\
      pt_hist (pt_of c s mtan m1 i) = pt_hist (pt_of c s mtan m i) /\ pt_sdd (pt_of c s mtan m1 i) = pt_sdd (pt_of c s mtan m i) /\
      pt_mtan (pt_of c s mtan m1 i) = pt_mtan (pt_of c s mtan m i) ->
      forall a k, a <> AT -> k < per_point (c_nH c) (c_nslip c) mtan a -> entry s m1 a i k = entry s m a i k.
    Proof.
      intros B1 Hi UT (X1 & X2 & X3 & X4 & X5) a k Ha Hk.
      rewrite <- (cell_entry c s mtan n m1 a i k B1 Hi Hk), <- (cell_entry c s mtan n m a i k B Hi Hk). f_equal.
      assert (D : ro a \/ ~ ro a) by (unfold ro; destruct a; try (left; tauto); right; intros [|[|]]; discriminate).
      destruct D as [Hr|Hr]; [unfold cell_of, cell; rewrite (ro_not_own c mtan _ _ _ _ _ Hr UT); reflexivity|].
      destruct a; try (exfalso; apply Hr; unfold ro; tauto); try contradiction; try assumption.
      unfold pt_of, pt_at in X5. cbn [pt_mtan] in X5. cbn [per_point] in Hk. destruct mtan; [apply (f_equal (fun o => match o with Some x => x | None => [] end)) in X5; exact X5|cbn in Hk; lia].
    Qed.
    Lemma failed_state m1 o : call = (BRet o, m1) -> o <> Done -> exists k, k < n /\
      (exists mk, alone solver lu c s dt mtan m k = (BRet o, mk)) /\
      (forall i, i < k -> exists mi, alone solver lu c s dt mtan m i = (BRet Done, mi) /\ forall a, mi a = point c s mtan m1 i a) /\
      (forall i, k <= i < n -> forall a j, (i = k -> a <> AT) -> j < per_point (c_nH c) (c_nslip c) mtan a -> entry s m1 a i j = entry s m a i j).
    Proof.
      intros H HO. destruct (in_use_ok c s pars U) as (HR & mat & tol & HM). pose proof (proven_gmod s mat tol U HM PR) as HG.
      destruct (alone_failed c mtan solver lu dt s n m m1 o HR B EC H HO) as (k & Hk & (mk & A1 & A2) & L & G).
      destruct (api_batch c s solver lu dt mtan n m mat tol HR EC HM B) as (o' & m1' & E & UT & P).
      rewrite H in E. assert (m1' = m1) by congruence. assert (o' = o) by congruence. subst. cbv zeta in P.
      assert (P' : exists k, k < n /\ getResponseSngl solver lu mat dt tol (cell_of c s mtan m AD k) (cell_of c s mtan m AW k) (cell_of c s mtan m AV k) (pt_of c s mtan m k) = (o, pt_of c s mtan m1 k) /\
           (forall i, i < k -> getResponseSngl solver lu mat dt tol (cell_of c s mtan m AD i) (cell_of c s mtan m AW i) (cell_of c s mtan m AV i) (pt_of c s mtan m i) = (Done, pt_of c s mtan m1 i)) /\
           (forall i, k < i < n -> pt_of c s mtan m1 i = pt_of c s mtan m i)) by (destruct o; [congruence|exact P|exact P]).
      clear P. destruct P' as (k' & Hk' & Pk & Pl & Pg).
      assert (k' = k).
      { destruct (alone_spec c mtan solver lu dt s n m k mat tol HR EC HM B Hk) as (x & X & _). destruct (alone_spec c mtan solver lu dt s n m k' mat tol HR EC HM B Hk') as (x' & X' & _).
        rewrite Pk in X'. cbn [fst] in X'. rewrite A1 in X.
        destruct (Nat.lt_trichotomy k' k) as [Lt|[Eq|Gt]]; [|exact Eq|].
        - destruct (L k' Lt) as (mi & Y & _). rewrite Y in X'. congruence.
        - rewrite (Pl k Gt) in X. cbn [fst] in X. congruence. }
      subst k'. exists k. split; [exact Hk|]. split; [now exists mk|]. split; [exact L|].
      intros i [Hi Hn] a j Ha Hj. pose proof (batch_after c mtan s n m m1 UT B) as B1.
      destruct (Nat.eq_dec i k) as [->|Ne].
      - apply (entries_kept m1 k B1 Hk UT); [|exact (Ha eq_refl)|exact Hj]. exact (sngl_failed _ _ _ _ _ _ _ _ _ _ _ HG Pk HO).
      - rewrite <- (cell_entry c s mtan n m1 a i j B1 Hn Hj), <- (cell_entry c s mtan n m a i j B Hn Hj).
        rewrite <- (point_cell c mtan s n m1 a i B1 Hn), <- (point_cell c mtan s n m a i B Hn). assert (Lt : k < i) by (clear - Hi Ne; lia). now rewrite (G i (conj Lt Hn)).
    Qed.
    (** with threads: when all have stopped, each point has either its results or its state *)
    Lemma failed_threads ts ps m2 : mm_tasks solver lu c s dt mtan (Z.of_nat n) = Some ts -> psteps (ts, m) (ps, m2) -> ended ps ->
      forall i, i < n -> exists o mi, alone solver lu c s dt mtan m i = (BRet o, mi) /\ (forall a, point c s mtan m2 i a = mi a) /\
        (o <> Done -> forall a j, a <> AT -> j < per_point (c_nH c) (c_nslip c) mtan a -> entry s m2 a i j = entry s m a i j).
    Proof.
      intros HT HP HE i Hi. destruct (in_use_ok c s pars U) as (HR & mat & tol & HM). pose proof (proven_gmod s mat tol U HM PR) as HG.
      destruct (threads_inv c mtan solver lu dt s n m ts ps m2 HR B HT HP) as (L & UT & H).
      destruct (nth_error ps i) as [p|] eqn:Ep; [|apply nth_error_None in Ep; lia].
      destruct (proj2 (H i p Ep)) as (o & mi & A1 & A2 & A3). exists o, mi. split; [exact A1|].
      destruct (HE p (nth_error_In _ _ Ep)) as [r Er]. rewrite Er in A2, A3. cbn [exec fst snd] in A2, A3. split; [exact A3|].
      intros HO a j Ha Hj. pose proof (batch_after c mtan s n m m2 UT B) as B1.
      apply (entries_kept m2 i B1 Hi UT); [|exact Ha|exact Hj].
      destruct (alone_spec c mtan solver lu dt s n m i mat tol HR EC HM B Hi) as (x & X1 & X2 & X3 & X4). rewrite A1 in X1.
      assert (mi = x) by congruence. subst x. assert (Eo : fst (getResponseSngl solver lu mat dt tol (cell_of c s mtan m AD i) (cell_of c s mtan m AW i) (cell_of c s mtan m AV i) (pt_of c s mtan m i)) = o) by congruence.
      assert (E0 : pt_of c s mtan mi 0 = pt_of c s mtan m2 i).
      { unfold pt_of, pt_at. change (cell (mm_strides s) (c_nH c) (c_nslip c) mtan) with (cell_of c s mtan). 
        assert (CE : forall b, cell_of c s mtan mi b 0 = cell_of c s mtan m2 b i).
        { intros b. rewrite (cell_whole c mtan s mi b X2), <- A3. exact (point_cell c mtan s n m2 b i B1 Hi). }
        now rewrite !CE. }
      rewrite <- E0, X3. destruct (getResponseSngl solver lu mat dt tol _ _ _ _) as [o' p'] eqn:ES. cbn [fst snd] in *. subst o'.
      exact (sngl_failed _ _ _ _ _ _ _ _ _ _ _ HG ES HO).
    Qed.
  End One.
  (** calls that never succeed: if nothing is proven, a call on at least one point fails *)
  Lemma never solver lu dt mtan s n m m1 : in_use c s pars -> batch_ok c s mtan n m -> 0 < n -> ~ proven -> mm_getResponse solver lu c s dt mtan (Z.of_nat n) m <> (BRet Done, m1).
  Proof.
    intros U B Hn HP H. apply HP. exists solver, lu, {| v_s := s; v_dt := dt; v_mtan := mtan; v_n := n; v_i := 0; v_m := m; v_m1 := m1 |}. exact (conj U (conj B (conj Hn H))).
  Qed.
End S.

Section Retry.
  Context {T : Type} {N : Num T}.
  Variables (c : MClass T) (pars : list T).
  (** going on from what the failed call left is going on from what there was before it *)
  Lemma retry solver lu dt mtan s n (m m1 : Mem T) o : in_use c s pars -> proven c pars -> mm_complete s = true -> batch_ok c s mtan n m ->
    mm_getResponse solver lu c s dt mtan (Z.of_nat n) m = (BRet o, m1) -> o <> Done ->
    exists k, k < n /\ (forall i, i < k -> exists mi, alone solver lu c s dt mtan m i = (BRet Done, mi)) /\
    forall i, k <= i < n -> forall solver' lu' l l', journey c pars solver' lu' l -> journey c pars solver' lu' l' -> Forall2 (same_drive c) l l' ->
      (forall v r, l = v :: r -> same_state c s m i (v_s v) (v_m v) (v_i v)) -> (forall v r, l' = v :: r -> same_state c s m1 i (v_s v) (v_m v) (v_i v)) ->
      Forall2 (same_result c) l l'.
  Proof.
    intros U PR EC B H HO. destruct (failed_state c pars solver lu dt mtan s n m U PR EC B m1 o H HO) as (k & Hk & _ & L & G).
    exists k. split; [exact Hk|]. split; [intros i Hi; destruct (L i Hi) as (mi & A & _); now exists mi|].
    intros i Hi solver' lu' l l' J J' D S S'. apply (journey_same c pars solver' lu' l l' J J' D).
    destruct l as [|v r]; destruct l' as [|v' r']; cbn [same_start]; try exact I.
    intros a j Ha Hj Hn. rewrite <- (S v r eq_refl a j Ha Hj Hn), <- (S' v' r' eq_refl a j Ha Hj Hn). symmetry. apply (G i Hi).
    - intros _ X. subst a. cbn in Ha. intuition discriminate.
    - rewrite (pp_false c mtan) by (intros X; subst a; cbn in Ha; intuition discriminate). exact Hj.
  Qed.
End Retry.
