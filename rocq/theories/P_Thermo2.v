(** Mechanics and thermal state of the Voce models (C76). *)
From Coq Require Import List ZArith Bool Lia PeanoNat.
From Verif Require Import Num Arr Util SlipGeom Eos Hard KinVoce Elast Evptn MatModel Cases P_Sngl P_Sngl2 P_Batch P_Batch2 P_Batch3 P_Api P_Api2 P_Builtin SpecApi P_Hist SpecBatch P_Batch4 P_Gen P_State SpecState P_State2 P_Thermo SpecThermo.
Import ListNotations.
Local Open Scope nat_scope.

Section S.
  Context {T : Type} {N : Num T}.
  Lemma sub_same (l l' : list T) i n : (forall k, i <= k -> k < i + n -> nth_error l k = nth_error l' k) -> sub l i n = sub l' i n.
  Proof.
    intros H. unfold sub. apply lext. intros j. destruct (Nat.lt_ge_cases j n) as [Hj|Hj].
    - rewrite !ne_firstn, !ne_skipn by exact Hj. apply H; lia.
    - rewrite !(proj2 (nth_error_None _ _)); [reflexivity| |]; rewrite firstn_length; lia.
  Qed.
  Lemma get_same (l l' : list T) k : nth_error l k = nth_error l' k -> get l k = get l' k.
  Proof. intros H. unfold get. rewrite <- !nth_default_eq. unfold nth_default. now rewrite H. Qed.
  Lemma in_use_gmat (c : MClass T) s pars : in_use c s pars -> exists a, parts_of c pars a /\
    mm_ready s = Some ({| m_sg := pa_sg a; m_kin := pa_kin a; m_el := pa_el a; m_eos := parts_eos c pars a |}, get pars 2).
  Proof.
    intros [s0 o p st s1 ops HR HI HF]. destruct (init_done _ _ _ _ _ _ HI) as (_ & a & P & _ & ES).
    exists a. split; [exact P|]. destruct (run_harmless c ops s1 HF) as (E & _). rewrite E, ES. reflexivity.
  Qed.
  Lemma voce_athermal hs (c : MClass T) pars a : voce_model hs c -> parts_of c pars a -> athermal (pa_kin a) /\ el_hex (pa_el a) = false.
  Proof.
    intros HV (_ & P2 & P3 & _). split.
    - assert (E : exists v n, pa_kin a = voce_kinetics hs v n).
      { destruct HV as [-> | [-> | [-> | -> ]]]; cbn [c_kinSet cls_FCC_A cls_FCC_AH cls_BCC_B cls_BCC_BH] in P3; unfold kinVoce in P3;
          apply (f_equal (fun o => match o with Some (k, _) => k | None => pa_kin a end)) in P3; rewrite <- P3; eexists; eexists; reflexivity. }
      destruct E as (v & n & ->). intros p t p' t' h. split; reflexivity.
    - rewrite P2. destruct HV as [-> | [-> | [-> | -> ]]]; reflexivity.
  Qed.
  Lemma two_mats hs (c : MClass T) s s' pars pars' : voce_model hs c -> same_mechanics c pars pars' -> in_use c s pars -> in_use c s' pars' ->
    exists mat mat' tol, mm_ready s = Some (mat, tol) /\ mm_ready s' = Some (mat', tol) /\
      m_sg mat = m_sg mat' /\ m_kin mat = m_kin mat' /\ m_el mat = m_el mat' /\ athermal (m_kin mat) /\ el_hex (m_el mat) = false.
  Proof.
    intros HV HS U U'. destruct (in_use_gmat c s pars U) as (a & P & R). destruct (in_use_gmat c s' pars' U') as (b & Q & R').
    destruct (voce_athermal hs c pars a HV P) as [HA HX].
    destruct P as (P1 & P2 & P3 & _). destruct Q as (Q1 & Q2 & Q3 & _).
    assert (NP : mm_nParams c = 3 + c_sgNP c + c_elNP c + c_kinNP c + 2) by (destruct HV as [-> | [-> | [-> | -> ]]]; reflexivity).
    rewrite <- (sub_same pars pars') in Q1 by (intros k K1 K2; apply HS; lia).
    rewrite <- (sub_same pars pars') in Q2 by (intros k K1 K2; apply HS; lia).
    rewrite <- (sub_same pars pars') in Q3 by (intros k K1 K2; apply HS; lia).
    rewrite P1 in Q1. rewrite <- P2 in Q2. rewrite P3 in Q3.
    assert (X1 : pa_sg a = pa_sg b) by (clear - Q1; congruence).
    assert (X3 : pa_kin a = pa_kin b) by (apply (f_equal (option_map fst)) in Q3; cbn [option_map fst] in Q3; clear - Q3; congruence).
    eexists. eexists. exists (get pars 2). split; [exact R|]. split.
    - rewrite R'. rewrite (get_same pars pars' 2); [reflexivity|]. apply HS; [lia|]. rewrite NP. destruct HV as [-> | [-> | [-> | -> ]]]; cbn; lia.
    - cbn [m_sg m_kin m_el]. rewrite Q2. repeat split; try assumption; try (rewrite <- Q2; assumption); try apply HA.
  Qed.

  Section One.
    Variables (hs : Solver T) (c : MClass T) (solver : Solver T) (lu : LUSolver T) (dt : T) (mtan : bool).
    Variables (s s' : MM T) (pars pars' : list T) (n n' : nat) (m m' : Mem T) (i i' : nat).
    Hypothesis HV : voce_model hs c.
    Hypothesis SM : same_mechanics c pars pars'.
    Hypothesis U : in_use c s pars.
    Hypothesis U' : in_use c s' pars'.
    Hypothesis B : batch_ok c s mtan n m.
    Hypothesis B' : batch_ok c s' mtan n' m'.
    Hypothesis Hi : i < n.
    Hypothesis Hi' : i' < n'.
    Hypothesis HD : forall a k, In a [AD; AW; AV] -> k < per_point (c_nH c) (c_nslip c) mtan a -> entry s m a i k = entry s' m' a i' k.
    Hypothesis HS : same_history c s m i s' m' i'.

    Lemma hist_tagree : tagree (pt_of c s mtan m i) (pt_of c s' mtan m' i').
    Proof.
      unfold tagree, pt_of, pt_at. cbn [pt_eInt pt_stress pt_hist pt_sdd pt_mtan].
      change (cell (mm_strides s) (c_nH c) (c_nslip c) mtan) with (cell_of c s mtan). change (cell (mm_strides s') (c_nH c) (c_nslip c) mtan) with (cell_of c s' mtan).
      assert (L : forall a, length (cell_of c s mtan m a i) = per_point (c_nH c) (c_nslip c) mtan a) by (intros a; exact (cell_len c mtan s n m a i B Hi)).
      assert (L' : forall a, length (cell_of c s' mtan m' a i') = per_point (c_nH c) (c_nslip c) mtan a) by (intros a; exact (cell_len c mtan s' n' m' a i' B' Hi')).
      split; [|split; [exact (L AS)|split; [exact (L' AS)|split; [exact (L AB)|split; [exact (L' AB)|destruct mtan; exact I]]]]].
      apply hagree_intro.
      - rewrite L. cbn [per_point]. unfold numHist, iHistLbGdot, iHistLbH. lia.
      - now rewrite L, L'.
      - intros k K0 K2 K3. destruct (Nat.lt_ge_cases k (per_point (c_nH c) (c_nslip c) mtan AH)) as [Hj|Hj].
        + rewrite (cell_entry c s mtan n m AH i k B Hi Hj), (cell_entry c s' mtan n' m' AH i' k B' Hi' Hj). apply HS; [exact Hj|].
          intros X. cbn in X. lia.
        + rewrite !(proj2 (nth_error_None _ _)); [reflexivity|rewrite L'; exact Hj|rewrite L; exact Hj].
    Qed.
    Lemma one_thermo mat mat' tol : m_sg mat = m_sg mat' -> m_kin mat = m_kin mat' -> m_el mat = m_el mat' -> athermal (m_kin mat) -> el_hex (m_el mat) = false ->
      let one := fun mat s m i => getResponseSngl solver lu mat dt tol (cell_of c s mtan m AD i) (cell_of c s mtan m AW i) (cell_of c s mtan m AV i) (pt_of c s mtan m i) in
      fst (one mat s m i) = fst (one mat' s' m' i') /\ (fst (one mat s m i) = Done -> tsame (snd (one mat s m i)) (snd (one mat' s' m' i'))).
    Proof.
      intros E1 E2 E3 E4 E5. cbv zeta beta.
      rewrite (cell_same c s s' mtan n n' m m' AD i i' B B' Hi Hi'), (cell_same c s s' mtan n n' m m' AW i i' B B' Hi Hi'), (cell_same c s s' mtan n n' m m' AV i i' B B' Hi Hi')
        by (intros k Hk; apply HD; [cbn; tauto|exact Hk]).
      apply sngl_thermo; try assumption. exact hist_tagree.
    Qed.
    Lemma alone_thermo : mm_complete s = true -> mm_complete s' = true -> fst (alone solver lu c s dt mtan m i) = fst (alone solver lu c s' dt mtan m' i').
    Proof.
      intros EC EC'. destruct (in_use_ok c s pars U) as (HR & _). destruct (in_use_ok c s' pars' U') as (HR' & _).
      destruct (two_mats hs c s s' pars pars' HV SM U U') as (mat & mat' & tol & HM & HM' & E1 & E2 & E3 & E4 & E5).
      destruct (alone_spec c mtan solver lu dt s n m i mat tol HR EC HM B Hi) as (x & E & _). destruct (alone_spec c mtan solver lu dt s' n' m' i' mat' tol HR' EC' HM' B' Hi') as (x' & E' & _).
      rewrite E, E'. cbn [fst]. f_equal. exact (proj1 (one_thermo mat mat' tol E1 E2 E3 E4 E5)).
    Qed.
    Lemma result_thermo m1 m1' : mm_getResponse solver lu c s dt mtan (Z.of_nat n) m = (BRet Done, m1) -> mm_getResponse solver lu c s' dt mtan (Z.of_nat n') m' = (BRet Done, m1') ->
      let eq a k := entry s m1 a i k = entry s' m1' a i' k /\ entry s m1 a i k <> None in
      (forall k, k < 6 -> eq AS k) /\ (forall k, k < mm_numHist c -> eq AH k) /\ eq AB 1.
    Proof.
      intros H H'. destruct (in_use_ok c s pars U) as (HR & _). destruct (in_use_ok c s' pars' U') as (HR' & _).
      destruct (two_mats hs c s s' pars pars' HV SM U U') as (mat & mat' & tol & HM & HM' & E1 & E2 & E3 & E4 & E5).
      destruct (mm_complete s) eqn:EC; [|unfold mm_getResponse in H; rewrite EC in H; discriminate].
      destruct (mm_complete s') eqn:EC'; [|unfold mm_getResponse in H'; rewrite EC' in H'; discriminate].
      destruct (api_batch c s solver lu dt mtan n m mat tol HR EC HM B) as (o & x & F1 & UT & P).
      destruct (api_batch c s' solver lu dt mtan n' m' mat' tol HR' EC' HM' B') as (o' & x' & F1' & UT' & P').
      rewrite H in F1. rewrite H' in F1'.
      assert (x = m1) by congruence. assert (o = Done) by congruence. assert (x' = m1') by congruence. assert (o' = Done) by congruence. subst. cbv zeta in P, P'.
      specialize (P i Hi). specialize (P' i' Hi'). cbv beta in P, P'.
      pose proof (one_thermo mat mat' tol E1 E2 E3 E4 E5) as [_ OS]. cbv zeta in OS. rewrite P in OS. specialize (OS eq_refl). rewrite P' in OS. cbn [snd] in OS.
      pose proof (batch_after c mtan s n m m1 UT B) as B1. pose proof (batch_after c mtan s' n' m' m1' UT' B') as B1'.
      destruct OS as (O1 & O2 & O3). unfold pt_of, pt_at in O1, O2, O3. cbn [pt_stress pt_hist pt_sdd] in O1, O2, O3.
      change (cell (mm_strides s) (c_nH c) (c_nslip c) mtan) with (cell_of c s mtan) in O1, O2, O3. change (cell (mm_strides s') (c_nH c) (c_nslip c) mtan) with (cell_of c s' mtan) in O1, O2, O3.
      assert (NN : forall a k, k < per_point (c_nH c) (c_nslip c) mtan a -> entry s m1 a i k <> None).
      { intros a k Hk. rewrite <- (cell_entry c s mtan n m1 a i k B1 Hi Hk). apply nth_error_Some. rewrite (cell_len c mtan s n m1 a i B1 Hi). exact Hk. }
      cbv zeta. split; [|split].
      - intros k Hk. assert (Hp : k < per_point (c_nH c) (c_nslip c) mtan AS) by (cbn; lia). split; [|exact (NN AS k Hp)].
        rewrite <- (cell_entry c s mtan n m1 AS i k B1 Hi Hp), <- (cell_entry c s' mtan n' m1' AS i' k B1' Hi' Hp).
        rewrite <- (ne_firstn _ 6 k Hk), O1, ne_firstn by exact Hk. reflexivity.
      - intros k Hk. assert (Hp : k < per_point (c_nH c) (c_nslip c) mtan AH) by exact Hk. split; [|exact (NN AH k Hp)].
        rewrite <- (cell_entry c s mtan n m1 AH i k B1 Hi Hp), <- (cell_entry c s' mtan n' m1' AH i' k B1' Hi' Hp). now rewrite O2.
      - assert (Hp : 1 < per_point (c_nH c) (c_nslip c) mtan AB) by (cbn; lia). split; [|exact (NN AB 1 Hp)].
        rewrite <- (cell_entry c s mtan n m1 AB i 1 B1 Hi Hp), <- (cell_entry c s' mtan n' m1' AB i' 1 B1' Hi' Hp). exact O3.
    Qed.
  End One.

  Section Way.
    Variables (hs : Solver T) (c : MClass T) (pars pars' : list T) (solver : Solver T) (lu : LUSolver T).
    Hypothesis HV : voce_model hs c.
    Hypothesis SM : same_mechanics c pars pars'.
    Lemma visit_thermo v v' : visit c pars solver lu v -> visit c pars' solver lu v' -> same_drive c v v' ->
      same_history c (v_s v) (v_m v) (v_i v) (v_s v') (v_m v') (v_i v') -> same_mech_result c v v'.
    Proof.
      intros (U & B & Hi & H) (U' & B' & Hi' & H') (D1 & D2 & D3) HS. rewrite <- D1 in H'. rewrite <- D2 in B', H'.
      exact (result_thermo hs c solver lu (v_dt v) (v_mtan v) (v_s v) (v_s v') pars pars' (v_n v) (v_n v') (v_m v) (v_m v') (v_i v) (v_i v') HV SM U U' B B' Hi Hi' D3 HS (v_m1 v) (v_m1 v') H H').
    Qed.
    Lemma journey_thermo : forall l l', hjourney c pars solver lu l -> hjourney c pars' solver lu l' -> Forall2 (same_drive c) l l' -> same_hstart c l l' -> Forall2 (same_mech_result c) l l'.
    Proof.
      induction l as [|v l IH]; intros l' J J' D ST; [inversion D; constructor|]. inversion D as [|? v' ? r' D1 D2 E1 E2]. subst. cbn [hjourney] in J, J'. destruct J as (V & C & J). destruct J' as (V' & C' & J').
      assert (R : same_mech_result c v v') by exact (visit_thermo v v' V V' D1 ST). constructor; [exact R|]. apply (IH r' J J' D2).
      destruct l as [|w l]; destruct r' as [|w' r']; cbn [same_hstart]; try exact I.
      intros k Hk Hn. rewrite <- (C k Hk Hn), <- (C' k Hk Hn). apply R. exact Hk.
    Qed.
    Lemma batch_thermo s n m dt mtan : in_use c s pars -> mm_complete s = true -> batch_ok c s mtan n m ->
      (forall i, i < n -> exists v, visit c pars' solver lu v /\ v_dt v = dt /\ v_mtan v = mtan /\
        (forall a k, In a [AD; AW; AV] -> k < per_point (c_nH c) (c_nslip c) mtan a -> entry s m a i k = entry (v_s v) (v_m v) a (v_i v) k) /\
        same_history c s m i (v_s v) (v_m v) (v_i v)) ->
      exists m1, mm_getResponse solver lu c s dt mtan (Z.of_nat n) m = (BRet Done, m1).
    Proof.
      intros U EC B H. destruct (in_use_ok c s pars U) as (HR & _). apply (alone_all c mtan solver lu dt s n m HR B EC). intros i Hi.
      destruct (H i Hi) as (v & (U' & B' & Hi' & E) & D1 & D2 & D3 & HS). rewrite D1, D2 in E. rewrite D2 in B'.
      destruct (in_use_ok c (v_s v) pars' U') as (HR' & _).
      assert (EC' : mm_complete (v_s v) = true) by (destruct (mm_complete (v_s v)) eqn:X; [reflexivity|unfold mm_getResponse in E; rewrite X in E; discriminate]).
      destruct (alone_done c mtan solver lu dt (v_s v) (v_n v) (v_m v) (v_m1 v) HR' B' E (v_i v) Hi') as (x & A & _).
      pose proof (alone_thermo hs c solver lu dt mtan s (v_s v) pars pars' n (v_n v) m (v_m v) i (v_i v) HV SM U U' B B' Hi Hi' D3 HS EC EC') as X. rewrite A in X. cbn [fst] in X.
      destruct (alone solver lu c s dt mtan m i) as [o y]. cbn [fst] in X. exists y. now rewrite X.
    Qed.
  End Way.
End S.
