(** Mechanics and thermal state of the models with thermally activated slip (C77). *)
From Coq Require Import List ZArith Bool Lia PeanoNat.
From Verif Require Import Num Arr Util SlipGeom Eos Hard KinVoce KinKMBalD Elast Evptn MatModel Cases P_Sngl P_Sngl2 P_Batch P_Batch2 P_Batch3 P_Api P_Api2 P_Builtin SpecApi P_Hist SpecBatch P_Batch4 P_Gen P_State SpecState P_State2 P_Thermo SpecThermo P_Thermo2 SpecTemp.
Import ListNotations.
Local Open Scope nat_scope.

Section S.
  Context {T : Type} {N : Num T}.
  Lemma mts_pressureless hs (c : MClass T) pars a : mts_model hs c -> parts_of c pars a -> pressureless (pa_kin a) /\ (mts_cubic hs c -> el_hex (pa_el a) = false).
  Proof.
    intros HV (_ & P2 & P3 & _). split.
    - assert (E : exists v n, pa_kin a = km_kinetics hs v n).
      { destruct HV as [[-> | -> ] | -> ]; cbn [c_kinSet cls_FCC_B cls_BCC_A cls_HCP_A] in P3; unfold kinKM in P3; destruct (_ && _) in P3; try discriminate P3;
          apply (f_equal (fun o => match o with Some (k, _) => k | None => pa_kin a end)) in P3; rewrite <- P3; eexists; eexists; reflexivity. }
      destruct E as (v & n & ->). intros p p' t h. split; reflexivity.
    - intros [-> | -> ]; rewrite P2; reflexivity.
  Qed.
  Lemma get_nth (l l' : list T) i n k : k < n -> nth_error l (i + k) = nth_error l' (i + k) -> get (sub l i n) k = get (sub l' i n) k.
  Proof. intros K H. apply get_same. unfold sub. rewrite !ne_firstn, !ne_skipn by exact K. exact H. Qed.
  (** the temperature depends on the energy, the heat capacity and the last parameter only *)
  Lemma tk_eq iso (l l' : list T) vr e e' : get l 2 = get l' 2 -> get l 4 = get l' 4 -> get e 0 = get e' 0 ->
    snd (evalPT (eos_setParams iso l) (get vr 0) (get e 0)) = snd (evalPT (eos_setParams iso l') (get vr 0) (get e' 0)).
  Proof. intros H1 H2 H3. unfold evalPT, eos_setParams. cbv zeta. cbn [eos_iso eos_tK0 eos_dtde]. rewrite H1, H2, H3. destruct iso; reflexivity. Qed.
  Lemma two_temp hs (c : MClass T) s s' pars pars' : mts_model hs c -> same_but_pressure c pars pars' -> in_use c s pars -> in_use c s' pars' ->
    exists mat mat' tol, mm_ready s = Some (mat, tol) /\ mm_ready s' = Some (mat', tol) /\
      m_sg mat = m_sg mat' /\ m_kin mat = m_kin mat' /\ m_el mat = m_el mat' /\ pressureless (m_kin mat) /\ (mts_cubic hs c -> el_hex (m_el mat) = false) /\
      (forall vr e e', get e 0 = get e' 0 -> snglTkelv mat vr e = snglTkelv mat' vr e').
  Proof.
    intros HV HS U U'. destruct (in_use_gmat c s pars U) as (a & P & R). destruct (in_use_gmat c s' pars' U') as (b & Q & R').
    destruct (mts_pressureless hs c pars a HV P) as [HA HX].
    destruct P as (P1 & P2 & P3 & _). destruct Q as (Q1 & Q2 & Q3 & _).
    assert (NP : mm_nParams c = 3 + c_sgNP c + c_elNP c + c_kinNP c + 2) by (destruct HV as [[-> | -> ] | -> ]; reflexivity).
    rewrite <- (sub_same pars pars') in Q1 by (intros k K1 K2; apply HS; lia).
    rewrite <- (sub_same pars pars') in Q2 by (intros k K1 K2; apply HS; lia).
    rewrite <- (sub_same pars pars') in Q3 by (intros k K1 K2; apply HS; lia).
    rewrite P1 in Q1. rewrite <- P2 in Q2. rewrite P3 in Q3.
    assert (X1 : pa_sg a = pa_sg b) by (clear - Q1; congruence).
    assert (X3 : pa_kin a = pa_kin b) by (apply (f_equal (option_map fst)) in Q3; cbn [option_map fst] in Q3; clear - Q3; congruence).
    eexists. eexists. exists (get pars 2). split; [exact R|]. split.
    - rewrite R'. rewrite (get_same pars pars' 2); [reflexivity|]. apply HS; [lia|lia|]. rewrite NP. lia.
    - cbn [m_sg m_kin m_el]. split; [exact X1|]. split; [exact X3|]. split; [now rewrite Q2|]. split; [exact HA|]. split; [exact HX|].
      intros vr e e' He. unfold snglTkelv, parts_eos. cbn [m_eos]. apply tk_eq; [| |exact He].
      + change (get pars 1 = get pars' 1). apply get_same. apply HS; lia.
      + change (get (sub pars (3 + c_sgNP c + c_elNP c + c_kinNP c) 2) 1 = get (sub pars' (3 + c_sgNP c + c_elNP c + c_kinNP c) 2) 1).
        apply get_nth; [lia|]. apply HS; lia.
  Qed.

  Section One.
    Variables (hs : Solver T) (c : MClass T) (solver : Solver T) (lu : LUSolver T) (dt : T) (mtan : bool).
    Variables (s s' : MM T) (pars pars' : list T) (n n' : nat) (m m' : Mem T) (i i' : nat).
    Hypothesis HV : mts_model hs c.
    Hypothesis SM : same_but_pressure c pars pars'.
    Hypothesis U : in_use c s pars.
    Hypothesis U' : in_use c s' pars'.
    Hypothesis B : batch_ok c s mtan n m.
    Hypothesis B' : batch_ok c s' mtan n' m'.
    Hypothesis Hi : i < n.
    Hypothesis Hi' : i' < n'.
    Hypothesis HD : forall a k, In a [AD; AW; AV] -> k < per_point (c_nH c) (c_nslip c) mtan a -> entry s m a i k = entry s' m' a i' k.
    Hypothesis HE : entry s m AE i 0 = entry s' m' AE i' 0.
    Hypothesis HP : mts_cubic hs c \/ entry s m AS i 6 = entry s' m' AS i' 6.
    Hypothesis HS : same_history c s m i s' m' i'.

    Lemma one_temp mat mat' tol : m_sg mat = m_sg mat' -> m_kin mat = m_kin mat' -> m_el mat = m_el mat' -> pressureless (m_kin mat) -> (mts_cubic hs c -> el_hex (m_el mat) = false) ->
      (forall vr e e', get e 0 = get e' 0 -> snglTkelv mat vr e = snglTkelv mat' vr e') ->
      let one := fun mat s m i => getResponseSngl solver lu mat dt tol (cell_of c s mtan m AD i) (cell_of c s mtan m AW i) (cell_of c s mtan m AV i) (pt_of c s mtan m i) in
      fst (one mat s m i) = fst (one mat' s' m' i') /\ (fst (one mat s m i) = Done -> tsame (snd (one mat s m i)) (snd (one mat' s' m' i'))).
    Proof.
      intros E1 E2 E3 E4 E5 E6. cbv zeta beta.
      rewrite (cell_same c s s' mtan n n' m m' AD i i' B B' Hi Hi'), (cell_same c s s' mtan n n' m m' AW i i' B B' Hi Hi'), (cell_same c s s' mtan n n' m m' AV i i' B B' Hi Hi')
        by (intros k Hk; apply HD; [cbn; tauto|exact Hk]).
      apply sngl_temp; try assumption.
      - destruct HP as [X|X]; [left; exact (E5 X)|right]. unfold snglUpd, updateSimple. cbn [u_eNew]. unfold pt_of, pt_at. cbn [pt_eInt pt_stress].
        change (cell (mm_strides s) (c_nH c) (c_nslip c) mtan) with (cell_of c s mtan). change (cell (mm_strides s') (c_nH c) (c_nslip c) mtan) with (cell_of c s' mtan).
        rewrite (cell_same c s s' mtan n n' m m' AE i i' B B' Hi Hi') by (intros k Hk; cbn [per_point] in Hk; destruct k as [|k]; [exact HE|clear - Hk; lia]).
        f_equal. f_equal. apply get_same. assert (Hp : 6 < per_point (c_nH c) (c_nslip c) mtan AS) by (cbn; clear; lia).
        rewrite (cell_entry c s mtan n m AS i 6 B Hi Hp), (cell_entry c s' mtan n' m' AS i' 6 B' Hi' Hp). symmetry. exact X.
      - apply E6. unfold pt_of, pt_at. cbn [pt_eInt].
        change (cell (mm_strides s) (c_nH c) (c_nslip c) mtan) with (cell_of c s mtan). change (cell (mm_strides s') (c_nH c) (c_nslip c) mtan) with (cell_of c s' mtan).
        rewrite (cell_same c s s' mtan n n' m m' AE i i' B B' Hi Hi'); [reflexivity|]. intros k Hk. cbn [per_point] in Hk. destruct k as [|k]; [exact HE|lia].
      - exact (hist_tagree c mtan s s' n n' m m' i i' B B' Hi Hi' HD HS).
    Qed.
    Lemma alone_temp : mm_complete s = true -> mm_complete s' = true -> fst (alone solver lu c s dt mtan m i) = fst (alone solver lu c s' dt mtan m' i').
    Proof.
      intros EC EC'. destruct (in_use_ok c s pars U) as (HR & _). destruct (in_use_ok c s' pars' U') as (HR' & _).
      destruct (two_temp hs c s s' pars pars' HV SM U U') as (mat & mat' & tol & HM & HM' & E1 & E2 & E3 & E4 & E5 & E6).
      destruct (alone_spec c mtan solver lu dt s n m i mat tol HR EC HM B Hi) as (x & E & _). destruct (alone_spec c mtan solver lu dt s' n' m' i' mat' tol HR' EC' HM' B' Hi') as (x' & E' & _).
      rewrite E, E'. cbn [fst]. f_equal. exact (proj1 (one_temp mat mat' tol E1 E2 E3 E4 E5 E6)).
    Qed.
    Lemma result_temp m1 m1' : mm_getResponse solver lu c s dt mtan (Z.of_nat n) m = (BRet Done, m1) -> mm_getResponse solver lu c s' dt mtan (Z.of_nat n') m' = (BRet Done, m1') ->
      let eq a k := entry s m1 a i k = entry s' m1' a i' k /\ entry s m1 a i k <> None in
      (forall k, k < 6 -> eq AS k) /\ (forall k, k < mm_numHist c -> eq AH k) /\ eq AB 1.
    Proof.
      intros H H'. destruct (in_use_ok c s pars U) as (HR & _). destruct (in_use_ok c s' pars' U') as (HR' & _).
      destruct (two_temp hs c s s' pars pars' HV SM U U') as (mat & mat' & tol & HM & HM' & E1 & E2 & E3 & E4 & E5 & E6).
      destruct (mm_complete s) eqn:EC; [|unfold mm_getResponse in H; rewrite EC in H; discriminate].
      destruct (mm_complete s') eqn:EC'; [|unfold mm_getResponse in H'; rewrite EC' in H'; discriminate].
      destruct (api_batch c s solver lu dt mtan n m mat tol HR EC HM B) as (o & x & F1 & UT & P).
      destruct (api_batch c s' solver lu dt mtan n' m' mat' tol HR' EC' HM' B') as (o' & x' & F1' & UT' & P').
      rewrite H in F1. rewrite H' in F1'.
      assert (x = m1) by congruence. assert (o = Done) by congruence. assert (x' = m1') by congruence. assert (o' = Done) by congruence. subst. cbv zeta in P, P'.
      specialize (P i Hi). specialize (P' i' Hi'). cbv beta in P, P'.
      pose proof (one_temp mat mat' tol E1 E2 E3 E4 E5 E6) as [_ OS]. cbv zeta in OS. rewrite P in OS. specialize (OS eq_refl). rewrite P' in OS. cbn [snd] in OS.
      pose proof (batch_after c mtan s n m m1 UT B) as B1. pose proof (batch_after c mtan s' n' m' m1' UT' B') as B1'.
      destruct OS as (O1 & O2 & O3). unfold pt_of, pt_at in O1, O2, O3. cbn [pt_stress pt_hist pt_sdd] in O1, O2, O3.
      change (cell (mm_strides s) (c_nH c) (c_nslip c) mtan) with (cell_of c s mtan) in O1, O2, O3. change (cell (mm_strides s') (c_nH c) (c_nslip c) mtan) with (cell_of c s' mtan) in O1, O2, O3.
      assert (NN : forall a k, k < per_point (c_nH c) (c_nslip c) mtan a -> entry s m1 a i k <> None).
      { intros a k Hk. rewrite <- (cell_entry c s mtan n m1 a i k B1 Hi Hk). apply nth_error_Some. rewrite (cell_len c mtan s n m1 a i B1 Hi). exact Hk. }
      cbv zeta. split; [|split].
      - intros k Hk. assert (Hp : k < per_point (c_nH c) (c_nslip c) mtan AS) by (cbn; lia). split; [|exact (NN AS k Hp)].
        rewrite <- (cell_entry c s mtan n m1 AS i k B1 Hi Hp), <- (cell_entry c s' mtan n' m1' AS i' k B1' Hi' Hp).
        rewrite <- (ne_firstn _ 6 k Hk), O1, ne_firstn by exact Hk. reflexivity.
      - intros k Hk. assert (Hp : k < per_point (c_nH c) (c_nslip c) mtan AH) by exact Hk. split; [|exact (NN AH k Hp)].
        rewrite <- (cell_entry c s mtan n m1 AH i k B1 Hi Hp), <- (cell_entry c s' mtan n' m1' AH i' k B1' Hi' Hp). now rewrite O2.
      - assert (Hp : 1 < per_point (c_nH c) (c_nslip c) mtan AB) by (cbn; lia). split; [|exact (NN AB 1 Hp)].
        rewrite <- (cell_entry c s mtan n m1 AB i 1 B1 Hi Hp), <- (cell_entry c s' mtan n' m1' AB i' 1 B1' Hi' Hp). exact O3.
    Qed.
  End One.

  Section Way.
    Variables (hs : Solver T) (c : MClass T) (pars pars' : list T) (solver : Solver T) (lu : LUSolver T).
    Hypothesis HV : mts_model hs c.
    Hypothesis SM : same_but_pressure c pars pars'.
    Lemma visit_temp v v' : visit c pars solver lu v -> visit c pars' solver lu v' -> same_drive c v v' ->
      same_energy v v' -> mts_cubic hs c \/ same_pressure v v' -> same_history c (v_s v) (v_m v) (v_i v) (v_s v') (v_m v') (v_i v') -> same_mech_result c v v'.
    Proof.
      intros (U & B & Hi & H) (U' & B' & Hi' & H') (D1 & D2 & D3) HE HP HS. rewrite <- D1 in H'. rewrite <- D2 in B', H'.
      exact (result_temp hs c solver lu (v_dt v) (v_mtan v) (v_s v) (v_s v') pars pars' (v_n v) (v_n v') (v_m v) (v_m v') (v_i v) (v_i v') HV SM U U' B B' Hi Hi' D3 HE HP HS (v_m1 v) (v_m1 v') H H').
    Qed.
    Lemma journey_temp : forall l l', hjourney c pars solver lu l -> hjourney c pars' solver lu l' -> Forall2 (same_drive c) l l' -> Forall2 same_energy l l' -> mts_cubic hs c \/ Forall2 same_pressure l l' -> same_hstart c l l' -> Forall2 (same_mech_result c) l l'.
    Proof.
      induction l as [|v l IH]; intros l' J J' D SE SP ST; [inversion D; constructor|]. inversion D as [|? v' ? r' D1 D2 E1 E2]. subst. assert (SS : same_energy v v' /\ Forall2 same_energy l r') by (inversion SE; split; assumption). destruct SS as [SE1 SE2].
      assert (SQ : (mts_cubic hs c \/ same_pressure v v') /\ (mts_cubic hs c \/ Forall2 same_pressure l r')) by (destruct SP as [X|X]; [tauto|inversion X; tauto]). destruct SQ as [SP1 SP2]. cbn [hjourney] in J, J'. destruct J as (V & C & J). destruct J' as (V' & C' & J').
      assert (R : same_mech_result c v v') by exact (visit_temp v v' V V' D1 SE1 SP1 ST). constructor; [exact R|]. apply (IH r' J J' D2 SE2 SP2).
      destruct l as [|w l]; destruct r' as [|w' r']; cbn [same_hstart]; try exact I.
      intros k Hk Hn. rewrite <- (C k Hk Hn), <- (C' k Hk Hn). apply R. exact Hk.
    Qed.
    Lemma batch_temp s n m dt mtan : in_use c s pars -> mm_complete s = true -> batch_ok c s mtan n m ->
      (forall i, i < n -> exists v, visit c pars' solver lu v /\ v_dt v = dt /\ v_mtan v = mtan /\
        (forall a k, In a [AD; AW; AV] -> k < per_point (c_nH c) (c_nslip c) mtan a -> entry s m a i k = entry (v_s v) (v_m v) a (v_i v) k) /\
        entry s m AE i 0 = entry (v_s v) (v_m v) AE (v_i v) 0 /\ (mts_cubic hs c \/ entry s m AS i 6 = entry (v_s v) (v_m v) AS (v_i v) 6) /\ same_history c s m i (v_s v) (v_m v) (v_i v)) ->
      exists m1, mm_getResponse solver lu c s dt mtan (Z.of_nat n) m = (BRet Done, m1).
    Proof.
      intros U EC B H. destruct (in_use_ok c s pars U) as (HR & _). apply (alone_all c mtan solver lu dt s n m HR B EC). intros i Hi.
      destruct (H i Hi) as (v & (U' & B' & Hi' & E) & D1 & D2 & D3 & HE & HP & HS). rewrite D1, D2 in E. rewrite D2 in B'.
      destruct (in_use_ok c (v_s v) pars' U') as (HR' & _).
      assert (EC' : mm_complete (v_s v) = true) by (destruct (mm_complete (v_s v)) eqn:X; [reflexivity|unfold mm_getResponse in E; rewrite X in E; discriminate]).
      destruct (alone_done c mtan solver lu dt (v_s v) (v_n v) (v_m v) (v_m1 v) HR' B' E (v_i v) Hi') as (x & A & _).
      pose proof (alone_temp hs c solver lu dt mtan s (v_s v) pars pars' n (v_n v) m (v_m v) i (v_i v) HV SM U U' B B' Hi Hi' D3 HE HP HS EC EC') as X. rewrite A in X. cbn [fst] in X.
      destruct (alone solver lu c s dt mtan m i) as [o y]. cbn [fst] in X. exists y. now rewrite X.
    Qed.
  End Way.
  Lemma journey_cubic hs (c : MClass T) pars pars' solver lu : mts_cubic hs c -> same_but_pressure c pars pars' -> forall l l', hjourney c pars solver lu l -> hjourney c pars' solver lu l' ->
    Forall2 (same_drive c) l l' -> Forall2 same_energy l l' -> same_hstart c l l' -> Forall2 (same_mech_result c) l l'.
  Proof. intros V M l l' J J' D E S. exact (journey_temp hs c pars pars' solver lu (or_introl V) M l l' J J' D E (or_introl V) S). Qed.
  Lemma journey_hex hs (c : MClass T) pars pars' solver lu : c = cls_HCP_A hs -> same_but_pressure c pars pars' -> forall l l', hjourney c pars solver lu l -> hjourney c pars' solver lu l' ->
    Forall2 (same_drive c) l l' -> Forall2 same_energy l l' -> Forall2 same_pressure l l' -> same_hstart c l l' -> Forall2 (same_mech_result c) l l'.
  Proof. intros V M l l' J J' D E P S. exact (journey_temp hs c pars pars' solver lu (or_intror V) M l l' J J' D E (or_intror P) S). Qed.
  Lemma batch_cubic hs (c : MClass T) pars pars' solver lu : mts_cubic hs c -> same_but_pressure c pars pars' -> forall s n m dt mtan, in_use c s pars -> mm_complete s = true -> batch_ok c s mtan n m ->
    (forall i, i < n -> exists v, visit c pars' solver lu v /\ v_dt v = dt /\ v_mtan v = mtan /\
      (forall a k, In a [AD; AW; AV] -> k < per_point (c_nH c) (c_nslip c) mtan a -> entry s m a i k = entry (v_s v) (v_m v) a (v_i v) k) /\
      entry s m AE i 0 = entry (v_s v) (v_m v) AE (v_i v) 0 /\ same_history c s m i (v_s v) (v_m v) (v_i v)) ->
    exists m1, mm_getResponse solver lu c s dt mtan (Z.of_nat n) m = (BRet Done, m1).
  Proof.
    intros V M s n m dt mtan U EC B H. apply (batch_temp hs c pars pars' solver lu (or_introl V) M s n m dt mtan U EC B). intros i Hi.
    destruct (H i Hi) as (v & H1 & H2 & H3 & H4 & H5 & H6). exists v. exact (conj H1 (conj H2 (conj H3 (conj H4 (conj H5 (conj (or_introl V) H6)))))).
  Qed.
  Lemma batch_hex hs (c : MClass T) pars pars' solver lu : c = cls_HCP_A hs -> same_but_pressure c pars pars' -> forall s n m dt mtan, in_use c s pars -> mm_complete s = true -> batch_ok c s mtan n m ->
    (forall i, i < n -> exists v, visit c pars' solver lu v /\ v_dt v = dt /\ v_mtan v = mtan /\
      (forall a k, In a [AD; AW; AV] -> k < per_point (c_nH c) (c_nslip c) mtan a -> entry s m a i k = entry (v_s v) (v_m v) a (v_i v) k) /\
      entry s m AE i 0 = entry (v_s v) (v_m v) AE (v_i v) 0 /\ entry s m AS i 6 = entry (v_s v) (v_m v) AS (v_i v) 6 /\ same_history c s m i (v_s v) (v_m v) (v_i v)) ->
    exists m1, mm_getResponse solver lu c s dt mtan (Z.of_nat n) m = (BRet Done, m1).
  Proof.
    intros V M s n m dt mtan U EC B H. apply (batch_temp hs c pars pars' solver lu (or_intror V) M s n m dt mtan U EC B). intros i Hi.
    destruct (H i Hi) as (v & H1 & H2 & H3 & H4 & H5 & H6 & H7). exists v. exact (conj H1 (conj H2 (conj H3 (conj H4 (conj H5 (conj (or_intror H6) H7)))))).
  Qed.
End S.
