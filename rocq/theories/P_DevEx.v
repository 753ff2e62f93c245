(** The loop of the developer example against a call of the library. *)
From Coq Require Import List ZArith Bool Lia PeanoNat Reals Lra String.
From Verif Require Import Num Arr NumR Util SlipGeom Eos Hard KinVoce KinKMBalD Elast Evptn MatModel Cases Py PyBind PyExampleDev SpecTensor
  P_Tensor P_Eos P_Sngl P_Sngl2 P_Sngl3 P_Batch P_Batch2 P_Batch3 P_Api P_Builtin SpecApi P_Hist SpecBatch P_Batch4 SpecObj P_Api2 P_Demo SpecPy P_Py P_Py2 P_Py3 SpecDevEx.
Import ListNotations.
Local Open Scope R_scope.

Lemma getState_tot (v2 v3 : Dev R) x pt q : List.length (pt_eInt pt) = 1%nat -> dev_getState v2 x pt = Some (Done, v3, q) ->
  nth 0 (pt_eInt q) 0 = dv_eNew v2 + dv_eDevTot v3 /\ List.length (pt_eInt q) = 1%nat.
Proof.
  intros L. unfold dev_getState. destruct (dv_in v2) as [i|]; [|discriminate]. destruct (di_last i) as [ev|]; [|discriminate].
  cbv zeta. destruct stateFromX as [e u]. destruct el_getGmod as [g|]; intros H.
  - assert (H1 := f_equal (option_map (fun t => pt_eInt (snd t))) H).
    assert (H2 := f_equal (option_map (fun t => dv_eDevTot (snd (fst t)))) H). clear H.
    cbn [option_map snd fst pt_eInt dv_eDevTot] in H1, H2. apply some_inj in H1, H2. rewrite <- H1, <- H2.
    destruct (pt_eInt pt) as [|y [|]]; try discriminate L. split; reflexivity.
  - apply (f_equal (option_map (fun t => fst (fst t)))) in H. discriminate H.
Qed.
Lemma getState_some (v2 : Dev R) x pt i ev g : dv_in v2 = Some i -> di_last i = Some ev -> el_getGmod (m_el (dv_mat v2)) = Some g ->
  exists v3 q, dev_getState v2 x pt = Some (Done, v3, q).
Proof.
  intros E1 E2 E3. unfold dev_getState. rewrite E1, E2. cbv zeta. destruct stateFromX as [e u]. rewrite E3. eexists. eexists. reflexivity.
Qed.
Lemma setup_in (v v1 : Dev R) dt d w vr e st h : dev_setup v dt d w vr e st h = (Done, v1) ->
  (exists ii, dv_in v1 = Some ii) /\ dv_mat v1 = dv_mat v /\
  dv_eNew v1 = u_eNew (updateSimple (m_eos (dv_mat v)) (get vr 1) (get vr 3) (get e 0) (get st 6)).
Proof.
  unfold dev_setup. cbv zeta. destruct k_updateH as [[hu ?]|]; [|discriminate].
  destruct negb; [discriminate|]. intros H. apply (f_equal snd) in H. cbn [snd] in H. subst v1. cbn [dv_in dv_mat dv_eNew].
  split; [eexists; reflexivity|split; reflexivity].
Qed.
Lemma dev_run_app {v v1 v2 : Dev R} a b : dev_run v a = Some v1 -> dev_run v1 b = Some v2 -> dev_run v (a ++ b) = Some v2.
Proof.
  revert v. induction a as [|o a IH]; intros v H1 H2; [cbn in *; congruence|].
  cbn [app dev_run] in *. destruct (dev_step v o); [|discriminate]. now apply IH.
Qed.

(** ** One pass of the loop *)
Section C.
  Variables (hs : Solver R) (c : MClass R) (b : BCall) (i : nat) (pars : list R) (j1 j2 j3 : R) (v0 v : Dev R) (ops : list (DevOp R)) (root : Root R).
  Hypothesis G : good hs c b.
  Hypothesis HT : b_mtan b = false.
  Hypothesis Hi : (i < b_n b)%nat.
  Hypothesis U : in_use c (b_s b) pars.
  Hypothesis D : dev_make c pars j1 j2 j3 = POk v0.
  Hypothesis Rn : dev_run v0 ops = Some v.
  Let s := b_s b. Let m := b_m b. Let m1 := b_m1 b.
  Let P := point c s false m i.

  Lemma dev_callb : exists v1,
    dev_setup v (b_dt b) (P AD) (P AW) (P AV) (P AE) (P AS) (P AH) = (Done, v1) /\
    let r := b_solver b 8%nat (dev_rj v1) (nth 2 pars 0) 200%nat (repeat 0 8) in so_converged r = true /\
    forall xs v2 b0, xs <> [] -> last xs [] = so_xlast r -> dev_evals v1 xs = Some v2 -> List.length b0 = 2%nat ->
      exists v3 q, dev_getState v2 (so_x r) {| pt_eInt := P AE; pt_stress := P AS; pt_hist := P AH; pt_tkelv := tKel s m i; pt_sdd := b0; pt_mtan := None |} = Some (Done, v3, q) /\
        same_state c b i q /\ nth 3 (pt_hist q) 0 = 0 /\
        nth 0 (pt_eInt q) 0 = eInt s m i - delv s m i * pres s m i + dv_eDevTot v3 /\ List.length (pt_eInt q) = 1%nat /\
        dv_eDevTot v3 = dv_eDevTot v + j2 * inner (devStress s m1 i) (devRate s m i).
  Proof.
    destruct (dev_same_mat c b pars j1 j2 j3 v0 v ops U D Rn) as (mat & HM & EV & EH). fold s in HM.
    destruct (good_point hs c b i G Hi) as (mat' & tol & HM' & _ & K & S & E). cbv zeta in *.
    fold s m m1 in HM', K, S, E. rewrite HM in HM'.
    assert (EM : mat' = mat /\ tol = nth 2 pars 0) by (clear - HM'; split; congruence). destruct EM as [-> ->].
    rewrite HT in S, E.
    assert (MT : pt_mtan (pt_of c s false m i) = None) by reflexivity.
    destruct (dev_point _ _ mat (b_dt b) (nth 2 pars 0) _ _ _ _ _ v MT S EV E) as (v1 & E1 & E2 & E3).
    pose proof (cell_point hs c b i G HT Hi) as CP. fold s m in CP.
    pose proof (cell_point1 hs c b i G HT Hi) as CP1. fold s m1 in CP1.
    pose proof (get_point c b i) as GP. fold s m in GP.
    pose proof (get_point1 c b i) as GP1. fold s m1 in GP1.
    assert (P1 : pt_eInt (pt_of c s false m i) = P AE) by (unfold P; rewrite <- CP; reflexivity).
    assert (P2 : pt_stress (pt_of c s false m i) = P AS) by (unfold P; rewrite <- CP; reflexivity).
    assert (P3 : pt_hist (pt_of c s false m i) = P AH) by (unfold P; rewrite <- CP; reflexivity).
    assert (P4 : pt_tkelv (pt_of c s false m i) = tKel s m i).
    { change (pt_tkelv (pt_of c s false m i)) with (get (cell_of c s false m AT i) 0). rewrite CP.
      change (nth 0 (point c s false m i AT) 0 = tKel s m i). rewrite GP by (cbn; lia). reflexivity. }
    assert (Q2 : pt_stress (pt_of c s false m1 i) = point c s false m1 i AS) by (rewrite <- CP1; reflexivity).
    assert (Q3 : pt_hist (pt_of c s false m1 i) = point c s false m1 i AH) by (rewrite <- CP1; reflexivity).
    assert (Q5 : pt_sdd (pt_of c s false m1 i) = point c s false m1 i AB) by (rewrite <- CP1; reflexivity).
    assert (Q4 : pt_tkelv (pt_of c s false m1 i) = tKel s m1 i).
    { change (pt_tkelv (pt_of c s false m1 i)) with (get (cell_of c s false m1 AT i) 0). rewrite CP1.
      change (nth 0 (point c s false m1 i AT) 0 = tKel s m1 i). rewrite GP1 by (cbn; lia). reflexivity. }
    rewrite P1, P2, P3, !CP in E1.
    assert (E1' : dev_setup v (b_dt b) (P AD) (P AW) (P AV) (P AE) (P AS) (P AH) = (Done, v1)) by exact E1. clear E1.
    exists v1. split; [exact E1'|]. split; [exact E2|].
    intros xs v2 b0 HX HL HE HB.
    destruct (setup_in _ _ _ _ _ _ _ _ _ E1') as ((ii & II) & _ & NW).
    destruct (evals_last xs v1 v2 ii II HX HE) as (_ & _ & _ & NW2 & _).
    assert (LE : List.length (P AE) = 1%nat) by (unfold P, point; now rewrite map_length, seq_length).
    assert (LS : List.length (P AS) = 7%nat) by (unfold P, point; now rewrite map_length, seq_length).
    destruct (E3 xs v2 (P AE) (P AS) b0 HX HL HE LE LS HB) as (v3 & q & F0 & F1 & F2 & F3 & F4 & F5 & F6 & F7).
    rewrite P3, P4 in F0. exists v3, q. split; [exact F0|].
    assert (EN : dv_eNew v2 = eInt s m i - delv s m i * pres s m i).
    { rewrite NW2, NW. unfold updateSimple. cbv zeta. cbn [u_eNew].
      change (@nsub R RNum) with Rminus. change (@nmul R RNum) with Rmult. change (@get R RNum) with (fun (l : list R) k => nth k l 0). cbv beta.
      unfold P, eInt, delv, pres. rewrite !GP by (cbn; lia). reflexivity. }
    pose proof (fun H => getState_tot v2 v3 _ _ _ H F0) as F8. cbn [pt_eInt] in F8. destruct (F8 LE) as [F8' F9]. clear F8. rename F8' into F8. rewrite EN in F8.
    assert (FF : nth 0 (pt_eInt q) 0 = eInt s m i - delv s m i * pres s m i + (dv_eDevTot v + j2 * inner (devStress s m1 i) (devRate s m i))).
    { transitivity (get (pt_eInt q) 0); [reflexivity|]. rewrite F7, EH, P1, P2, Q2, !CP, innerSvec. unfold P.
      unfold snglUpd, updateSimple. cbv zeta. cbn [u_eNew]. unfold eInt, delv, pres, devStress, devRate, sym6.
      change (@nsub R RNum) with Rminus. change (@nmul R RNum) with Rmult.
      change (@get R RNum) with (fun (l : list R) k => nth k l 0). cbv beta.
      rewrite !GP, !GP1 by (cbn; lia). reflexivity. }
    split; [|split; [exact F6|split; [exact F8|split; [exact F9|lra]]]].
    unfold same_state. fold s m1. rewrite F1, F2, F3, F4, Q2, Q3, Q4, Q5. refine (conj eq_refl (conj eq_refl (conj eq_refl (conj _ _)))).
    - unfold point. rewrite map_length, seq_length. reflexivity.
    - intros k Hk H3. transitivity (get (pt_hist (pt_of c s false m1 i)) k); [exact (F5 k H3)|].
      rewrite Q3. exact (GP1 AH k Hk).
  Qed.

  Lemma devex_pass : finds_as (b_solver b) root -> exists v3 r1 ops',
    devex_point root v (b_dt b) (nth 2 pars 0) (devex_sdd P) = Some (Done, v3, r1) /\ dev_run v ops' = Some v3 /\
    dv_eDevTot v3 = dv_eDevTot v + j2 * inner (devStress s m1 i) (devRate s m i) /\
    r1 AE = [eInt s m i - delv s m i * pres s m i + dv_eDevTot v3] /\ r1 AT = [tKel s m i] /\
    r1 AS = point c s false m1 i AS /\ r1 AB = point c s false m1 i AB /\
    List.length (r1 AH) = mm_numHist c /\ (forall k, (k < mm_numHist c)%nat -> k <> 3%nat -> nth k (r1 AH) 0 = val s m1 AH i k) /\ nth 3 (r1 AH) 0 = 0 /\
    r1 AD = P AD /\ r1 AW = P AW /\ r1 AV = P AV.
  Proof.
    intros FA. destruct dev_callb as (v1 & E1 & E2 & E3). cbv zeta in *.
    destruct (setup_in _ _ _ _ _ _ _ _ _ E1) as ((ii & II) & _ & _).
    destruct (FA (dev_rj v1) (nth 2 pars 0) E2) as (A1 & A2 & A3). cbv zeta in A1, A2, A3.
    set (r := b_solver b 8%nat (dev_rj v1) (nth 2 pars 0) 200%nat (repeat 0 8)) in *. clearbody r.
    change (repeat 0 8) with (repeat (@nZ R RNum 0) 8) in A1, A2, A3. change (dev_rj v1) with (devex_rj v1) in A1, A2, A3.
    destruct (evals_some (ro_evals (root (devex_rj v1) (nth 2 pars 0) (repeat (nZ 0) 8))) v1 ii II) as [v2 EV].
    destruct (E3 _ v2 (repeat (nZ 0) 2) A2 A3 EV eq_refl) as (v3 & q & F0 & (S1 & S2 & S3 & S4 & S5) & F1 & F2 & F3 & F4).
    assert (TK : get (P AT) 0 = tKel s m i).
    { change (nth 0 (point c (b_s b) false (b_m b) i AT) 0 = tKel s m i). rewrite (get_point c b i) by (cbn; lia). reflexivity. }
    unfold devex_point. cbn [devex_sdd]. rewrite E1. cbv zeta. unfold dev_evals in EV. rewrite EV. unfold bound_getState. rewrite A1, TK, F0.
    eexists. eexists. exists ([DSetup (b_dt b) (P AD) (P AW) (P AV) (P AE) (P AS) (P AH)] ++ map DRJ (ro_evals (root (devex_rj v1) (nth 2 pars 0) (repeat (nZ 0) 8))) ++ [DState (so_x r) {| pt_eInt := P AE; pt_stress := P AS; pt_hist := P AH; pt_tkelv := tKel s m i; pt_sdd := repeat (nZ 0) 2; pt_mtan := None |}]).
    split; [reflexivity|]. split.
    { apply (dev_run_app (v1 := v1)); [cbn [dev_run dev_step]; now rewrite E1|]. apply (dev_run_app (v1 := v2)); [exact EV|].
      cbn [dev_run dev_step]. rewrite F0. reflexivity. }
    split; [exact F4|]. split.
    { cbn [devex_sdd]. destruct (pt_eInt q) as [|y [|]]; try discriminate F3. cbn [nth] in F2. now rewrite F2. }
    repeat (split; [first [reflexivity|assumption]|]). reflexivity.
  Qed.
End C.

(** ** The loop *)
Section L.
  Variables (hs : Solver R) (c : MClass R) (b : BCall) (pars : list R) (j1 j2 j3 : R) (v0 : Dev R) (root : Root R).
  Hypothesis G : good hs c b.
  Hypothesis HT : b_mtan b = false.
  Hypothesis U : in_use c (b_s b) pars.
  Hypothesis D : dev_make c pars j1 j2 j3 = POk v0.
  Hypothesis FA : finds_as (b_solver b) root.
  Let s := b_s b. Let m := b_m b. Let m1 := b_m1 b.
  Let w k := inner (devStress s m1 k) (devRate s m k).
  Let row i := point c s false m i.

  (** work of the points from [a] to [a + k] *)
  Fixpoint wsum (a k : nat) : R := match k with O => w a | S j => w a + wsum (S a) j end.
  Lemma wsum_last a k : wsum a (S k) = wsum a k + w (a + S k).
  Proof.
    revert a. induction k as [|k IH]; intros a.
    - cbn [wsum]. now replace (a + 1)%nat with (S a) by lia.
    - change (wsum a (S (S k))) with (w a + wsum (S a) (S k)). rewrite IH. cbn [wsum]. replace (S a + S k)%nat with (a + S (S k))%nat by lia. ring.
  Qed.
  Lemma wsum_work k : wsum 0 k = work_upto b k.
  Proof. induction k as [|k IH]; [reflexivity|]. rewrite wsum_last, IH. reflexivity. Qed.

  Definition row_ok (tot : R) (i : nat) (r : arr -> list R) : Prop :=
    r AE = [eInt s m i - delv s m i * pres s m i + tot] /\ r AT = [tKel s m i] /\
    r AS = point c s false m1 i AS /\ r AB = point c s false m1 i AB /\
    List.length (r AH) = mm_numHist c /\ (forall k, (k < mm_numHist c)%nat -> k <> 3%nat -> nth k (r AH) 0 = val s m1 AH i k) /\ nth 3 (r AH) 0 = 0 /\
    r AD = row i AD /\ r AW = row i AW /\ r AV = row i AV.

  Lemma devex_rows len : forall a v ops d, (a + len <= b_n b)%nat -> dev_run v0 ops = Some v ->
    exists v' rs, devex_loop root v (b_dt b) (nth 2 pars 0) (map (fun i => devex_sdd (row i)) (seq a len)) = Some (Done, v', rs) /\ List.length rs = len /\
      forall k, (k < len)%nat -> row_ok (dv_eDevTot v + j2 * wsum a k) (a + k) (nth k rs d).
  Proof.
    induction len as [|len IH]; intros a v ops d Hn HR.
    - exists v, []. split; [reflexivity|]. split; [reflexivity|]. intros k Hk. lia.
    - assert (Ha : (a < b_n b)%nat) by lia.
      destruct (devex_pass hs c b a pars j1 j2 j3 v0 v ops root G HT Ha U D HR FA) as (v3 & r1 & ops' & H1 & H2 & H3 & H4).
      pose proof (dev_run_app _ _ HR H2) as HR'.
      destruct (IH (S a) v3 _ d ltac:(lia) HR') as (v' & rs & L1 & L2 & L3).
      exists v', (r1 :: rs). cbn [seq map devex_loop].
      change (devex_sdd (row a)) with (devex_sdd (point c (b_s b) false (b_m b) a)). rewrite H1, L1.
      split; [reflexivity|]. split; [cbn; now rewrite L2|].
      intros [|k] Hk.
      + rewrite Nat.add_0_r. cbn [nth wsum]. unfold row_ok. change (w a) with (inner (devStress (b_s b) (b_m1 b) a) (devRate (b_s b) (b_m b) a)). rewrite <- H3. exact H4.
      + cbn [nth]. replace (a + S k)%nat with (S a + k)%nat by lia.
        assert (EW : dv_eDevTot v + j2 * wsum a (S k) = dv_eDevTot v3 + j2 * wsum (S a) k).
        { rewrite H3. cbn [wsum]. unfold w. fold s m m1. ring. }
        rewrite EW. apply L3. lia.
  Qed.

  Lemma devex_all v ops d : dev_run v0 ops = Some v ->
    exists v' rs, devex_solve root v (b_dt b) (nth 2 pars 0) (rows_of c b) = Some (Done, v', rs) /\ List.length rs = b_n b /\
      forall i, (i < b_n b)%nat -> row_ok (dv_eDevTot v + j2 * work_upto b i) i (nth i rs d).
  Proof.
    intros HR. destruct (devex_rows (b_n b) 0 v ops d ltac:(lia) HR) as (v' & rs & L1 & L2 & L3).
    exists v', rs. unfold devex_solve, rows_of. rewrite map_map. split; [exact L1|]. split; [exact L2|].
    intros i Hi. rewrite <- wsum_work. exact (L3 i Hi).
  Qed.
End L.
