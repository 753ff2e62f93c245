(** The Python module: construction and solve. *)
From Coq Require Import List ZArith Bool Lia PeanoNat Reals Lra String.
From Verif Require Import Num Arr NumR Util SlipGeom Eos Hard KinVoce KinKMBalD Elast Evptn MatModel Cases Py SpecTensor
  P_Tensor P_Eos P_Sngl P_Sngl2 P_Sngl3 P_Batch P_Batch2 P_Batch3 P_Api P_Builtin SpecApi P_Hist SpecBatch P_Batch4 SpecObj P_Api2 P_Demo SpecPy.
Import ListNotations.
Local Open Scope nat_scope.

Lemma py_model_iff hs name c s : py_model hs name = Some (c, s) <->
  s = mm_new c /\ exists np nh, In (name, c, np, nh) (py_table hs).
Proof.
  unfold py_model, makeMatModel. cbn [String.eqb Ascii.eqb Bool.eqb]. split.
  - destruct (String.eqb_spec name "voce_fcc_norm") as [->|N1]; [|destruct (String.eqb_spec name "voce_nl_fcc_norm") as [->|N2];
     [|destruct (String.eqb_spec name "voce_bcc_norm") as [->|N3]; [|destruct (String.eqb_spec name "voce_nl_bcc_norm") as [->|N4];
     [|destruct (String.eqb_spec name "km_bal_dd_fcc_norm") as [->|N5]; [|destruct (String.eqb_spec name "km_bal_dd_bcc_norm") as [->|N6];
     [|destruct (String.eqb_spec name "km_bal_dd_hcp_norm") as [->|N7]; [|discriminate]]]]]]];
    intros H;
    match type of H with Some (?x, ?y) = Some (?a, ?b) => assert (Ec : a = x) by (apply (f_equal (option_map fst)) in H; cbn [option_map fst] in H; congruence);
       assert (Es : b = y) by (apply (f_equal (option_map snd)) in H; cbn [option_map snd] in H; congruence) end; subst; (split; [reflexivity|]);
    do 2 eexists; unfold py_table;
    [left|right;left|right;right;left|right;right;right;left|right;right;right;right;left|right;right;right;right;right;left|right;right;right;right;right;right;left]; reflexivity.
  - intros [-> (np & nh & Hin)]. cbn in Hin.
    repeat (destruct Hin as [Hin|Hin]; [injection Hin; intros; subst; reflexivity|]). contradiction.
Qed.

Lemma table_facts hs name c np nh : In (name, c, np, nh) (py_table hs) ->
  builtin hs c /\ mm_nParams c = np /\ mm_numHist c = nh.
Proof.
  intros Hin. cbn in Hin.
  repeat (destruct Hin as [Hin|Hin]; [injection Hin; intros; subst; (split; [unfold builtin; tauto|split; reflexivity])|]). contradiction.
Qed.

Lemma nth_skip {A} (l : list A) o k d : nth k (skipn o l) d = nth (o + k) l d.
Proof.
  revert o k. induction l as [|x l IH]; intros [|o] k; cbn; try reflexivity; [now destruct k|]. apply IH.
Qed.

Lemma nth_err_skip {A} (l : list A) o k : nth_error (skipn o l) k = nth_error l (o + k).
Proof.
  revert o k. induction l as [|x l IH]; intros [|o] k; cbn; try reflexivity; [now destruct k|]. apply IH.
Qed.

Lemma py_new_ok hs name a c s : py_new hs name a = POk (c, s) ->
  exists np nh pars, In (name, c, np, nh) (py_table hs) /\ py_shape a = [Z.of_nat np] /\ List.length pars = np /\
    pars = firstn np (py_ptr a) /\
    builtin hs c /\ reachable c s /\ in_use c s pars /\ mm_complete s = true /\ mm_accel s = CPU /\ mm_strides s = [7; 3; 4; 1; 7; nh; 1; 2] /\
    mm_getNumHist c = nh.
Proof.
  unfold py_new, py_params. destruct (py_shape a) as [|s0 [|]] eqn:ES; try discriminate.
  destruct (Nat.ltb_spec (List.length (py_ptr a)) (Z.to_nat s0)) as [H|H]; [discriminate|].
  destruct (py_model hs name) as [[c' s']|] eqn:EM; [|discriminate].
  destruct (mm_init c' s' [] (firstn (Z.to_nat s0) (py_ptr a)) []) as [o s1] eqn:EI. destruct o; try discriminate.
  intros E. assert (c' = c) by (clear - E; congruence). subst c'.
  assert (Es : s = mm_doComplete (mm_setExec s1 CPU)) by (clear - E; congruence). clear E.
  apply py_model_iff in EM. destruct EM as [-> (np & nh & Hin)].
  destruct (table_facts _ _ _ _ _ Hin) as (HB & HN & HH).
  set (pars := firstn (Z.to_nat s0) (py_ptr a)) in *.
  destruct (init_done _ _ _ _ _ _ EI) as ((HL & _) & _).
  assert (LP : List.length pars = Z.to_nat s0) by (unfold pars; apply firstn_length_le; exact H).
  exists np, nh, pars.
  assert (NP : Z.to_nat s0 = np) by lia.
  assert (F : s = fst (mm_run c s1 [OSetExec CPU; OComplete])) by (rewrite Es; reflexivity).
  assert (F' : fst (mm_run c (mm_new c) [OInit [] pars []; OSetExec CPU; OComplete]) = s).
  { unfold mm_run, mm_step. rewrite EI. rewrite Es. reflexivity. }
  refine (conj Hin (conj _ (conj _ (conj _ (conj HB (conj _ (conj _ (conj _ (conj _ (conj _ HH)))))))))).
  - f_equal. rewrite <- NP. rewrite Z2Nat.id; [reflexivity|]. destruct (Z.leb_spec 0 s0); [assumption|].
    exfalso. replace (Z.to_nat s0) with 0 in NP by lia. rewrite <- NP in HN. unfold mm_nParams in HN. lia.
  - lia.
  - unfold pars. now rewrite NP.
  - rewrite <- F'. apply reach_default.
  - rewrite F. econstructor; [exact (reach_default c [])|exact EI|]. repeat constructor.
  - rewrite Es. reflexivity.
  - rewrite Es. reflexivity.
  - rewrite <- F', run_strides. cbn [mm_new mm_base mm_strides]. now rewrite HH.
Qed.

Lemma py_new_accepts hs name c np nh a : In (name, c, np, nh) (py_table hs) -> vector np a ->
  (exists s, py_new hs name a = POk (c, s)) <->
  (exists s1, mm_init c (mm_new c) [] (map (entry1 a) (seq 0 np)) [] = (Done, s1)).
Proof.
  intros Hin (V1 & V2 & V3).
  assert (EP : firstn np (py_ptr a) = map (entry1 a) (seq 0 np)).
  { apply (nth_ext _ _ 0%R 0%R).
    - rewrite map_length, seq_length. apply firstn_length_le. unfold py_ptr. rewrite skipn_length. lia.
    - intros k Hk. rewrite firstn_length_le in Hk by (unfold py_ptr; rewrite skipn_length; lia).
      rewrite (nth_indep (map _ _) 0%R (entry1 a 0)) by (rewrite map_length, seq_length; lia).
      rewrite map_nth, seq_nth by assumption. unfold entry1. rewrite V2. cbn [nth].
      transitivity (nth k (py_ptr a) 0%R).
      + rewrite <- (firstn_skipn np (py_ptr a)) at 2. rewrite app_nth1; [reflexivity|].
        rewrite firstn_length_le by (unfold py_ptr; rewrite skipn_length; lia). assumption.
      + unfold py_ptr. rewrite nth_skip. f_equal. lia. }
  unfold py_new, py_params. rewrite V1, Nat2Z.id. 
  assert (EM : py_model hs name = Some (c, mm_new c)) by (apply py_model_iff; split; [reflexivity|now exists np, nh]).
  rewrite EM, EP. destruct (Nat.ltb_spec (List.length (py_ptr a)) np) as [H|H].
  { unfold py_ptr in H. rewrite skipn_length in H. lia. }
  destruct (mm_init c (mm_new c) [] _ []) as [o s1]. split.
  - intros [s E]. destruct o; try discriminate. now exists s1.
  - intros [s1' E]. assert (o = Done) by (clear - E; congruence). subst o. eexists. reflexivity.
Qed.

Lemma py_new_rejects hs name a : (forall n, py_shape a = [n] -> py_off a + Z.to_nat n <= List.length (py_base a)) ->
  (forall c np nh, In (name, c, np, nh) (py_table hs) -> py_shape a <> [Z.of_nat np]) -> py_new hs name a = PFail Failed.
Proof.
  intros HV HT. unfold py_new, py_params. destruct (py_shape a) as [|s0 [|]] eqn:ES; try reflexivity.
  specialize (HV s0 eq_refl).
  destruct (Nat.ltb_spec (List.length (py_ptr a)) (Z.to_nat s0)) as [H|H].
  { unfold py_ptr in H. rewrite skipn_length in H. lia. }
  destruct (py_model hs name) as [[c s]|] eqn:EM; [|reflexivity].
  apply py_model_iff in EM. destruct EM as [-> (np & nh & Hin)].
  destruct (table_facts _ _ _ _ _ Hin) as (HB & HN & HH). specialize (HT _ _ _ Hin).
  rewrite init_wrong_counts; [reflexivity|]. intros (HL & _).
  rewrite firstn_length_le in HL by exact H. apply HT. f_equal.
  assert (3 <= mm_nParams c) by (unfold mm_nParams; lia). lia.
Qed.

Lemma check_false (a : PyArr R) d1 d2 : py_shape a <> [d1; d2] -> check2D_dim a d1 d2 = false.
Proof.
  unfold check2D_dim. destruct (py_shape a) as [|s0 [|s1 [|]]]; try reflexivity. intros H.
  destruct (Z.eqb_spec s0 d1); destruct (Z.eqb_spec s1 d2); try reflexivity. subst. contradiction.
Qed.
Lemma check_true (a : PyArr R) d1 d2 : py_shape a = [d1; d2] -> check2D_dim a d1 d2 = true.
Proof. unfold check2D_dim. intros ->. now rewrite !Z.eqb_refl. Qed.

Lemma solve_rejects solver lu c s dt a n x : In x solve_args -> py_shape (a x) <> [n; Z.of_nat (columns (mm_numHist c) x)] ->
  py_solve solver lu c s dt a n = (BRet Failed, a).
Proof.
  intros Hin HS. unfold py_solve.
  assert (G : forall y, In y solve_args -> y = x -> check2D_dim (a y) n (Z.of_nat (columns (mm_numHist c) y)) = false)
    by (intros y _ ->; now apply check_false).
  destruct (check2D_dim (a AD) n 7) eqn:E1; cbn [negb]; [|reflexivity].
  destruct (check2D_dim (a AW) n 3) eqn:E2; cbn [negb]; [|reflexivity].
  destruct (check2D_dim (a AV) n 4) eqn:E3; cbn [negb]; [|reflexivity].
  destruct (check2D_dim (a AE) n 1) eqn:E4; cbn [negb]; [|reflexivity].
  destruct (check2D_dim (a AS) n 7) eqn:E5; cbn [negb]; [|reflexivity].
  destruct (check2D_dim (a AH) n (Z.of_nat (mm_getNumHist c))) eqn:E6; cbn [negb]; [|reflexivity].
  destruct (check2D_dim (a AT) n 1) eqn:E7; cbn [negb]; [|reflexivity].
  destruct (check2D_dim (a AB) n 2) eqn:E8; cbn [negb]; [|reflexivity].
  exfalso. specialize (G x Hin eq_refl). unfold mm_getNumHist in E6.
  cbn in Hin. repeat (destruct Hin as [<-|Hin]; [cbn [columns Z.of_nat Pos.of_succ_nat Pos.succ] in G; congruence|]). contradiction.
Qed.

Lemma solve_eq solver lu c s dt a n : (forall x, In x solve_args -> py_shape (a x) = [n; Z.of_nat (columns (mm_numHist c) x)]) ->
  py_solve solver lu c s dt a n =
  (fst (mm_getResponse solver lu c s dt false n (fun b => py_ptr (a b))),
   fun b => py_put (a b) (snd (mm_getResponse solver lu c s dt false n (fun b => py_ptr (a b))) b)).
Proof.
  intros H. unfold py_solve, mm_getNumHist.
  rewrite (check_true (a AD) n 7) by (apply (H AD); cbn; tauto).
  rewrite (check_true (a AW) n 3) by (apply (H AW); cbn; tauto).
  rewrite (check_true (a AV) n 4) by (apply (H AV); cbn; tauto).
  rewrite (check_true (a AE) n 1) by (apply (H AE); cbn; tauto).
  rewrite (check_true (a AS) n 7) by (apply (H AS); cbn; tauto).
  rewrite (check_true (a AH) n (Z.of_nat (mm_numHist c))) by (apply (H AH); cbn; tauto).
  rewrite (check_true (a AT) n 1) by (apply (H AT); cbn; tauto).
  rewrite (check_true (a AB) n 2) by (apply (H AB); cbn; tauto).
  cbn [negb]. destruct mm_getResponse as [o m]. reflexivity.
Qed.

Lemma ptr_put (a : PyArr R) l : py_off a <= List.length (py_base a) -> py_ptr (py_put a l) = l.
Proof.
  intros H. unfold py_ptr, py_put. cbn [py_base py_off].
  assert (E : List.length (firstn (py_off a) (py_base a)) = py_off a) by (apply firstn_length_le; exact H).
  rewrite <- E at 1. rewrite skipn_app, skipn_all, Nat.sub_diag. reflexivity.
Qed.

Lemma elem_ptr w (a : PyArr R) i j : row_major w a -> elem a i j = nth (w * i + j) (py_ptr a) 0%R.
Proof.
  intros H. unfold elem, where2. rewrite H. cbn [nth]. unfold py_ptr. rewrite nth_skip. f_equal. lia.
Qed.

Section Call.
  Variables (hs : Solver R) (c : MClass R) (s : MM R) (nh n : nat) (a : arr -> PyArr R).
  Hypothesis HB : builtin hs c.
  Hypothesis HR : reachable c s.
  Hypothesis HC : mm_complete s = true.
  Hypothesis HS : mm_strides s = [7; 3; 4; 1; 7; nh; 1; 2].
  Hypothesis HH : mm_numHist c = nh.
  Hypothesis HM : exists mat tol, mm_ready s = Some (mat, tol).
  Hypothesis HT : forall x, In x solve_args -> table2 n (columns nh x) (a x) /\ row_major (columns nh x) (a x).
  Hypothesis HW : (Z.of_nat nh * (Z.of_nat n - 1) < 2 ^ 32)%Z.
  Hypothesis HN : 7 <= nh.

  Lemma stride_py x : x <> AM -> stride_of (mm_strides s) x = columns nh x.
  Proof. intros H. rewrite HS. destruct x; try reflexivity. contradiction. Qed.
  Lemma col_pp x : x <> AM -> per_point (c_nH c) (c_nslip c) false x = columns nh x.
  Proof. intros H. destruct x; try reflexivity. cbn [per_point columns]. exact HH. Qed.
  Lemma in_args x : x <> AM -> In x solve_args.
  Proof. intros H. destruct x; cbn; try tauto; contradiction. Qed.
  Lemma off_le x : 0 < n -> In x solve_args -> py_off (a x) + n * columns nh x <= List.length (py_base (a x)).
  Proof.
    intros Hn Hx. destruct (HT x Hx) as [(_ & _ & H) RM]. 
    assert (W : 0 < columns nh x) by (cbn in Hx; repeat (destruct Hx as [<-|Hx]; [cbn; lia|]); contradiction).
    specialize (H (n - 1) (columns nh x - 1) ltac:(lia) ltac:(lia)). unfold where2 in H. rewrite RM in H. cbn [nth] in H. nia.
  Qed.
  Lemma py_batch : batch_ok c s false n (fun x => py_ptr (a x)).
  Proof.
    split.
    - split; [|intros X; discriminate X]. intros x Hx. rewrite stride_py by assumption. destruct x; cbn [columns]; [nia..|contradiction].
    - intros x i Hi Hp. assert (Hx : x <> AM) by (intros ->; cbn in Hp; lia).
      rewrite stride_py, col_pp by assumption. unfold py_ptr. rewrite skipn_length.
      pose proof (off_le x ltac:(lia) (in_args x Hx)). nia.
  Qed.
  Lemma val_elem x i j : x <> AM -> val s (fun y => py_ptr (a y)) x i j = elem (a x) i j.
  Proof.
    intros Hx. unfold val. rewrite stride_py by assumption. symmetry. apply elem_ptr. now apply HT, in_args.
  Qed.

  Lemma solve_call solver lu dt o a' : py_solve solver lu c s dt a (Z.of_nat n) = (o, a') ->
    exists m1, mm_getResponse solver lu c s dt false (Z.of_nat n) (fun y => py_ptr (a y)) = (o, m1) /\
      (exists r, o = BRet r) /\
      (forall x, In x solve_args -> py_shape (a' x) = py_shape (a x) /\ py_strides (a' x) = py_strides (a x) /\ py_off (a' x) = py_off (a x)) /\
      (forall x i j, In x solve_args -> i < n -> elem (a' x) i j = val s m1 x i j) /\
      (forall x, In x [AD; AW; AV] -> 0 < n -> a' x = a x) /\
      (forall x k, In x solve_args -> 0 < n -> k < py_off (a x) \/ py_off (a x) + n * columns nh x <= k -> nth_error (py_base (a' x)) k = nth_error (py_base (a x)) k).
  Proof.
    intros E. rewrite solve_eq in E by (intros x Hx; rewrite HH; apply (proj1 (HT x Hx))).
    destruct HM as (mat & tol & EM).
    destruct (api_batch c s solver lu dt false n _ mat tol HR HC EM py_batch) as (r & m1 & EC & [U1 U2] & _).
    exists m1. rewrite EC in E. cbn [fst snd] in E.
    assert (Eo : o = BRet r) by (clear - E; congruence).
    assert (Ea : a' = fun b => py_put (a b) (m1 b)) by (clear - E; congruence). subst a'.
    rewrite Eo. split; [exact EC|]. split; [now exists r|].
    assert (NA : forall x, In x solve_args -> x <> AM) by (intros x Hx ->; cbn in Hx; intuition discriminate).
    split; [|split; [|split]].
    - intros x Hx. repeat split; reflexivity.
    - intros x i j Hx Hi.
      rewrite (elem_ptr (columns nh x)) by (exact (proj2 (HT x Hx))).
      rewrite ptr_put by (pose proof (off_le x ltac:(lia) Hx); lia).
      unfold val. now rewrite stride_py by (now apply NA).
    - intros x Hx Hn. assert (ER : m1 x = py_ptr (a x)).
      { apply (ro_not_own c false (mm_strides s) n (fun y => py_ptr (a y)) m1 x); [|split; assumption].
        unfold ro. cbn in Hx. intuition congruence. }
      unfold py_put. rewrite ER. unfold py_ptr. rewrite firstn_skipn. destruct (a x); reflexivity.
    - intros x k Hx Hn Hk. pose proof (off_le x Hn Hx) as OL. unfold py_put. cbn [py_base].
      assert (LF : List.length (firstn (py_off (a x)) (py_base (a x))) = py_off (a x)) by (apply firstn_length_le; lia).
      assert (SP : forall q, nth_error (firstn (py_off (a x)) (py_base (a x)) ++ q) k =
                  if Nat.ltb k (py_off (a x)) then nth_error (py_base (a x)) k else nth_error q (k - py_off (a x))).
      { intros q. destruct (Nat.ltb_spec k (py_off (a x))) as [L|L].
        - rewrite nth_error_app1 by lia. rewrite <- (firstn_skipn (py_off (a x)) (py_base (a x))) at 2.
          rewrite nth_error_app1 by lia. reflexivity.
        - rewrite nth_error_app2 by lia. now rewrite LF. }
      rewrite SP. destruct (Nat.ltb_spec k (py_off (a x))) as [L|L]; [reflexivity|].
      assert (L2 : py_off (a x) + n * columns nh x <= k) by (destruct Hk; [lia|assumption]).
      assert (EQ : nth_error (m1 x) (k - py_off (a x)) = nth_error (py_ptr (a x)) (k - py_off (a x))).
      { apply U2. intros i Hi HO. destruct HO as (_ & HO1 & HO). rewrite (offs_eq (mm_strides s) false n (proj1 py_batch)), width_eq, stride_py, col_pp in HO by (assumption || now apply NA). nia. }
      rewrite EQ. unfold py_ptr. rewrite nth_err_skip. f_equal. lia.
  Qed.
End Call.
