(** The developer interface against a call of the library. *)
From Coq Require Import List ZArith Bool Lia PeanoNat Reals Lra String.
From Verif Require Import Num Arr NumR Util SlipGeom Eos Hard KinVoce KinKMBalD Elast Evptn MatModel Cases Py SpecTensor
  P_Tensor P_Eos P_Sngl P_Sngl2 P_Sngl3 P_Batch P_Batch2 P_Batch3 P_Api P_Builtin SpecApi P_Hist SpecBatch P_Batch4 SpecObj P_Api2 P_Demo SpecPy P_Py P_Py2.
Import ListNotations.
Local Open Scope R_scope.

(** ** A call *)
Section C.
  Variables (hs : Solver R) (c : MClass R) (b : BCall) (i : nat) (pars : list R) (j1 j2 j3 : R) (v0 v : Dev R) (ops : list (DevOp R)).
  Hypothesis G : good hs c b.
  Hypothesis HT : b_mtan b = false.
  Hypothesis Hi : (i < b_n b)%nat.
  Hypothesis U : in_use c (b_s b) pars.
  Hypothesis D : dev_make c pars j1 j2 j3 = POk v0.
  Hypothesis Rn : dev_run v0 ops = Some v.
  Let s := b_s b. Let m := b_m b. Let m1 := b_m1 b.

  Lemma dev_same_mat : exists mat, mm_ready s = Some (mat, nth 2 pars 0) /\ dv_mat v = mat /\ dv_halfVMidDt v = j2.
  Proof.
    destruct (in_use_mat _ _ _ U) as (a & P & HL & HM). eexists. split; [exact HM|].
    destruct (dev_make_ok _ _ _ _ _ _ _ D P) as (_ & _ & E & _ & E2 & _). destruct (dev_run_mat _ _ _ Rn) as [F1 F2].
    rewrite F1, F2. split; assumption.
  Qed.

  Lemma cell_point x : cell_of c s false m x i = point c s false m i x.
  Proof. symmetry. apply (point_cell c false s (b_n b)); [|exact Hi]. destruct G as (_ & _ & HO & _). rewrite HT in HO. exact HO. Qed.
  Lemma cell_point1 x : cell_of c s false m1 x i = point c s false m1 i x.
  Proof.
    symmetry. apply (point_cell c false s (b_n b)); [|exact Hi]. destruct G as (HB & HR & HO & HC).
    destruct (api_done _ _ _ _ _ _ _ _ _ _ HB HR HO HC) as [Un _]. rewrite HT in *. exact (batch_after c false s (b_n b) m m1 Un HO).
  Qed.
  Lemma pp_hist : per_point (c_nH c) (c_nslip c) false AH = mm_numHist c.
  Proof. reflexivity. Qed.
  Lemma get_point1 x k : (k < per_point (c_nH c) (c_nslip c) false x)%nat -> nth k (point c s false m1 i x) 0 = val s m1 x i k.
  Proof.
    intros H. unfold point. rewrite (nth_indep _ 0 (val s m1 x i 0)) by (rewrite map_length, seq_length; exact H).
    now rewrite map_nth, seq_nth by exact H.
  Qed.
  Lemma get_point x k : (k < per_point (c_nH c) (c_nslip c) false x)%nat -> nth k (point c s false m i x) 0 = val s m x i k.
  Proof.
    intros H. unfold point. rewrite (nth_indep _ 0 (val s m x i 0)) by (rewrite map_length, seq_length; exact H).
    now rewrite map_nth, seq_nth by exact H.
  Qed.

  Lemma dev_call : exists v1, let P := point c s false m i in
    dev_setup v (b_dt b) (P AD) (P AW) (P AV) (P AE) (P AS) (P AH) = (Done, v1) /\
    let r := b_solver b 8%nat (dev_rj v1) (nth 2 pars 0) 200%nat (repeat 0 8) in so_converged r = true /\
    forall xs v2, xs <> [] -> last xs [] = so_xlast r -> dev_evals v1 xs = Some v2 ->
      exists v3 q, dev_getState v2 (so_x r) {| pt_eInt := P AE; pt_stress := P AS; pt_hist := P AH; pt_tkelv := tKel s m i; pt_sdd := P AB; pt_mtan := None |} = Some (Done, v3, q) /\
        same_state c b i q /\ nth 3 (pt_hist q) 0 = 0 /\
        nth 0 (pt_eInt q) 0 = eInt s m i - delv s m i * pres s m i + (dv_eDevTot v + j2 * inner (devStress s m1 i) (devRate s m i)).
  Proof.
    destruct dev_same_mat as (mat & HM & EV & EH).
    destruct (good_point hs c b i G Hi) as (mat' & tol & HM' & _ & K & S & E). cbv zeta in *.
    fold s m m1 in HM', K, S, E. rewrite HM in HM'.
    assert (EM : mat' = mat /\ tol = nth 2 pars 0) by (clear - HM'; split; congruence). destruct EM as [-> ->].
    rewrite HT in S, E.
    assert (MT : pt_mtan (pt_of c s false m i) = None) by reflexivity.
    destruct (dev_point _ _ mat (b_dt b) (nth 2 pars 0) _ _ _ _ _ v MT S EV E) as (v1 & E1 & E2 & E3).
    assert (P1 : pt_eInt (pt_of c s false m i) = point c s false m i AE) by (rewrite <- cell_point; reflexivity).
    assert (P2 : pt_stress (pt_of c s false m i) = point c s false m i AS) by (rewrite <- cell_point; reflexivity).
    assert (P3 : pt_hist (pt_of c s false m i) = point c s false m i AH) by (rewrite <- cell_point; reflexivity).
    assert (P4 : pt_tkelv (pt_of c s false m i) = tKel s m i).
    { change (pt_tkelv (pt_of c s false m i)) with (get (cell_of c s false m AT i) 0). rewrite cell_point.
      change (nth 0 (point c s false m i AT) 0 = tKel s m i). rewrite get_point by (cbn; lia). reflexivity. }
    assert (Q2 : pt_stress (pt_of c s false m1 i) = point c s false m1 i AS) by (rewrite <- cell_point1; reflexivity).
    assert (Q3 : pt_hist (pt_of c s false m1 i) = point c s false m1 i AH) by (rewrite <- cell_point1; reflexivity).
    assert (Q5 : pt_sdd (pt_of c s false m1 i) = point c s false m1 i AB) by (rewrite <- cell_point1; reflexivity).
    assert (Q4 : pt_tkelv (pt_of c s false m1 i) = tKel s m1 i).
    { change (pt_tkelv (pt_of c s false m1 i)) with (get (cell_of c s false m1 AT i) 0). rewrite cell_point1.
      change (nth 0 (point c s false m1 i AT) 0 = tKel s m1 i). rewrite get_point1 by (cbn; lia). reflexivity. }
    rewrite P1, P2, P3, !cell_point in E1.
    exists v1. split; [exact E1|]. split; [exact E2|].
    intros xs v2 HX HL HE.
    destruct (E3 xs v2 (point c s false m i AE) (point c s false m i AS) (point c s false m i AB) HX HL HE) as (v3 & q & F0 & F1 & F2 & F3 & F4 & F5 & F6 & F7).
    { unfold point. now rewrite map_length, seq_length. }
    { unfold point. now rewrite map_length, seq_length. }
    { unfold point. now rewrite map_length, seq_length. }
    rewrite P3, P4 in F0. exists v3, q. split; [exact F0|]. split; [|split].
    - unfold same_state. fold s m1. rewrite F1, F2, F3, F4, Q2, Q3, Q4, Q5. refine (conj eq_refl (conj eq_refl (conj eq_refl (conj _ _)))).
      + unfold point. rewrite map_length, seq_length. reflexivity.
      + intros k Hk H3. transitivity (get (pt_hist (pt_of c s false m1 i)) k); [exact (F5 k H3)|].
        rewrite Q3. exact (get_point1 AH k Hk).
    - exact F6.
    - transitivity (get (pt_eInt q) 0); [reflexivity|]. rewrite F7, EH, P1, P2, Q2, !cell_point, innerSvec.
      unfold snglUpd, updateSimple. cbv zeta. cbn [u_eNew]. unfold eInt, delv, pres, devStress, devRate, sym6.
      change (@nsub R RNum) with Rminus. change (@nmul R RNum) with Rmult.
      change (@get R RNum) with (fun (l : list R) k => nth k l 0). cbv beta.
      rewrite !get_point, !get_point1 by (cbn; lia). reflexivity.
  Qed.

  Lemma dev_state : 
    (exists xs v1 v2 v3 q, by_hand c b (nth 2 pars 0) i v xs v1 v2 v3 q) /\
    forall xs v1 v2 v3 q, by_hand c b (nth 2 pars 0) i v xs v1 v2 v3 q ->
      same_state c b i q /\ nth 3 (pt_hist q) 0 = 0 /\
      nth 0 (pt_eInt q) 0 = eInt s m i - delv s m i * pres s m i + (dv_eDevTot v + j2 * inner (devStress s m1 i) (devRate s m i)).
  Proof.
    destruct dev_call as (v1 & E1 & E2 & E3). cbv zeta in *. split.
    - set (r := b_solver b 8%nat (dev_rj v1) (nth 2 pars 0) 200%nat (repeat 0 8)) in *.
      assert (IN : exists ii, dv_in v1 = Some ii).
      { clear - E1. unfold dev_setup in E1. cbv zeta in E1. destruct k_updateH as [[hu ?]|]; [|discriminate E1].
        destruct negb; [discriminate E1|]. apply (f_equal snd) in E1. cbn [snd] in E1. subst v1. cbn [dv_in]. eexists; reflexivity. }
      destruct IN as [ii IN]. destruct (evals_some [so_xlast r] v1 ii IN) as [v2 EV].
      destruct (E3 [so_xlast r] v2 ltac:(discriminate) eq_refl EV) as (v3 & q & F0 & _).
      exists [so_xlast r], v1, v2, v3, q. unfold by_hand. cbv zeta. fold s m. fold r.
      split; [exact E1|]. split; [exact E2|]. split; [discriminate|]. split; [reflexivity|]. split; [exact EV|exact F0].
    - intros xs w1 v2 v3 q (H1 & H2 & H3 & H4 & H5 & H6). cbv zeta in *. fold s m in H1, H6.
      rewrite E1 in H1. assert (w1 = v1) by (clear - H1; congruence). subst w1.
      destruct (E3 xs v2 H3 H4 H5) as (v3' & q' & F0 & F1). rewrite F0 in H6.
      assert (q' = q) by (clear - H6; congruence). subst q'. exact F1.
  Qed.
End C.

(** ** Which parameter vectors the developer interface accepts *)
Lemma dev_hist_len c k : List.length (dev_histInfo (T:=R) c k) = List.length (mm_histInfo c k).
Proof. unfold dev_histInfo, mm_histInfo. rewrite !app_length, !map_length, !seq_length. reflexivity. Qed.
Lemma dev_hist_vals c k : map (fun e : HistEntry R => snd (fst (fst e))) (dev_histInfo c k) = map (fun e : HistEntry R => snd (fst (fst e))) (mm_histInfo c k).
Proof. unfold dev_histInfo, mm_histInfo. rewrite !map_app, !map_map. reflexivity. Qed.
Lemma dev_make_iff c pars j1 j2 j3 : c_sgNP c = 0%nat ->
  (exists v : Dev R, dev_make c pars j1 j2 j3 = POk v) <-> (exists s1, mm_init c (mm_new c) [] pars [] = (Done, s1)).
Proof.
  intros HS. split.
  - intros [v H]. unfold dev_make in H. cbv zeta in H.
    destruct (Nat.eqb_spec (List.length pars) (dev_nParams c)) as [EL|]; cbn [negb] in H; [|discriminate H].
    destruct (c_sgSet c (sub pars 3 (c_sgNP c))) as [sg|] eqn:P1; [|discriminate H].
    destruct (c_kinSet c (sub pars (3 + c_sgNP c + c_elNP c) (c_kinNP c))) as [[kin kh]|] eqn:P3; [|discriminate H].
    destruct (el_getBulkMod (c_elSet c (sub pars (3 + c_sgNP c) (c_elNP c)))) as [bulk|] eqn:P4; [|discriminate H].
    destruct Nat.ltb; [discriminate H|]. destruct negb; [discriminate H|].
    destruct (Nat.eqb_spec (List.length (dev_histInfo c kh)) (mm_numHist c)) as [EH|]; cbn [negb] in H; [|discriminate H].
    apply (init_done_conv c (mm_new c) [] pars [] {| pa_sg := sg; pa_el := c_elSet c (sub pars (3 + c_sgNP c) (c_elNP c)); pa_kin := kin; pa_hist := kh; pa_bulk := bulk |}).
    + repeat split; [|cbn; lia]. unfold mm_nParams. unfold dev_nParams in EL. lia.
    + repeat split; assumption.
    + rewrite <- dev_hist_len. exact EH.
  - intros [s1 H]. destruct (init_done _ _ _ _ _ _ H) as ((HL & _) & a & (P1 & P2 & P3 & P4) & EH & _).
    assert (EN : (3 + c_sgNP c + c_elNP c + c_kinNP c + (eos_nParams - 3))%nat = dev_nParams c) by (unfold dev_nParams; lia).
    assert (EL : List.length pars = dev_nParams c) by (rewrite HL; unfold mm_nParams, dev_nParams; lia).
    unfold dev_make. cbv zeta. rewrite EN, EL, Nat.eqb_refl, Nat.ltb_irrefl. cbn [negb]. rewrite P1, P3. rewrite <- P2, P4, dev_hist_len, EH, Nat.eqb_refl.
    cbn [negb]. eexists; reflexivity.
Qed.
Lemma table_geom hs name c np nh : In (name, c, np, nh) (py_table hs) -> name <> "km_bal_dd_hcp_norm"%string -> c_sgNP c = 0%nat.
Proof.
  intros Hin Hn. cbn in Hin.
  repeat (destruct Hin as [Hin|Hin]; [injection Hin; intros; subst; first [reflexivity|contradiction]|]). contradiction.
Qed.
Lemma dev_new_iff hs name a j1 j2 j3 c : name <> "km_bal_dd_hcp_norm"%string ->
  (exists v, dev_new hs name a j1 j2 j3 = POk (c, v)) <-> (exists s, py_new hs name a = POk (c, s)).
Proof.
  intros Hn. unfold dev_new, py_new. destruct (py_params a) as [[pars|o|]|]; [|split; intros [x H]; discriminate H..].
  destruct (py_model hs name) as [[c' s']|] eqn:EM; [|split; intros [x H]; discriminate H].
  apply py_model_iff in EM. destruct EM as [-> (np & nh & Hin)].
  pose proof (dev_make_iff c' pars j1 j2 j3 (table_geom _ _ _ _ _ Hin Hn)) as [D1 D2].
  split.
  - intros [v H]. destruct (dev_make c' pars j1 j2 j3) as [v'|o|] eqn:ED; try discriminate H.
    assert (c' = c) by (clear - H; congruence). subst c'. destruct (D1 (ex_intro _ v' eq_refl)) as [s1 E]. rewrite E. eexists; reflexivity.
  - intros [s H]. destruct (mm_init c' (mm_new c') [] pars []) as [o s1]. destruct o; try discriminate H.
    assert (c' = c) by (clear - H; congruence). subst c'. destruct (D2 (ex_intro _ s1 eq_refl)) as [v E]. rewrite E. eexists; reflexivity.
Qed.
