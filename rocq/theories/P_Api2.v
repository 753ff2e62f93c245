(** Proofs for C25, C30 - C33, C43. *)
From Coq Require Import List ZArith Bool Lia PeanoNat Reals Lra String.
From Verif Require Import Num Arr NumR Util SlipGeom Eos Hard KinVoce KinKMBalD Elast Evptn MatModel Cases
  P_Sngl P_Sngl3 P_Batch3 P_Api P_Builtin SpecApi P_Hist P_Demo P_Slip P_SlipH SpecSlip SpecObj.
Import ListNotations.
Local Open Scope R_scope.

(** ** C25 *)
Fixpoint nodupb (l : list string) : bool :=
  match l with [] => true | x :: r => negb (existsb (String.eqb x) r) && nodupb r end.
Lemma nodupb_ok l : nodupb l = true -> NoDup l.
Proof.
  induction l as [|x r IH]; intros H; [constructor|]. cbn in H. apply andb_prop in H. destruct H as [H1 H2].
  constructor; [|now apply IH]. intros Hin. apply negb_true_iff in H1.
  assert (existsb (String.eqb x) r = true) by (apply existsb_exists; exists x; split; [assumption|apply String.eqb_refl]). congruence.
Qed.

Lemma voce_init_idx {T} {N : Num T} (nl : bool) (p : list T) : v_hdn_init (voce_setParams nl p) = get p (voce_nParams nl - 1).
Proof. destruct nl; reflexivity. Qed.
Lemma km_init_idx {T} {N : Num T} a b c d n (p : list T) : km_hdn_init (km_setParams a b c d n p) = get p (km_nParams n - 1).
Proof. unfold km_setParams, km_nParams. cbn [km_hdn_init]. f_equal. lia. Qed.

Lemma kin_hist {T} {N : Num T} (hs : Solver T) c p k kh : builtin hs c -> c_kinSet c p = Some (k, kh) ->
  exists nm, kh = [(nm, get p (c_kinNP c - 1), true, true)] /\ forall name cls np nh hn sr, In (name, cls, np, nh, hn, sr) (table hs) -> cls = c -> nm = hn.
Proof.
  intros HB H.
  assert (V : forall nl ns, kinVoce hs nl ns p = Some (k, kh) -> kh = [("h"%string, get p (voce_nParams nl - 1), true, true)]).
  { intros nl ns E. unfold kinVoce in E. apply (f_equal (option_map snd)) in E. cbn [option_map snd] in E.
    apply (f_equal (fun x => match x with Some y => y | None => [] end)) in E. cbv beta iota in E. rewrite <- E.
    unfold voce_histInfo. now rewrite voce_init_idx. }
  assert (K : forall a b c' d nv ns, kinKM hs a b c' d nv ns p = Some (k, kh) -> kh = [("rho_dd"%string, get p (km_nParams nv - 1), true, true)]).
  { intros a b c' d nv ns E. unfold kinKM in E. destruct andb; [|discriminate]. apply (f_equal (option_map snd)) in E. cbn [option_map snd] in E.
    apply (f_equal (fun x => match x with Some y => y | None => [] end)) in E. cbv beta iota in E. rewrite <- E.
    unfold km_histInfo. now rewrite km_init_idx. }
  assert (NE : forall (c1 c2 : MClass T), c1 = c2 -> c_kinNP c1 = c_kinNP c2 /\ c_nslip c1 = c_nslip c2) by (intros; subst; auto).
  destruct HB as [ -> | [ -> | [ -> | [ -> | [ -> | [ -> | -> ]]]]]]; cbn [cls_FCC_A cls_FCC_AH cls_FCC_B cls_BCC_A cls_HCP_A cls_BCC_B cls_BCC_BH c_kinSet c_kinNP] in *;
    [ eapply V in H | eapply V in H | eapply K in H | eapply K in H | eapply V in H | eapply V in H | eapply K in H ]; subst kh; eexists; (split; [reflexivity|]);
    intros name cls np nh hn sr Hin Hc; cbn in Hin;
    repeat (destruct Hin as [Hin|Hin]; [injection Hin; intros; subst; try reflexivity;
      match goal with E : ?x = ?y :> MClass T |- _ => apply NE in E; destruct E as [E1 E2]; vm_compute in E1, E2; try discriminate E1; try discriminate E2 end|]);
    contradiction.
Qed.

Definition hist_of {T} {N : Num T} (c : MClass T) (hn : string) (h0 : T) : list (HistEntry T) := mm_histInfo c [(hn, h0, true, true)].
Lemma hist_in_use {T} {N : Num T} (hs : Solver T) c s pars : builtin hs c -> in_use c s pars ->
  exists nm, mm_getHistInfo c s = Some (hist_of c nm (nth (mm_nParams c - 3) pars nundef)) /\
   forall name cls np nh hn sr, In (name, cls, np, nh, hn, sr) (table hs) -> cls = c -> nm = hn.
Proof.
  intros HB [s0 o p st s1 ops HR HI HF].
  destruct (init_done _ _ _ _ _ _ HI) as ((HL & _) & a & (P1 & P2 & P3 & P4) & EL & ES).
  destruct (kin_hist hs c _ _ _ HB P3) as (nm & EK & Hnm). exists nm. split; [|exact Hnm].
  unfold mm_getHistInfo. destruct (run_harmless c ops s1 HF) as (_ & -> & _). rewrite ES. cbn [with_parts mm_rhv].
  rewrite EL, Nat.eqb_refl. rewrite EK. unfold hist_of.
  assert (X : get (sub p (3 + c_sgNP c + c_elNP c) (c_kinNP c)) (c_kinNP c - 1) = nth (mm_nParams c - 3) p nundef).
  { assert (0 < c_kinNP c)%nat by (destruct HB as [ -> | [ -> | [ -> | [ -> | [ -> | [ -> | -> ]]]]]]; vm_compute; lia).
    rewrite get_sub by lia. unfold get. f_equal. unfold mm_nParams, eos_nParams. lia. }
  now rewrite X.
Qed.

Lemma hist_layout {T} {N : Num T} (hs : Solver T) name c np nh hn sr s pars : In (name, c, np, nh, hn, sr) (table hs) -> in_use c s pars ->
  exists h, mm_getHistInfo c s = Some h /\ List.length h = mm_getNumHist c /\ mm_getNumHist c = nh /\
    map entry_name h = hist_names hn sr /\ NoDup (map entry_name h) /\
    map entry_init h = repeat (nZ 0) 9 ++ [nZ 1] ++ repeat (nZ 0) 3 ++ [nth (np - 3) pars nundef] ++ repeat (nZ 0) (nh - 14) /\
    map entry_plot h = repeat true nh /\ map entry_state h = [true; true; false; false] ++ repeat true (nh - 4).
Proof.
  intros Hin HU.
  assert (HB : builtin hs c).
  { unfold builtin. cbn in Hin. repeat (destruct Hin as [Hin|Hin]; [injection Hin; intros; subst; tauto|]). contradiction. }
  destruct (hist_in_use hs c s pars HB HU) as (nm & E & Hnm). rewrite (Hnm _ _ _ _ _ _ Hin eq_refl) in E.
  exists (hist_of c hn (nth (mm_nParams c - 3) pars nundef)). split; [exact E|].
  assert (NP : mm_nParams c = np).
  { cbn in Hin. repeat (destruct Hin as [Hin|Hin]; [injection Hin; intros; subst; reflexivity|]). contradiction. }
  rewrite NP. generalize (nth (np - 3) pars nundef). clear E Hnm HU pars s NP HB. intros h0.
  cbn in Hin. repeat (destruct Hin as [Hin|Hin]; [injection Hin; intros; subst;
    refine (conj eq_refl (conj eq_refl (conj eq_refl (conj _ (conj eq_refl (conj eq_refl eq_refl))))));
    apply nodupb_ok; vm_compute; reflexivity|]). contradiction.
Qed.

(** ** C30 *)
Lemma run_before_complete {T} {N : Num T} (c : MClass T) s ops : mm_complete s = false -> Forall no_complete ops ->
  forall sv lu dt mt n m, mm_getResponse sv lu c (fst (mm_run c s ops)) dt mt n m = (BRet Failed, m).
Proof.
  intros H HF sv lu dt mt n m. unfold mm_getResponse. rewrite run_complete, H.
  assert (E : existsb is_complete ops = false).
  { induction HF as [|op ops Ho HF IH]; [reflexivity|]. cbn [existsb]. rewrite IH. destruct op; try reflexivity. exfalso. apply Ho. reflexivity. }
  rewrite E. reflexivity.
Qed.
Lemma in_use_ready {T} {N : Num T} (c : MClass T) s s' pars : in_use c s pars -> in_use c s' pars -> mm_ready s = mm_ready s'.
Proof.
  intros U U'.
  destruct U as [s0 o p st s1 ops HR HI HF]. destruct U' as [s0' o' p' st' s1' ops' HR' HI' HF'].
  destruct (run_harmless c ops s1 HF) as (-> & _). destruct (run_harmless c ops' s1' HF') as (-> & _).
  destruct (init_done _ _ _ _ _ _ HI) as (_ & x & (P1 & P2 & P3 & P4) & _ & ->).
  destruct (init_done _ _ _ _ _ _ HI') as (_ & y & (Q1 & Q2 & Q3 & Q4) & _ & ->).
  assert (X1 : pa_sg x = pa_sg y) by (rewrite P1 in Q1; clear - Q1; congruence).
  assert (X3 : pa_kin x = pa_kin y).
  { rewrite P3 in Q3. apply (f_equal (option_map fst)) in Q3. cbn [option_map fst] in Q3. clear - Q3; congruence. }
  assert (X2 : pa_el x = pa_el y) by congruence.
  assert (X4 : pa_bulk x = pa_bulk y) by (rewrite X2, Q4 in P4; clear - P4; congruence).
  unfold mm_ready, with_parts, with_scalars, with_vecs. cbn [mm_sg mm_kin mm_el mm_eos mm_tol].
  unfold parts_eos. now rewrite X1, X2, X3, X4.
Qed.
Lemma in_use_response {T} {N : Num T} (c : MClass T) s s' pars sv lu dt mt n m : in_use c s pars -> in_use c s' pars ->
  mm_strides s = mm_strides s' -> mm_complete s = mm_complete s' ->
  mm_getResponse sv lu c s dt mt n m = mm_getResponse sv lu c s' dt mt n m.
Proof.
  intros U U' E1 E2. unfold mm_getResponse. rewrite E1, E2, (in_use_ready c s s' pars U U'). reflexivity.
Qed.
Lemma in_use_rho {T} {N : Num T} (c : MClass T) s pars : in_use c s pars -> mm_rho0 s = nth 0 pars nundef.
Proof.
  intros [s0 o p st s1 ops HR HI HF]. destruct (run_harmless c ops s1 HF) as (_ & _ & ->).
  destruct (init_done _ _ _ _ _ _ HI) as (_ & x & _ & _ & ->). reflexivity.
Qed.
Lemma rho_before c s ops : mm_rho0 s < 0 -> Forall (harmless c) ops -> mm_getRhoRef (fst (mm_run c s ops)) = None.
Proof.
  intros H HF. unfold mm_getRhoRef. destruct (run_harmless c ops s HF) as (_ & _ & ->).
  cbn [nltb nZ RNum]. destruct (Rltb (mm_rho0 s) (IZR 0)) eqn:E; [reflexivity|]. apply Rltb_false in E. cbn in E. lra.
Qed.

(** objects that were completed but never (successfully or not) initialised with right counts *)
Lemma base_unset {T} {N : Num T} (c : MClass T) st ops : Forall (harmless c) ops -> mm_ready (fst (mm_run c (mm_base st) ops)) = None.
Proof. intros HF. now destruct (run_harmless c ops (mm_base st) HF) as (-> & _). Qed.

(** ** C30: a re-initialisation that fails late *)
Definition bad_pars : list R := [3; 2; /100; -30; 1; -1; 1; /10; 1; 1; 1; 4; /20; /1000; 1; 17/10; -600].
Definition mixed_s : MM R := snd (mm_init demo_c demo_s [] bad_pars []).
Lemma bad_bulk : el_getBulkMod (c_elSet demo_c (sub bad_pars 3 3)) = None.
Proof.
  cbn [demo_c cls_FCC_A c_elSet]. unfold el_getBulkMod, cubic_setParams, bad_pars. cbn [el_K_bulkMod]. rarr.
  destruct (Rleb (1 / 3 * (-30 + 2 * 1)) 0) eqn:E; [reflexivity|]. apply Rleb_false in E. lra.
Qed.
Lemma bad_gmod : el_getGmod (c_elSet demo_c (sub bad_pars 3 3)) = None.
Proof.
  cbn [demo_c cls_FCC_A c_elSet]. unfold el_getGmod, cubic_setParams, bad_pars. cbn [el_K_gmod]. rarr.
  rewrite fifth_R.
  destruct (Rleb ((2 * -30 - 2 * 1 + 6 * -1) * / 5) 0) eqn:E; [reflexivity|]. apply Rleb_false in E. lra.
Qed.
Lemma bad_init : exists sg, mm_init demo_c demo_s [] bad_pars [] = (Failed, mixed_s) /\
  mm_complete mixed_s = true /\ mm_strides mixed_s = mm_strides demo_s /\
  exists kin eos tol, mm_ready mixed_s = Some ({| m_sg := sg; m_kin := kin; m_el := c_elSet demo_c (sub bad_pars 3 3); m_eos := eos |}, tol).
Proof.
  destruct geom_fcc as (g & Hg & _). exists g.
  assert (E : exists s1, mm_init demo_c demo_s [] bad_pars [] = (Failed, s1) /\ mm_complete s1 = mm_complete demo_s /\
     mm_strides s1 = mm_strides demo_s /\ mm_sg s1 = Some g /\ (exists k, mm_kin s1 = Some k) /\
     mm_el s1 = Some (c_elSet demo_c (sub bad_pars 3 3)) /\ mm_eos s1 = mm_eos demo_s /\ (exists t, mm_tol s1 = Some t)).
  { unfold mm_init. cbv zeta.
    change (negb (Nat.eqb (List.length bad_pars) (mm_nParams demo_c))) with false.
    change (negb (Nat.eqb (@List.length Z []) 0)) with false. change (Nat.ltb 1 (@List.length string [])) with false. cbv beta iota.
    change (c_sgSet demo_c (sub bad_pars 3 (c_sgNP demo_c))) with (@slipGeomFCC R _). rewrite Hg.
    change (c_elSet demo_c (sub bad_pars (3 + c_sgNP demo_c) (c_elNP demo_c))) with (c_elSet demo_c (sub bad_pars 3 3)).
    rewrite bad_bulk.
    change (c_kinSet demo_c ?p) with (kinVoce echo false 12 p). unfold kinVoce. cbv beta iota zeta.
    eexists. split; [reflexivity|]. cbn [with_parts with_scalars with_vecs mm_complete mm_strides mm_sg mm_kin mm_el mm_eos mm_tol]. eauto 10. }
  destruct E as (s1 & E & E1 & E2 & E3 & (k & E4) & E5 & E6 & (t & E7)).
  assert (ES : mixed_s = s1) by (unfold mixed_s; rewrite E; reflexivity). rewrite ES.
  split; [exact E|]. split; [rewrite E1; exact demo_complete|]. split; [exact E2|].
  destruct demo_ready as (sg0 & _ & HM). unfold mm_ready in HM.
  destruct (mm_sg demo_s); [|discriminate]. destruct (mm_kin demo_s); [|discriminate]. destruct (mm_el demo_s); [|discriminate].
  destruct (mm_eos demo_s) as [eos|]; [|discriminate].
  exists k, eos, t. unfold mm_ready. rewrite E3, E4, E5, E6, E7. reflexivity.
Qed.
Lemma mixed_fails sv lu dt mtan n m m1 : (0 < n)%nat -> batch_ok demo_c mixed_s mtan n m ->
  mm_getResponse sv lu demo_c mixed_s dt mtan (Z.of_nat n) m <> (BRet Done, m1).
Proof.
  intros Hn HB H. destruct bad_init as (sg & E & EC & ES & kin & eos & tol & HM).
  assert (HR : reachable demo_c mixed_s) by (eapply reach_init; [exact demo_reach|exact E]).
  destruct (api_done echo demo_c mixed_s sv lu dt mtan n m m1 demo_builtin HR HB H) as [_ [->|(mat & tol' & HM' & (MO1 & MO2 & MO3 & _) & P)]]; [lia|].
  destruct (P 0%nat Hn) as [S D].
  destruct (sngl_sdd _ _ _ _ _ _ _ _ _ _ MO3 S D) as [_ G].
  rewrite HM in HM'. apply (f_equal (option_map (fun x => m_el (fst x)))) in HM'. cbn [option_map fst m_el] in HM'.
  assert (X : m_el mat = c_elSet demo_c (sub bad_pars 3 3)) by congruence.
  rewrite X, bad_gmod in G. discriminate.
Qed.

(** ** C33 *)
Lemma cubic_accepts hs c s opts pars strs : builtin hs c -> c_sgNP c = 0%nat ->
  (exists s', mm_init c s opts pars strs = (Done, s')) <-> counts_ok c opts pars strs /\ 0 < p_bulk c pars.
Proof.
  intros HB H0. split.
  - intros [s' H]. destruct (init_done _ _ _ _ _ _ H) as (HC & a & (P1 & P2 & P3 & P4) & _). split; [assumption|].
    rewrite P2 in P4. change (c_elSet c (sub pars (3 + c_sgNP c) (c_elNP c))) with (el_of c pars) in P4.
    destruct (bulk_of hs c pars _ HB (proj1 HC) P4) as [<- PB]. exact PB.
  - intros [HC PB]. pose proof (proj1 HC) as HL.
    assert (EB : exists b, el_getBulkMod (el_of c pars) = Some b).
    { destruct (el_getBulkMod (el_of c pars)) as [b|] eqn:E; [eauto|]. exfalso.
      unfold el_getBulkMod in E. destruct (el_K_bulkMod (el_of c pars) <=? nZ 0)%num eqn:EL; [|discriminate].
      cbn [nleb nZ RNum] in EL. apply Rleb_true in EL.
      assert (X : el_K_bulkMod (el_of c pars) = p_bulk c pars).
      { destruct HB as [ -> | [ -> | [ -> | [ -> | [ -> | [ -> | -> ]]]]]];
        unfold el_of, p_bulk, hexagonal; cbn [cls_FCC_A cls_FCC_AH cls_FCC_B cls_BCC_A cls_HCP_A cls_BCC_B cls_BCC_BH c_elSet c_elNP c_sgNP hexag_nParams cubic_nParams Nat.eqb Nat.add];
        unfold cubic_setParams, hexag_setParams; cbn [el_K_bulkMod];
        rewrite !get_sub by (unfold cubic_nParams, hexag_nParams; lia); cbn [Nat.add]; rops; unfold get; cbn [nundef RNum]; field. }
      rewrite X in EL. lra. }
    destruct EB as [b EB].
    assert (SG : exists g, c_sgSet c (sub pars 3 (c_sgNP c)) = Some g).
    { destruct geom_fcc as (g & Hg & _). destruct (geom_bcc 12 (or_introl eq_refl)) as (g' & Hg' & _).
      destruct HB as [ -> | [ -> | [ -> | [ -> | [ -> | [ -> | -> ]]]]]]; cbn [cls_FCC_A cls_FCC_AH cls_FCC_B cls_BCC_A cls_HCP_A cls_BCC_B cls_BCC_BH c_sgSet c_sgNP] in *; eauto. discriminate H0. }
    destruct SG as [g SG].
    assert (KK : exists k h, c_kinSet c (sub pars (3 + c_sgNP c + c_elNP c) (c_kinNP c)) = Some (k, h) /\ List.length (mm_histInfo c h) = mm_numHist c).
    { destruct HB as [ -> | [ -> | [ -> | [ -> | [ -> | [ -> | -> ]]]]]]; cbn [cls_FCC_A cls_FCC_AH cls_FCC_B cls_BCC_A cls_HCP_A cls_BCC_B cls_BCC_BH c_sgSet c_sgNP c_kinSet] in *;
        try (eexists; eexists; split; reflexivity). discriminate H0. }
    destruct KK as (k & h & KK & LK).
    apply (init_done_conv c s opts pars strs {| pa_sg := g; pa_el := el_of c pars; pa_kin := k; pa_hist := h; pa_bulk := b |}); [assumption| |assumption].
    exact (conj SG (conj eq_refl (conj KK EB))).
Qed.

Lemma hcp_p (pars : list R) (k : KM R) : k = km_setParams true true true true 24 (sub pars 10 85) ->
  km_p k = nth 37 pars 0 /\ km_q k = nth 38 pars 0 /\ km_pOne k = true /\ km_qOne k = true.
Proof.
  intros ->. unfold km_setParams. cbn [km_p km_q km_pOne km_qOne]. rewrite !get_sub by lia. repeat split.
Qed.
Lemma hcp_accepts hs s opts pars strs : 0 < nth 3 pars 0 ->
  (exists s', mm_init (cls_HCP_A hs) s opts pars strs = (Done, s')) <->
  counts_ok (cls_HCP_A hs) opts pars strs /\ 0 < p_bulk (cls_HCP_A hs) pars /\ nth 37 pars 0 = 1 /\ nth 38 pars 0 = 1.
Proof.
  intros Hca. assert (HB : builtin hs (cls_HCP_A hs)) by (unfold builtin; tauto).
  set (c := cls_HCP_A hs) in *.
  assert (KE : forall p, c_kinSet c p = kinKM hs true true true true 24 24 p) by reflexivity.
  assert (SUB : sub pars (3 + c_sgNP c + c_elNP c) (c_kinNP c) = sub pars 10 85) by reflexivity.
  destruct (hcp_p pars _ eq_refl) as (K1 & K2 & K3 & K4).
  split.
  - intros [s' H]. destruct (init_done _ _ _ _ _ _ H) as (HC & a & (P1 & P2 & P3 & P4) & _). split; [assumption|].
    rewrite P2 in P4. change (c_elSet c (sub pars (3 + c_sgNP c) (c_elNP c))) with (el_of c pars) in P4.
    destruct (bulk_of hs c pars _ HB (proj1 HC) P4) as [<- PB]. split; [exact PB|].
    rewrite KE, SUB in P3. unfold kinKM in P3.
    destruct (km_ctorOk true 24 24 && km_paramsOk (km_setParams true true true true 24 (sub pars 10 85))) eqn:EO; [|discriminate P3].
    apply andb_prop in EO. destruct EO as [_ EO]. unfold km_paramsOk in EO. rewrite K1, K2, K3, K4 in EO.
    apply andb_prop in EO. cbn [neqb RNum] in EO. unfold Reqb in EO.
    destruct EO as [E1 E2].
    destruct (Req_EM_T (nth 37 pars 0) one); [|discriminate]. destruct (Req_EM_T (nth 38 pars 0) one); [|discriminate].
    rops. split; assumption.
  - intros (HC & PB & Hp & Hq).
    assert (EB : exists b, el_getBulkMod (el_of c pars) = Some b).
    { destruct (el_getBulkMod (el_of c pars)) as [b|] eqn:E; [eauto|]. exfalso.
      unfold el_getBulkMod in E. destruct (el_K_bulkMod (el_of c pars) <=? nZ 0)%num eqn:EL; [|discriminate].
      cbn [nleb nZ RNum] in EL. apply Rleb_true in EL.
      assert (X : el_K_bulkMod (el_of c pars) = p_bulk c pars).
      { unfold c, el_of, p_bulk, hexagonal; cbn [cls_HCP_A c_elSet c_elNP c_sgNP hexag_nParams Nat.eqb Nat.add];
        unfold hexag_setParams; cbn [el_K_bulkMod];
        rewrite !get_sub by (unfold hexag_nParams; lia); cbn [Nat.add]; rops; unfold get; cbn [nundef RNum]; field. }
      rewrite X in EL. lra. }
    destruct EB as [b EB].
    assert (SG : exists g, c_sgSet c (sub pars 3 (c_sgNP c)) = Some g).
    { destruct (geom_hcp (nth 3 pars 0) Hca) as (g & Hg & _). exists g. unfold c. cbn [cls_HCP_A c_sgSet c_sgNP].
      rewrite get_sub by lia. exact Hg. }
    destruct SG as [g SG].
    assert (KK : exists k h, c_kinSet c (sub pars (3 + c_sgNP c + c_elNP c) (c_kinNP c)) = Some (k, h) /\ List.length (mm_histInfo c h) = mm_numHist c).
    { rewrite KE, SUB. unfold kinKM.
      assert (EO : km_ctorOk true 24 24 && km_paramsOk (km_setParams true true true true 24 (sub pars 10 85)) = true).
      { apply andb_true_intro. split; [reflexivity|]. unfold km_paramsOk. rewrite K1, K2, K3, K4, Hp, Hq.
        cbn [neqb RNum]. unfold Reqb. rops. destruct (Req_EM_T 1 1); [reflexivity|congruence]. }
      rewrite EO. eexists; eexists; split; reflexivity. }
    destruct KK as (k & h & KK & LK).
    apply (init_done_conv c s opts pars strs {| pa_sg := g; pa_el := el_of c pars; pa_kin := k; pa_hist := h; pa_bulk := b |}); [assumption| |assumption].
    exact (conj SG (conj eq_refl (conj KK EB))).
Qed.

Lemma make_iff {T} {N : Num T} (hs : Solver T) name c s : makeMatModel hs name = Some (c, s) <->
  s = mm_new c /\ exists np nh hn sr, In (name, c, np, nh, hn, sr) (table hs).
Proof.
  unfold makeMatModel. cbv zeta. split.
  - destruct (String.eqb_spec name "evptn_FCC_A") as [->|N1]; [|destruct (String.eqb_spec name "evptn_FCC_AH") as [->|N2]; [|destruct (String.eqb_spec name "evptn_FCC_B") as [->|N3]; [|destruct (String.eqb_spec name "evptn_BCC_A") as [->|N4]; [|destruct (String.eqb_spec name "evptn_HCP_A") as [->|N5]; [|discriminate]]]]];
    intros H;
    match type of H with Some (?x, ?y) = Some (?a, ?b) => assert (Ec : a = x) by (apply (f_equal (option_map fst)) in H; cbn [option_map fst] in H; congruence);
       assert (Es : b = y) by (apply (f_equal (option_map snd)) in H; cbn [option_map snd] in H; congruence) end; subst; (split; [reflexivity|]);
    do 4 eexists; unfold table; [left|right;left|right;right;left|right;right;right;left|right;right;right;right;left]; reflexivity.
  - intros [-> (np & nh & hn & sr & Hin)]. cbn in Hin.
    repeat (destruct Hin as [Hin|Hin]; [injection Hin; intros; subst; reflexivity|]). contradiction.
Qed.

(** ** C31 *)
Lemma len_eq {A} (p : list A) (n : nat) : List.length p = S n -> exists x q, p = x :: q /\ List.length q = n.
Proof. destruct p; intros H; [discriminate|]. injection H as H. eauto. Qed.
Ltac vec H := repeat (apply len_eq in H; destruct H as (? & ? & -> & H)); apply length_zero_iff_nil in H; subst.

Lemma eos_readback {T} {N : Num T} iso (p : list T) : List.length p = eos_nParams -> eos_getParams (eos_setParams iso p) = p.
Proof. intros H. vec H. reflexivity. Qed.
Lemma cubic_readback {T} {N : Num T} (p : list T) : List.length p = cubic_nParams -> el_getParams (cubic_setParams p) = p.
Proof. intros H. vec H. reflexivity. Qed.
Lemma hexag_readback {T} {N : Num T} (p : list T) : List.length p = hexag_nParams -> el_getParams (hexag_setParams p) = p.
Proof. intros H. vec H. reflexivity. Qed.
Lemma voce_readback {T} {N : Num T} (p : list T) : List.length p = voce_nParams false -> voce_getParams (voce_setParams false p) = p.
Proof. intros H. vec H. reflexivity. Qed.
Lemma voce_readback_nl {T} {N : Num T} (p : list T) : List.length p = voce_nParams true -> voce_getParams (voce_setParams true p) = firstn 6 p ++ skipn 7 p.
Proof. intros H. vec H. reflexivity. Qed.
Lemma km_readback {T} {N : Num T} a b c d n (p : list T) : List.length p = km_nParams n -> km_getParams (km_setParams a b c d n p) = p.
Proof.
  intros H. unfold km_nParams in H.
  apply nth_ext with (d := nundef) (d' := nundef).
  - unfold km_getParams, km_setParams. cbn [km_mu_ref km_tK_ref km_c_1 km_tau_a km_p km_q km_gam_wo km_gam_ro km_wrD km_go km_s km_k1 km_k2o km_ninv km_gamma_o km_hdn_init].
    rewrite !app_length, !sub_length by lia. cbn [List.length]. lia.
  - intros i Hi. assert (Hi' : (i < 13 + 3 * n)%nat).
    { unfold km_getParams, km_setParams in Hi. cbn [km_mu_ref km_tK_ref km_c_1 km_tau_a km_p km_q km_gam_wo km_gam_ro km_wrD km_go km_s km_k1 km_k2o km_ninv km_gamma_o km_hdn_init] in Hi.
      rewrite !app_length, !sub_length in Hi by lia. cbn [List.length] in Hi. lia. }
    clear Hi. unfold km_getParams, km_setParams. cbn [km_mu_ref km_tK_ref km_c_1 km_tau_a km_p km_q km_gam_wo km_gam_ro km_wrD km_go km_s km_k1 km_k2o km_ninv km_gamma_o km_hdn_init].
    assert (S : forall j k l, (l < k)%nat -> nth l (sub p j k) nundef = nth (j + l) p nundef) by (intros; now apply get_sub).
    assert (L : forall j k, (j + k <= List.length p)%nat -> List.length (sub p j k) = k) by (intros; now apply sub_length).
    destruct (Nat.lt_ge_cases i 2) as [C1|C1]. { destruct i as [|[|i]]; [reflexivity|reflexivity|lia]. }
    rewrite app_nth2 by (cbn; lia). cbn [List.length].
    destruct (Nat.lt_ge_cases i (2 + n)) as [C2|C2]. { rewrite app_nth1 by (rewrite L; lia). rewrite S by lia. f_equal; lia. }
    rewrite app_nth2 by (rewrite L; lia). rewrite L by lia.
    destruct (Nat.lt_ge_cases i (8 + n)) as [C3|C3].
    { rewrite app_nth1 by (cbn; lia). remember (i - 2 - n)%nat as j eqn:Ej.
      do 6 (destruct j as [|j]; [cbn [nth]; unfold get; f_equal; lia|]). lia. }
    rewrite app_nth2 by (cbn; lia). cbn [List.length].
    destruct (Nat.lt_ge_cases i (8 + n + n)) as [C4|C4]. { rewrite app_nth1 by (rewrite L; lia). rewrite S by lia. f_equal; lia. }
    rewrite app_nth2 by (rewrite L; lia). rewrite L by lia.
    destruct (Nat.lt_ge_cases i (8 + n + n + n)) as [C5|C5]. { rewrite app_nth1 by (rewrite L; lia). rewrite S by lia. f_equal; lia. }
    rewrite app_nth2 by (rewrite L; lia). rewrite L by lia.
    remember (i - 2 - n - 6 - n - n)%nat as j eqn:Ej.
    do 5 (destruct j as [|j]; [cbn [nth]; unfold get; f_equal; lia|]). lia.
Qed.

(** ** C32 *)
Lemma init_getParams {T} {N : Num T} (c : MClass T) s o p st r s1 : mm_init c s o p st = (r, s1) -> mm_getParams s1 = (o, p, st).
Proof.
  intros H. apply (f_equal snd) in H. cbn [snd] in H. subst s1. unfold mm_init. cbv zeta.
  repeat match goal with |- context [if ?b then _ else _] => destruct b; [reflexivity|] end.
  destruct c_sgSet; [|reflexivity]. destruct c_kinSet as [[k kh]|]; [|reflexivity]. destruct el_getBulkMod; [|reflexivity].
  destruct eos_getInfo as [[[? ?] ?] ?]. destruct negb; reflexivity.
Qed.
Lemma wrong_counts_obs {T} {N : Num T} (c : MClass T) s o p st : ~ counts_ok c o p st ->
  exists s1, mm_init c s o p st = (Failed, s1) /\ mm_getParams s1 = (o, p, st) /\ mm_getHistInfo c s1 = mm_getHistInfo c s /\
    mm_getRhoRef s1 = mm_getRhoRef s /\ mm_complete s1 = mm_complete s /\
    forall sv lu dt mt n m, mm_getResponse sv lu c s1 dt mt n m = mm_getResponse sv lu c s dt mt n m.
Proof.
  intros H. pose proof (init_wrong_counts c s o p st H) as E. rewrite E. eexists. split; [reflexivity|].
  repeat split.
Qed.

(** ** C25: reading by name *)
Lemma pos_nth l : NoDup l -> forall k n, nth_error l k = Some n -> pos n l = Some k.
Proof.
  induction 1 as [|x l Hx ND IH]; intros k n H; [destruct k; discriminate|].
  destruct k as [|k]; cbn [nth_error] in H; cbn [pos].
  - injection H as <-. now rewrite String.eqb_refl.
  - destruct (String.eqb_spec n x) as [->|N]; [apply nth_error_In in H; contradiction|]. now rewrite (IH k n H).
Qed.
Lemma pos_none l n : ~ In n l -> pos n l = None.
Proof.
  induction l as [|x l IH]; intros H; [reflexivity|]. cbn [pos]. destruct (String.eqb_spec n x) as [->|N]; [exfalso; apply H; now left|].
  rewrite IH; [reflexivity|]. intros Hin. apply H. now right.
Qed.
Lemma column_at {T} {N : Num T} (hs : Solver T) name c np nh hn sr s pars : In (name, c, np, nh, hn, sr) (table hs) -> in_use c s pars ->
  (forall k n, nth_error (hist_names hn sr) k = Some n -> column c s n = Some k) /\
  (forall n, ~ In n (hist_names hn sr) -> column c s n = None).
Proof.
  intros Hin HU. destruct (hist_layout _ _ _ _ _ _ _ _ _ Hin HU) as (h & E & _ & _ & EN & ND & _).
  unfold column. rewrite E, EN. rewrite EN in ND. split; [exact (pos_nth _ ND)|exact (pos_none _)].
Qed.
Lemma by_name hs name c np nh hn sr b i pars : In (name, c, np, nh, hn, sr) (table hs) -> good hs c b -> (i < b_n b)%nat ->
  in_use c (b_s b) pars -> 0 <= b_dt b ->
  let s := b_s b in let m := b_m b in let m1 := b_m1 b in
  named c s m1 i "shr_eff" = named c s m i "shr_eff" + b_dt b * named c s m1 i "shrate_eff" /\
  named c s m1 i "shrate_eff" = fold_right Rplus 0 (map (fun n => Rabs (named c s m1 i n)) sr) /\
  (forall mm, quat s mm i = map (named c s mm i) ["quat_1"; "quat_2"; "quat_3"; "quat_4"]%string) /\
  (forall mm, map (fun k => val s mm AH i (4 + k)) [0; 1; 2; 3; 4]%nat = map (named c s mm i) ["t1"; "t2"; "t3"; "t4"; "t5"]%string) /\
  (forall mm, named c s mm i hn = val s mm AH i 13).
Proof.
  intros Hin HG Hi HU Hdt s m m1.
  destruct (column_at _ _ _ _ _ _ _ _ _ Hin HU) as [CA _]. fold s in CA.
  assert (NV : forall mm k n, nth_error (hist_names hn sr) k = Some n -> named c s mm i n = val s mm AH i k).
  { intros mm k n H. unfold named. now rewrite (CA k n H). }
  destruct (call_shear hs c b i HG Hi Hdt) as (_ & B & C). rewrite (sum_fold (c_nslip c)) in C. fold s m m1 in B, C.
  rewrite (NV m1 1%nat "shr_eff"%string eq_refl), (NV m 1%nat "shr_eff"%string eq_refl), (NV m1 0%nat "shrate_eff"%string eq_refl).
  refine (conj B (conj _ (conj _ (conj _ _)))).
  - rewrite C. f_equal.
    assert (SR : List.length sr = c_nslip c /\ c_nH c = 1%nat).
    { clear - Hin. cbn in Hin. repeat (destruct Hin as [Hin|Hin]; [injection Hin; intros; subst; split; reflexivity|]). contradiction. }
    destruct SR as [<- ->].
    assert (G : forall k n, nth_error sr k = Some n -> named c s m1 i n = val s m1 AH i (14 + k)).
    { intros k n H. apply NV. exact H. }
    clear - G. change (13 + 1)%nat with 14%nat.
    revert G. generalize 14%nat as o. induction sr as [|n sr IH]; intros o G; [reflexivity|].
    cbn [List.length seq map]. rewrite (G 0%nat n eq_refl). f_equal. rewrite <- seq_shift, map_map.
    rewrite <- (IH (S o)). { apply map_ext. intros k. do 2 f_equal. lia. }
    intros k n' H. rewrite (G (S k) n' H). f_equal. lia.
  - intros mm. unfold quat. cbn [map].
    now rewrite (NV mm 9%nat "quat_1"%string eq_refl), (NV mm 10%nat "quat_2"%string eq_refl), (NV mm 11%nat "quat_3"%string eq_refl), (NV mm 12%nat "quat_4"%string eq_refl).
  - intros mm. cbn [map].
    now rewrite (NV mm 4%nat "t1"%string eq_refl), (NV mm 5%nat "t2"%string eq_refl), (NV mm 6%nat "t3"%string eq_refl), (NV mm 7%nat "t4"%string eq_refl), (NV mm 8%nat "t5"%string eq_refl).
  - intros mm. apply NV. reflexivity.
Qed.
Lemma demo_table : In ("evptn_FCC_A"%string, demo_c, 17%nat, 26%nat, "h"%string, names12) (table echo).
Proof. left. reflexivity. Qed.
Lemma run_keeps_params {T} {N : Num T} (c : MClass T) s o p st r s1 ops : mm_init c s o p st = (r, s1) -> Forall no_init ops ->
  mm_getParams (fst (mm_run c s1 ops)) = (o, p, st).
Proof.
  intros H HF. rewrite (run_noinit c ops); [exact (init_getParams _ _ _ _ _ _ _ H)|].
  eapply Forall_impl; [|exact HF]. intros op Ho. destruct op; try reflexivity. exfalso. eapply Ho. reflexivity.
Qed.
