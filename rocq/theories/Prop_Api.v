(** Property theorems about the object interface: C25, C30 - C33, C43. Those that quantify over [T] and
    [N : Num T] hold whatever the arithmetic does, so also for rounded operations, infinities and NaN. *)
From Coq Require Import List ZArith Bool Lia Reals Lra String.
From Verif Require Import Num NumR Hard Eos KinVoce KinKMBalD Elast Evptn MatModel Cases SpecApi SpecObj P_Api P_Builtin P_Hist P_Batch3 P_Demo P_Api2.
Import ListNotations.
Local Open Scope R_scope.

(** C25. What getHistInfo returns for an initialised model, and where each named entry is. *)
Theorem C25_layout {T} {N : Num T} (hs : Solver T) name c np nh hn sr s pars : In (name, c, np, nh, hn, sr) (table hs) -> in_use c s pars ->
  exists h, mm_getHistInfo c s = Some h /\ List.length h = mm_getNumHist c /\ mm_getNumHist c = nh /\
    map entry_name h = hist_names hn sr /\ NoDup (map entry_name h) /\
    map entry_init h = repeat (nZ 0) 9 ++ [nZ 1] ++ repeat (nZ 0) 3 ++ [nth (np - 3) pars nundef] ++ repeat (nZ 0) (nh - 14) /\
    map entry_plot h = repeat true nh /\ map entry_state h = [true; true; false; false] ++ repeat true (nh - 4).
Proof. exact (hist_layout hs name c np nh hn sr s pars). Qed.
Theorem C25_columns {T} {N : Num T} (hs : Solver T) name c np nh hn sr s pars : In (name, c, np, nh, hn, sr) (table hs) -> in_use c s pars ->
  (forall k n, nth_error (hist_names hn sr) k = Some n -> column c s n = Some k) /\
  (forall n, ~ In n (hist_names hn sr) -> column c s n = None).
Proof. exact (column_at hs name c np nh hn sr s pars). Qed.
(** The entries found by name are the ones a call reads and writes: effective shear, slip rates,
    orientation, elastic strain ([quat] and entries 4 - 8 are what C01, C02 and C44 speak about). *)
Theorem C25_by_name hs name c np nh hn sr b i pars : In (name, c, np, nh, hn, sr) (table hs) -> good hs c b -> (i < b_n b)%nat ->
  in_use c (b_s b) pars -> 0 <= b_dt b ->
  let s := b_s b in let m := b_m b in let m1 := b_m1 b in
  named c s m1 i "shr_eff" = named c s m i "shr_eff" + b_dt b * named c s m1 i "shrate_eff" /\
  named c s m1 i "shrate_eff" = fold_right Rplus 0 (map (fun n => Rabs (named c s m1 i n)) sr) /\
  (forall mm, quat s mm i = map (named c s mm i) ["quat_1"; "quat_2"; "quat_3"; "quat_4"]%string) /\
  (forall mm, map (fun k => val s mm AH i (4 + k)) [0; 1; 2; 3; 4]%nat = map (named c s mm i) ["t1"; "t2"; "t3"; "t4"; "t5"]%string) /\
  (forall mm, named c s mm i hn = val s mm AH i 13).
Proof. exact (by_name hs name c np nh hn sr b i pars). Qed.
Example C25_case : In ("evptn_FCC_A"%string, demo_c, 17%nat, 26%nat, "h"%string, names12) (table echo) /\
  in_use demo_c demo_s demo_pars /\ good echo demo_c (demo_call (/10) demo_m) /\ 0 <= b_dt (demo_call (/10) demo_m) /\
  column demo_c demo_s "shrate_7" = Some 20%nat.
Proof.
  refine (conj demo_table (conj demo_in_use (conj (demo_good _ _ demo_m_pos) (conj _ _)))); [cbn; lra|].
  exact (proj1 (C25_columns _ _ _ _ _ _ _ _ _ demo_table demo_in_use) 20%nat "shrate_7"%string eq_refl).
Qed.

(** C30. Whatever was called on a new object, as long as complete() was not: getResponseECM fails and
    touches nothing. *)
Theorem C30_incomplete {T} {N : Num T} c s0 ops sv lu dt mt n (m : Mem T) :
  (s0 = mm_new c \/ exists st len, mm_newStrides c st len = Some s0) -> Forall no_complete ops ->
  mm_getResponse sv lu c (fst (mm_run c s0 ops)) dt mt n m = (BRet Failed, m).
Proof.
  intros HN HF. apply run_before_complete; [|exact HF].
  destruct HN as [->|(st & len & H)]; [reflexivity|]. destruct (newStrides_spec _ _ _ _ H) as [-> _]. reflexivity.
Qed.
(** After complete() the response depends on nothing but the parameters of the last successful
    initFromParams and the strides: any two objects that agree on those answer every call alike. *)
Theorem C30_last_parameters {T} {N : Num T} c s s' pars sv lu dt mt n (m : Mem T) : in_use c s pars -> in_use c s' pars ->
  mm_strides s = mm_strides s' -> mm_complete s = mm_complete s' ->
  mm_getResponse sv lu c s dt mt n m = mm_getResponse sv lu c s' dt mt n m.
Proof. exact (in_use_response c s s' pars sv lu dt mt n m). Qed.
(** getRhoRef fails on a new object until an initFromParams with the right counts, then returns the
    density parameter, if that is not negative. *)
Theorem C30_rho c st ops : Forall (harmless c) ops -> mm_getRhoRef (fst (mm_run c (mm_base st) ops)) = None.
Proof. refine (rho_before c (mm_base st) ops _). cbn. lra. Qed.
Theorem C30_rho_in_use c s pars : in_use c s pars ->
  mm_getRhoRef s = if Rlt_dec (nth 0 pars 0) 0 then None else Some (nth 0 pars 0).
Proof.
  intros HU. unfold mm_getRhoRef. rewrite (in_use_rho c s pars HU). cbn [nltb nZ nundef RNum]. unfold Rltb.
  change (IZR 0) with 0. destruct (Rlt_dec (nth 0 pars 0) 0); reflexivity.
Qed.
(** The last part of the claim fails: an object completed without initialisation reads components that
    were never set, for every non-empty batch. *)
Theorem C30_uninitialised_refuted {T} {N : Num T} (hs : Solver T) c : builtin hs c -> exists s, reachable c s /\
  forall sv lu dt mt n (m : Mem T), (0 < n)%Z -> mm_getResponse sv lu c s dt mt n m = (BUndef, m).
Proof.
  intros HB. exists (fst (mm_run c (mm_new c) [OComplete])). split; [apply reach_default|].
  intros sv lu dt mt n m Hn. unfold mm_getResponse. cbn [mm_run mm_step fst mm_doComplete mm_complete negb].
  destruct (Z.to_nat n) as [|k] eqn:E; [lia|]. reflexivity.
Qed.
(** And a re-initialisation with right counts that fails late (bulk modulus not positive) does not keep
    the last successful parameters: an object whose calls succeeded afterwards fails every non-empty call. *)
Theorem C30_failed_init_refuted : exists (c : MClass R) s pars s1 bad sv lu dt mt m,
  in_use c s pars /\ mm_init c s [] bad [] = (Failed, s1) /\
  batch_ok c s mt 2 m /\ (exists m1, mm_getResponse sv lu c s dt mt 2 m = (BRet Done, m1)) /\
  forall m1, mm_getResponse sv lu c s1 dt mt 2 m <> (BRet Done, m1).
Proof.
  destruct bad_init as (sg & E & EC & ES & _).
  exists demo_c, demo_s, demo_pars, mixed_s, bad_pars, echo, noLU, (/10), false, demo_m.
  refine (conj demo_in_use (conj E (conj (demo_batch demo_m (fun _ => eq_refl)) (conj _ _)))).
  - exact (demo_done 2 (/10) demo_m (demo_batch demo_m (fun _ => eq_refl)) (proj2 demo_m_pos)).
  - intros m1. apply (mixed_fails echo noLU (/10) false 2 demo_m m1); [lia|].
    destruct (demo_batch demo_m (fun _ => eq_refl)) as [B1 B2]. rewrite <- ES in B1, B2. split; [exact B1|]. rewrite ES in *. exact B2.
Qed.
Example C30_case : Forall no_complete [OInit [] demo_pars []; OGetParams] /\ in_use demo_c demo_s demo_pars /\ mm_complete demo_s = true /\
  mm_getRhoRef demo_s = Some 3.
Proof.
  refine (conj _ (conj demo_in_use (conj demo_complete _))).
  - repeat constructor; discriminate.
  - rewrite (C30_rho_in_use demo_c demo_s demo_pars demo_in_use). cbn. destruct (Rlt_dec 3 0); [lra|reflexivity].
Qed.

(** C31. getParams returns the vectors of the last initFromParams, whatever was called since. *)
Theorem C31_readback {T} {N : Num T} c (s : MM T) o p st r s1 ops : mm_init c s o p st = (r, s1) -> Forall no_init ops ->
  mm_getParams (fst (mm_run c s1 ops)) = (o, p, st).
Proof. exact (run_keeps_params c s o p st r s1 ops). Qed.
Theorem C31_eos {T} {N : Num T} iso (p : list T) : List.length p = eos_nParams -> eos_getParams (eos_setParams iso p) = p.
Proof. exact (eos_readback iso p). Qed.
Theorem C31_cubic {T} {N : Num T} (p : list T) : List.length p = cubic_nParams -> el_getParams (cubic_setParams p) = p.
Proof. exact (cubic_readback p). Qed.
Theorem C31_hexagonal {T} {N : Num T} (p : list T) : List.length p = hexag_nParams -> el_getParams (hexag_setParams p) = p.
Proof. exact (hexag_readback p). Qed.
Theorem C31_voce_linear {T} {N : Num T} (p : list T) : List.length p = voce_nParams false -> voce_getParams (voce_setParams false p) = p.
Proof. exact (voce_readback p). Qed.
Theorem C31_kmbald {T} {N : Num T} a b c d n (p : list T) : List.length p = km_nParams n -> km_getParams (km_setParams a b c d n p) = p.
Proof. exact (km_readback a b c d n p). Qed.
(** The nonlinear Voce kinetics returns one entry too few: the exponent (entry 6) is missing. *)
Theorem C31_voce_nonlinear_actual {T} {N : Num T} (p : list T) : List.length p = voce_nParams true ->
  voce_getParams (voce_setParams true p) = firstn 6 p ++ skipn 7 p.
Proof. exact (voce_readback_nl p). Qed.
Theorem C31_voce_nonlinear_refuted {T} {N : Num T} (p : list T) : List.length p = voce_nParams true ->
  voce_getParams (voce_setParams true p) <> p.
Proof.
  intros H E. apply (f_equal (@List.length T)) in E. rewrite (voce_readback_nl p H), app_length, firstn_length, skipn_length, H in E.
  cbn in E. discriminate E.
Qed.
Example C31_case : (exists s1, mm_init demo_c (mm_new demo_c) [] demo_pars [] = (Done, s1)) /\
  Forall no_init [OComplete; OGetParams; OResponse echo noLU 1 false 2%Z demo_m] /\
  List.length (repeat 1 85) = km_nParams 24 /\ List.length [1; 2; 3; 4; 5; 6; 7; 8; 9; 10] = voce_nParams true.
Proof. refine (conj demo_init (conj _ (conj eq_refl eq_refl))). repeat constructor; discriminate. Qed.

(** C32. The claim fails for getParams ... *)
Theorem C32_refuted : exists (c : MClass R) s pars s1, in_use c s pars /\ mm_complete s = true /\
  mm_init c s [] [] [] = (Failed, s1) /\ mm_getParams s1 <> mm_getParams s.
Proof.
  assert (NC : ~ counts_ok demo_c [] [] []) by (intros [H _]; discriminate H).
  destruct (wrong_counts_obs demo_c demo_s [] [] [] NC) as (s1 & E & G & _).
  exists demo_c, demo_s, demo_pars, s1. refine (conj demo_in_use (conj demo_complete (conj E _))). rewrite G.
  destruct demo_init as [s2 E2].
  assert (ED : demo_s = fst (mm_run demo_c s2 [OComplete])) by (unfold demo_s; rewrite mm_run_cons; cbn [mm_step]; rewrite E2; reflexivity).
  rewrite ED, (run_keeps_params _ _ _ _ _ _ _ [OComplete] E2) by (repeat constructor; discriminate). discriminate.
Qed.
(** ... and holds for everything else a caller can observe. *)
Theorem C32_rest_unchanged {T} {N : Num T} c (s : MM T) o p st : ~ counts_ok c o p st ->
  exists s1, mm_init c s o p st = (Failed, s1) /\ mm_getParams s1 = (o, p, st) /\ mm_getHistInfo c s1 = mm_getHistInfo c s /\
    mm_getRhoRef s1 = mm_getRhoRef s /\ mm_complete s1 = mm_complete s /\
    forall sv lu dt mt n m, mm_getResponse sv lu c s1 dt mt n m = mm_getResponse sv lu c s dt mt n m.
Proof. exact (wrong_counts_obs c s o p st). Qed.
Example C32_case : ~ counts_ok demo_c [] (tl demo_pars) [] /\ ~ counts_ok demo_c [1%Z] demo_pars [] /\
  ~ counts_ok demo_c [] demo_pars ["a"; "b"]%string.
Proof. split; [|split]; intros (A & B & C); try discriminate A; try discriminate B; cbn in C; lia. Qed.

(** C33. makeMatModel gives a new model of the documented class for the five documented names and fails
    for every other string; parameter and history counts are as documented. *)
Theorem C33_names {T} {N : Num T} (hs : Solver T) name c s : makeMatModel hs name = Some (c, s) <->
  s = mm_new c /\ exists np nh hn sr, In (name, c, np, nh, hn, sr) (table hs).
Proof. exact (make_iff hs name c s). Qed.
Theorem C33_unknown {T} {N : Num T} (hs : Solver T) name : makeMatModel hs name = None <->
  ~ In name ["evptn_FCC_A"; "evptn_FCC_AH"; "evptn_FCC_B"; "evptn_BCC_A"; "evptn_HCP_A"]%string.
Proof.
  assert (TN : map (fun x => fst (fst (fst (fst (fst x))))) (table hs) = ["evptn_FCC_A"; "evptn_FCC_AH"; "evptn_FCC_B"; "evptn_BCC_A"; "evptn_HCP_A"]%string) by reflexivity.
  rewrite <- TN. split.
  - intros H Hin. apply in_map_iff in Hin. destruct Hin as ([[[[[n c] np] nh] hn] sr] & En & Hin). cbn [fst] in En. subst n.
    assert (E : makeMatModel hs name = Some (c, mm_new c)) by (apply make_iff; split; [reflexivity|eauto]). congruence.
  - intros H. destruct (makeMatModel hs name) as [[c s]|] eqn:E; [|reflexivity]. exfalso. apply H.
    apply make_iff in E. destruct E as [_ (np & nh & hn & sr & Hin)]. exact (in_map (fun x => fst (fst (fst (fst (fst x))))) _ _ Hin).
Qed.
Theorem C33_counts {T} {N : Num T} (hs : Solver T) name c np nh hn sr : In (name, c, np, nh, hn, sr) (table hs) -> mm_nParams c = np /\ mm_getNumHist c = nh.
Proof.
  intros H. cbn in H. repeat (destruct H as [H|H]; [injection H; intros; subst; split; reflexivity|]). contradiction.
Qed.
(** which vectors initFromParams accepts *)
Theorem C33_accepts_cubic hs c s opts pars strs : builtin hs c -> c_sgNP c = 0%nat ->
  (exists s', mm_init c s opts pars strs = (Done, s')) <-> counts_ok c opts pars strs /\ 0 < p_bulk c pars.
Proof. exact (cubic_accepts hs c s opts pars strs). Qed.
Theorem C33_accepts_hexagonal hs s opts pars strs : 0 < nth 3 pars 0 ->
  (exists s', mm_init (cls_HCP_A hs) s opts pars strs = (Done, s')) <->
  counts_ok (cls_HCP_A hs) opts pars strs /\ 0 < p_bulk (cls_HCP_A hs) pars /\ nth 37 pars 0 = 1 /\ nth 38 pars 0 = 1.
Proof. exact (hcp_accepts hs s opts pars strs). Qed.
Example C33_case : builtin echo demo_c /\ c_sgNP demo_c = 0%nat /\ counts_ok demo_c [] demo_pars [] /\ 0 < p_bulk demo_c demo_pars /\
  counts_ok (cls_HCP_A echo) [] (repeat 1 97) [] /\ 0 < p_bulk (cls_HCP_A echo) (repeat 1 97) /\ 0 < nth 3 (repeat 1 97) 0.
Proof.
  refine (conj demo_builtin (conj eq_refl (conj _ (conj _ (conj _ (conj _ _)))))); try (repeat split; cbn; lia);
    try (unfold p_bulk; cbn; lra); cbn; lra.
Qed.

(** C43. *)
Theorem C43_strides {T} {N : Num T} (c : MClass T) st len : List.length st = 8%nat ->
  ((exists s0, mm_newStrides c st len = Some s0) <->
   len = 8%nat /\ Forall2 le [7; 3; 4; 1; 7; mm_getNumHist c; 1; 2]%nat st).
Proof. exact (fun H => newStrides_iff c st H len). Qed.
(** an accepted object keeps exactly the given strides through every sequence of calls, the default
    object the close-packed ones *)
Theorem C43_kept {T} {N : Num T} (c : MClass T) st s0 ops : List.length st = 8%nat -> mm_newStrides c st 8 = Some s0 ->
  mm_strides (fst (mm_run c s0 ops)) = st.
Proof.
  intros L H. rewrite run_strides. destruct (newStrides_spec _ _ _ _ H) as [-> _]. cbn [mm_base mm_strides].
  rewrite <- L. apply firstn_all.
Qed.
Theorem C43_default {T} {N : Num T} (c : MClass T) ops : mm_strides (fst (mm_run c (mm_new c) ops)) = [7; 3; 4; 1; 7; mm_getNumHist c; 1; 2]%nat.
Proof. now rewrite run_strides. Qed.
Example C43_case : (exists s0, mm_newStrides demo_c [7; 5; 4; 1; 9; 26; 1; 2]%nat 8 = Some s0) /\
  mm_newStrides demo_c [7; 5; 4; 1; 9; 25; 1; 2]%nat 8 = None /\ mm_newStrides demo_c [7; 5; 4; 1; 9; 26; 1; 2]%nat 9 = None.
Proof. split; [eexists; reflexivity|split; reflexivity]. Qed.

Print Assumptions C25_layout.
Print Assumptions C25_columns.
Print Assumptions C25_by_name.
Print Assumptions C30_incomplete.
Print Assumptions C30_last_parameters.
Print Assumptions C30_rho.
Print Assumptions C30_rho_in_use.
Print Assumptions C30_uninitialised_refuted.
Print Assumptions C30_failed_init_refuted.
Print Assumptions C31_readback.
Print Assumptions C31_kmbald.
Print Assumptions C32_refuted.
Print Assumptions C32_rest_unchanged.
Print Assumptions C33_names.
Print Assumptions C33_unknown.
Print Assumptions C33_accepts_cubic.
Print Assumptions C33_accepts_hexagonal.
Print Assumptions C43_strides.
Print Assumptions C43_kept.
