(** History information of the developer interface. *)
From Coq Require Import List ZArith Bool Lia PeanoNat String.
From Verif Require Import Num Arr Hard Eos Elast Evptn MatModel Cases Py SpecApi SpecObj SpecPy P_Api P_Builtin P_Api2.
Import ListNotations.

Section G.
  Context {T : Type} {N : Num T}.

  Lemma dev_step_rhv (v v' : Dev T) op : dev_step v op = Some v' -> dv_rhv v' = dv_rhv v.
  Proof.
    destruct op as [dt d w vr e s h|x|x pt]; cbn [dev_step]; intros H.
    - apply (f_equal (fun o => match o with Some y => dv_rhv y | None => dv_rhv v' end)) in H. cbv beta iota in H. rewrite <- H. clear H.
      unfold dev_setup. cbv zeta. destruct k_updateH as [[hu nf]|]; [|reflexivity].
      match goal with |- context [if ?b then _ else _] => destruct b end; reflexivity.
    - unfold dev_computeRJ in H. destruct (dv_in v) as [i|]; [|discriminate H].
      cbn [option_map snd] in H.
      apply (f_equal (fun o => match o with Some y => dv_rhv y | None => dv_rhv v' end)) in H. cbv beta iota in H. rewrite <- H. reflexivity.
    - unfold dev_getState in H. destruct (dv_in v) as [i|]; [|discriminate H]. destruct (di_last i) as [ev|]; [|discriminate H].
      cbv zeta in H. destruct stateFromX as [e_u quat_u]. destruct el_getGmod; cbn [option_map fst snd] in H;
        apply (f_equal (fun o => match o with Some y => dv_rhv y | None => dv_rhv v' end)) in H; cbv beta iota in H; rewrite <- H; reflexivity.
  Qed.
  Lemma dev_run_rhv ops : forall v v' : Dev T, dev_run v ops = Some v' -> dv_rhv v' = dv_rhv v.
  Proof.
    induction ops as [|op ops IH]; intros v v' H; cbn [dev_run] in H.
    - apply (f_equal (fun o => match o with Some y => dv_rhv y | None => dv_rhv v' end)) in H. symmetry. exact H.
    - destruct (dev_step v op) as [v1|] eqn:E; [|discriminate H]. rewrite (IH v1 v' H). exact (dev_step_rhv _ _ _ E).
  Qed.
  Lemma dev_make_rhv c pars j1 j2 j3 (v : Dev T) : dev_make c pars j1 j2 j3 = POk v -> c_sgNP c = 0%nat ->
    List.length pars = mm_nParams c /\
    exists k kh, c_kinSet c (sub pars (3 + c_sgNP c + c_elNP c) (c_kinNP c)) = Some (k, kh) /\ dv_rhv v = dev_histInfo c kh.
  Proof.
    intros H HS. unfold dev_make in H. cbv zeta in H.
    destruct (Nat.eqb_spec (List.length pars) (dev_nParams c)) as [EL|]; cbn [negb] in H; [|discriminate H].
    split; [rewrite EL; unfold dev_nParams, mm_nParams; lia|].
    destruct c_sgSet; [|discriminate H].
    destruct (c_kinSet c (sub pars (3 + c_sgNP c + c_elNP c) (c_kinNP c))) as [[kin kh]|] eqn:P3; [|discriminate H].
    destruct el_getBulkMod; [|discriminate H]. destruct Nat.ltb; [discriminate H|]. destruct negb; [discriminate H|].
    destruct negb; [discriminate H|]. exists kin, kh. split; [reflexivity|].
    apply (f_equal (fun o => match o with POk y => dv_rhv y | _ => dv_rhv v end)) in H. symmetry. exact H.
  Qed.

  Lemma py_builtin (hs : Solver T) name c np nh hn : In (name, c, np, nh, hn) (dev_table hs) -> builtin hs c /\ c_sgNP c = 0%nat.
  Proof.
    intros Hin. unfold builtin. cbn in Hin. repeat (destruct Hin as [Hin|Hin]; [injection Hin; intros; subst; split; [tauto|reflexivity]|]). contradiction.
  Qed.
  Lemma dev_info (hs : Solver T) name c np nh hn pars j1 j2 j3 v0 ops v :
    In (name, c, np, nh, hn) (dev_table hs) -> dev_make c pars j1 j2 j3 = POk v0 -> dev_run v0 ops = Some v ->
    let h := dev_getHistoryInfo v in
    map entry_name h = dev_names hn /\ NoDup (map entry_name h) /\ List.length h = nh /\
    map entry_init h = repeat (nZ 0) 9 ++ [nZ 1] ++ repeat (nZ 0) 3 ++ [nth (np - 3) pars nundef] ++ repeat (nZ 0) (nh - 14) /\
    map entry_plot h = repeat true nh /\ map entry_state h = [true; true; false; false] ++ repeat true (nh - 4).
  Proof.
    intros Hin HM HR. cbv zeta. unfold dev_getHistoryInfo. rewrite (dev_run_rhv _ _ _ HR).
    destruct (py_builtin _ _ _ _ _ _ Hin) as [HB HS].
    destruct (dev_make_rhv _ _ _ _ _ _ HM HS) as (HL & k & kh & P3 & ->).
    assert (EK : kh = [(hn, nth (np - 3) pars nundef, true, true)]).
    { clear HM HR HB HS HL.
      assert (V : forall nl ns p, kinVoce hs nl ns p = Some (k, kh) -> kh = [("h"%string, get p (KinVoce.voce_nParams nl - 1), true, true)]).
      { intros nl ns p E. unfold kinVoce in E. apply (f_equal (option_map snd)) in E. cbn [option_map snd] in E.
        apply (f_equal (fun x => match x with Some y => y | None => [] end)) in E. cbv beta iota in E. rewrite <- E.
        unfold KinVoce.voce_histInfo, KinVoce.voce_setParams. cbn [KinVoce.v_hdn_init]. destruct nl; reflexivity. }
      destruct (kin_hist hs c _ _ _ (proj1 (py_builtin _ _ _ _ _ _ Hin)) P3) as (nm & E & _).
      rewrite E. f_equal. f_equal. f_equal. f_equal.
      - clear - Hin P3 E V. unfold dev_table in Hin. cbn [In] in Hin. repeat (destruct Hin as [Hin|Hin]; [injection Hin; intros; subst c name np nh hn|]); [| | | | | |contradiction];
          try (cbn [c_kinSet cls_FCC_A cls_FCC_AH cls_BCC_B cls_BCC_BH] in P3; apply V in P3; rewrite P3 in E; injection E; intros; congruence).
        1,2: match type of P3 with c_kinSet ?c0 _ = _ => assert (BB : builtin hs c0) by (unfold builtin; tauto) end;
          destruct (kin_hist hs _ _ _ _ BB P3) as (nm' & E' & X); rewrite E in E'; injection E'; intros ->.
        + exact (X "evptn_FCC_B"%string _ 24%nat 26%nat "rho_dd"%string names12 (or_intror (or_intror (or_introl eq_refl))) eq_refl).
        + exact (X "evptn_BCC_A"%string _ 24%nat 26%nat "rho_dd"%string names12 (or_intror (or_intror (or_intror (or_introl eq_refl)))) eq_refl).
      - assert (X : (0 < c_kinNP c)%nat /\ (3 + c_sgNP c + c_elNP c + (c_kinNP c - 1) = np - 3)%nat).
        { clear - Hin. cbn in Hin. repeat (destruct Hin as [Hin|Hin]; [injection Hin; intros; subst; vm_compute; split; lia|]). contradiction. }
        destruct X as [X1 X2]. rewrite get_sub by lia. unfold get. now rewrite X2. }
    rewrite EK. generalize (nth (np - 3) pars nundef). clear - Hin. intros h0.
    cbn in Hin. repeat (destruct Hin as [Hin|Hin]; [injection Hin; intros; subst;
      refine (conj eq_refl (conj _ (conj eq_refl (conj eq_refl (conj eq_refl eq_refl))))); apply nodupb_ok; vm_compute; reflexivity|]). contradiction.
  Qed.
End G.
