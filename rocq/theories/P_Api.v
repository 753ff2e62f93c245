(** The API object as a state machine: lemmas for C25, C30 - C33, C43. *)
From Coq Require Import List ZArith Bool Lia PeanoNat String.
From Verif Require Import Num Arr Util SlipGeom Eos Hard KinVoce KinKMBalD Elast Evptn MatModel Cases.
Import ListNotations.
Local Open Scope nat_scope.

Section A.
  Context {T : Type} {N : Num T}.

  (** Specification: the parts a parameter vector stands for. *)
  Record Parts := { pa_sg : SlipGeom T; pa_el : Elast T; pa_kin : Kinetics T; pa_hist : list (HistEntry T); pa_bulk : T }.
  Definition counts_ok (c : MClass T) (opts : list Z) (pars : list T) (strs : list string) : Prop :=
    List.length pars = mm_nParams c /\ opts = [] /\ List.length strs <= 1.
  Definition parts_of (c : MClass T) (pars : list T) (a : Parts) : Prop :=
    c_sgSet c (sub pars 3 (c_sgNP c)) = Some (pa_sg a) /\
    pa_el a = c_elSet c (sub pars (3 + c_sgNP c) (c_elNP c)) /\
    c_kinSet c (sub pars (3 + c_sgNP c + c_elNP c) (c_kinNP c)) = Some (pa_kin a, pa_hist a) /\
    el_getBulkMod (pa_el a) = Some (pa_bulk a).
  Definition parts_eos (c : MClass T) (pars : list T) (a : Parts) : Eos T :=
    eos_setParams (c_iso c) ([get pars 0; pa_bulk a; get pars 1] ++ sub pars (3 + c_sgNP c + c_elNP c + c_kinNP c) 2).
  Definition parts_mat (c : MClass T) (pars : list T) (a : Parts) : Mat T :=
    {| m_sg := pa_sg a; m_kin := pa_kin a; m_el := pa_el a; m_eos := parts_eos c pars a |}.

  Lemma counts_test c opts (pars : list T) strs :
    (negb (Nat.eqb (List.length pars) (mm_nParams c)) = false /\ negb (Nat.eqb (List.length opts) 0) = false /\
     Nat.ltb 1 (List.length strs) = false) <-> counts_ok c opts pars strs.
  Proof.
    unfold counts_ok. rewrite !negb_false_iff, !Nat.eqb_eq, Nat.ltb_ge. split; intros (H1 & H2 & H3); repeat split; auto.
    - destruct opts; [reflexivity|discriminate].
    - now rewrite H2.
  Qed.

  Lemma init_wrong_counts c s opts pars strs : ~ counts_ok c opts pars strs ->
    mm_init c s opts pars strs = (Failed, with_vecs s opts pars strs).
  Proof.
    intros H. unfold mm_init. cbv zeta.
    destruct (negb (Nat.eqb (List.length pars) (mm_nParams c))) eqn:E1; [reflexivity|].
    destruct (negb (Nat.eqb (List.length opts) 0)) eqn:E2; [reflexivity|].
    destruct (Nat.ltb 1 (List.length strs)) eqn:E3; [reflexivity|].
    exfalso. apply H. apply counts_test. auto.
  Qed.

  Lemma init_spec c s opts pars strs r s' : mm_init c s opts pars strs = (r, s') -> r = Done <->
    (r = Done /\ counts_ok c opts pars strs /\ exists a, parts_of c pars a /\
     List.length (mm_histInfo c (pa_hist a)) = mm_numHist c /\
     s' = with_parts (with_scalars (with_vecs s opts pars strs) (get pars 0) (get pars 1) (Some (get pars 2)))
            (Some (pa_sg a)) (Some (pa_el a)) (Some (pa_kin a)) (Some (parts_eos c pars a)) (nZ 1) (nZ 0)
            (mm_histInfo c (pa_hist a))).
  Proof.
    intros H. split; [|tauto]. intros Hr. split; [assumption|]. subst r. revert H. unfold mm_init. cbv zeta.
    destruct (negb (Nat.eqb (List.length pars) (mm_nParams c))) eqn:E1; [discriminate|].
    destruct (negb (Nat.eqb (List.length opts) 0)) eqn:E2; [discriminate|].
    destruct (Nat.ltb 1 (List.length strs)) eqn:E3; [discriminate|].
    destruct (c_sgSet c _) as [sg|] eqn:ES; [|discriminate].
    destruct (c_kinSet c _) as [[kin kh]|] eqn:EK; [|discriminate].
    destruct (el_getBulkMod _) as [bulk|] eqn:EB; [|discriminate].
    unfold eos_getInfo. cbv beta iota zeta.
    destruct (negb (Nat.eqb (List.length (mm_histInfo c kh)) (mm_numHist c))) eqn:EL; [discriminate|].
    intros H. apply (f_equal snd) in H. cbn [snd] in H.
    split; [apply counts_test; auto|].
    exists {| pa_sg := sg; pa_el := c_elSet c (sub pars (3 + c_sgNP c) (c_elNP c)); pa_kin := kin; pa_hist := kh; pa_bulk := bulk |}.
    unfold parts_of, parts_eos. cbn [pa_sg pa_el pa_kin pa_hist pa_bulk].
    split; [repeat split; assumption|]. split; [|rewrite <- H; reflexivity].
    apply negb_false_iff, Nat.eqb_eq in EL. exact EL.
  Qed.
  Lemma init_done c s opts pars strs s' : mm_init c s opts pars strs = (Done, s') ->
    counts_ok c opts pars strs /\ exists a, parts_of c pars a /\
     List.length (mm_histInfo c (pa_hist a)) = mm_numHist c /\
     s' = with_parts (with_scalars (with_vecs s opts pars strs) (get pars 0) (get pars 1) (Some (get pars 2)))
            (Some (pa_sg a)) (Some (pa_el a)) (Some (pa_kin a)) (Some (parts_eos c pars a)) (nZ 1) (nZ 0)
            (mm_histInfo c (pa_hist a)).
  Proof. intros H. apply (init_spec _ _ _ _ _ _ _ H). reflexivity. Qed.

  Lemma init_done_conv c s opts pars strs a : counts_ok c opts pars strs -> parts_of c pars a ->
     List.length (mm_histInfo c (pa_hist a)) = mm_numHist c ->
     exists s', mm_init c s opts pars strs = (Done, s').
  Proof.
    intros HC (P1 & P2 & P3 & P4) HL. apply counts_test in HC. destruct HC as (E1 & E2 & E3).
    unfold mm_init. cbv zeta. rewrite E1, E2, E3, P1, P3. rewrite <- P2, P4. unfold eos_getInfo. cbv beta iota zeta.
    rewrite HL, Nat.eqb_refl. cbn [negb]. eexists; reflexivity.
  Qed.

  (** ** What each operation leaves alone *)
  Definition is_init (op : Op T) : bool := match op with OInit _ _ _ => true | _ => false end.
  Definition is_complete (op : Op T) : bool := match op with OComplete => true | _ => false end.

  Lemma step_complete c s op : mm_complete (fst (mm_step c s op)) = (is_complete op || mm_complete s)%bool.
  Proof.
    destruct op; cbn [mm_step is_complete orb]; try reflexivity.
    - unfold mm_init. cbv zeta.
      repeat match goal with |- context [if ?b then _ else _] => destruct b; try reflexivity end.
      destruct (c_sgSet c _); [|reflexivity]. destruct (c_kinSet c _) as [[? ?]|]; [|reflexivity].
      destruct el_getBulkMod; [|reflexivity]. unfold eos_getInfo. cbv beta iota zeta. destruct negb; reflexivity.
    - destruct mm_getResponse; reflexivity.
  Qed.

  (** the parameters in use and the strides do not change except through OInit *)
  Lemma step_keeps c s op : is_init op = false ->
    mm_ready (fst (mm_step c s op)) = mm_ready s /\
    mm_getParams (fst (mm_step c s op)) = mm_getParams s /\
    mm_rhv (fst (mm_step c s op)) = mm_rhv s /\
    mm_rho0 (fst (mm_step c s op)) = mm_rho0 s.
  Proof. destruct op; intros H; try discriminate H; cbn [mm_step]; try (repeat split; reflexivity). destruct mm_getResponse; repeat split; reflexivity. Qed.

  Lemma step_strides c s op : mm_strides (fst (mm_step c s op)) = mm_strides s.
  Proof.
    destruct op; cbn [mm_step]; try reflexivity.
    - unfold mm_init. cbv zeta.
      repeat match goal with |- context [if ?b then _ else _] => destruct b; try reflexivity end.
      destruct (c_sgSet c _); [|reflexivity]. destruct (c_kinSet c _) as [[? ?]|]; [|reflexivity].
      destruct el_getBulkMod; [|reflexivity]. unfold eos_getInfo. cbv beta iota zeta. destruct negb; reflexivity.
    - destruct mm_getResponse; reflexivity.
  Qed.

  Lemma mm_run_cons c s op ops : mm_run c s (op :: ops) =
    (fst (mm_run c (fst (mm_step c s op)) ops), snd (mm_step c s op) :: snd (mm_run c (fst (mm_step c s op)) ops)).
  Proof. cbn [mm_run]. destruct (mm_step c s op) as [s1 x]. cbn [fst snd]. destruct (mm_run c s1 ops) as [s2 xs]. reflexivity. Qed.
  Lemma mm_run_app c ops1 : forall s ops2, mm_run c s (ops1 ++ ops2) =
    (fst (mm_run c (fst (mm_run c s ops1)) ops2), snd (mm_run c s ops1) ++ snd (mm_run c (fst (mm_run c s ops1)) ops2)).
  Proof.
    induction ops1 as [|op ops1 IH]; intros s ops2.
    - cbn [app mm_run fst snd]. destruct (mm_run c s ops2); reflexivity.
    - cbn [app]. rewrite !mm_run_cons. cbn [fst snd]. rewrite IH. reflexivity.
  Qed.

  Lemma run_strides c ops : forall s, mm_strides (fst (mm_run c s ops)) = mm_strides s.
  Proof. induction ops as [|op ops IH]; intros s; [reflexivity|]. rewrite mm_run_cons. cbn [fst]. rewrite IH. apply step_strides. Qed.
  Lemma run_complete c ops : forall s, mm_complete (fst (mm_run c s ops)) = (existsb is_complete ops || mm_complete s)%bool.
  Proof.
    induction ops as [|op ops IH]; intros s; [reflexivity|]. rewrite mm_run_cons. cbn [fst existsb]. rewrite IH, step_complete.
    destruct (is_complete op), (existsb is_complete ops), (mm_complete s); reflexivity.
  Qed.

  (** an OInit whose numbers of options, parameters or strings are wrong changes the stored vectors only *)
  Definition harmless (c : MClass T) (op : Op T) : Prop :=
    match op with OInit o p st => ~ counts_ok c o p st | _ => True end.
  Lemma step_harmless c s op : harmless c op ->
    mm_ready (fst (mm_step c s op)) = mm_ready s /\ mm_rhv (fst (mm_step c s op)) = mm_rhv s /\
    mm_rho0 (fst (mm_step c s op)) = mm_rho0 s.
  Proof.
    intros H. destruct (is_init op) eqn:E.
    - destruct op; try discriminate E. cbn [mm_step harmless] in *. rewrite init_wrong_counts by assumption.
      cbn [fst]. repeat split; reflexivity.
    - destruct (step_keeps c s op E) as (A & _ & B & C). auto.
  Qed.
  Lemma run_harmless c ops : forall s, Forall (harmless c) ops ->
    mm_ready (fst (mm_run c s ops)) = mm_ready s /\ mm_rhv (fst (mm_run c s ops)) = mm_rhv s /\
    mm_rho0 (fst (mm_run c s ops)) = mm_rho0 s.
  Proof.
    induction ops as [|op ops IH]; intros s H; [auto|]. inversion H; subst.
    rewrite mm_run_cons. cbn [fst]. destruct (IH (fst (mm_step c s op)) H3) as (A & B & C).
    destruct (step_harmless c s op H2) as (A' & B' & C'). rewrite A, B, C. auto.
  Qed.
  Lemma run_noinit c ops : forall s, Forall (fun op => is_init op = false) ops ->
    mm_getParams (fst (mm_run c s ops)) = mm_getParams s.
  Proof.
    induction ops as [|op ops IH]; intros s H; [auto|]. inversion H; subst.
    rewrite mm_run_cons. cbn [fst]. rewrite IH by assumption. now apply step_keeps.
  Qed.

  (** ** What can be in the parts of a reachable object *)
  Definition comp_inv (c : MClass T) (s : MM T) : Prop :=
    (forall sg, mm_sg s = Some sg -> exists p, c_sgSet c p = Some sg) /\
    (forall k, mm_kin s = Some k -> exists p h, c_kinSet c p = Some (k, h)) /\
    (forall e, mm_el s = Some e -> exists p, e = c_elSet c p) /\
    (forall e, mm_eos s = Some e -> exists el bulk rho cv tl, el_getBulkMod el = Some bulk /\ List.length tl = 2 /\
       e = eos_setParams (c_iso c) ([rho; bulk; cv] ++ tl)).
  Lemma comp_new c st : comp_inv c (mm_base st).
  Proof. refine (conj _ (conj _ (conj _ _))); intros ? H; discriminate H. Qed.
  Lemma comp_step c s op : comp_inv c s -> comp_inv c (fst (mm_step c s op)).
  Proof.
    intros I. destruct op; cbn [mm_step]; try exact I.
    - unfold mm_init. cbv zeta.
      destruct (negb (Nat.eqb (List.length pars) (mm_nParams c))) eqn:EN; [exact I|].
      destruct (negb (Nat.eqb (List.length opts) 0)); [exact I|].
      destruct (Nat.ltb 1 (List.length strs)); [exact I|].
      destruct I as (I1 & I2 & I3 & I4).
      destruct (c_sgSet c _) as [sg|] eqn:ES; [|exact (conj I1 (conj I2 (conj I3 I4)))].
      destruct (c_kinSet c _) as [[kin kh]|] eqn:EK.
      + destruct el_getBulkMod as [bulk|] eqn:EB.
        * unfold eos_getInfo. cbv beta iota zeta.
          assert (L2 : List.length (sub pars (3 + c_sgNP c + c_elNP c + c_kinNP c) (eos_nParams - 3)) = 2).
          { apply negb_false_iff, Nat.eqb_eq in EN. apply sub_length. rewrite EN. unfold mm_nParams, eos_nParams. lia. }
          destruct (negb (Nat.eqb (List.length (mm_histInfo c kh)) (mm_numHist c))); cbn [fst]; refine (conj _ (conj _ (conj _ _))); cbn [with_parts mm_sg mm_kin mm_el mm_eos];
            intros x Hx; injection Hx as <-; eauto; do 5 eexists; (split; [exact EB|]); (split; [exact L2|]); reflexivity.
        * cbn [fst]. refine (conj _ (conj _ (conj _ _))); cbn [with_parts mm_sg mm_kin mm_el mm_eos]; try assumption;
            intros x Hx; try (injection Hx as <-); eauto.
      + cbn [fst]. refine (conj _ (conj _ (conj _ _))); cbn [with_parts mm_sg mm_kin mm_el mm_eos]; try assumption;
          intros x Hx; try (injection Hx as <-); eauto.
    - destruct mm_getResponse; exact I.
  Qed.
  Lemma comp_run c ops : forall s, comp_inv c s -> comp_inv c (fst (mm_run c s ops)).
  Proof. induction ops as [|op ops IH]; intros s I; [exact I|]. rewrite mm_run_cons. cbn [fst]. apply IH. now apply comp_step. Qed.

  (** objects a caller can have: default or strided construction followed by any calls *)
  Inductive reachable (c : MClass T) : MM T -> Prop :=
  | reach_default ops : reachable c (fst (mm_run c (mm_new c) ops))
  | reach_strides st len s0 ops : mm_newStrides c st len = Some s0 -> reachable c (fst (mm_run c s0 ops)).

  Lemma newStrides_spec c st len s0 : mm_newStrides c st len = Some s0 -> s0 = mm_base (firstn 8 st) /\ len = 8.
  Proof.
    unfold mm_newStrides. destruct (negb (Nat.eqb len 8)) eqn:E; [discriminate|].
    apply negb_false_iff, Nat.eqb_eq in E. subst len.
    repeat match goal with |- context [Nat.ltb ?a ?b] => destruct (Nat.ltb a b); [discriminate|] end.
    intros H. injection H as <-. auto.
  Qed.
  Lemma newStrides_iff c st : List.length st = 8 -> forall len,
    (exists s0, mm_newStrides c st len = Some s0) <->
    len = 8 /\ Forall2 le [7; 3; 4; 1; 7; mm_numHist c; 1; 2] st.
  Proof.
    intros L len. do 8 (destruct st as [|? st]; [discriminate L|]). destruct st; [|discriminate L].
    unfold mm_newStrides, gstride, st_def_rate, st_spin, st_vol_ratio, st_int_eng, st_stress, st_history, st_tkelv, st_sdd.
    cbn [nth].
    split.
    - intros [s0 H]. destruct (Nat.eqb_spec len 8) as [->|]; cbn [negb] in H; [|discriminate].
      split; [reflexivity|].
      repeat match goal with H : (if Nat.ltb ?a ?b then _ else _) = _ |- _ => destruct (Nat.ltb_spec a b); [discriminate|] end.
      repeat constructor; assumption.
    - intros [-> H]. repeat match goal with H : Forall2 _ (_ :: _) _ |- _ => inversion H; clear H; subst end.
      cbn [Nat.eqb negb].
      repeat match goal with |- context [Nat.ltb ?a ?b] => destruct (Nat.ltb_spec a b); [lia|] end.
      eexists; reflexivity.
  Qed.

  Lemma reach_inv c s : reachable c s -> comp_inv c s /\
    (mm_strides s = [7; 3; 4; 1; 7; mm_numHist c; 1; 2] \/ exists st s0, mm_newStrides c st 8 = Some s0 /\ mm_strides s = firstn 8 st).
  Proof.
    intros [ops | st len s0 ops H].
    - split; [apply comp_run, comp_new|]. left. now rewrite run_strides.
    - destruct (newStrides_spec _ _ _ _ H) as [-> ->]. split; [apply comp_run, comp_new|].
      right. exists st. eexists. split; [exact H|]. now rewrite run_strides.
  Qed.
End A.
Arguments Parts T : clear implicits.
