(** Which calls of the API object later calls can notice: lemmas for C62, and the refusals of the developer interface. *)
From Coq Require Import List ZArith Bool Lia PeanoNat String Reals.
From Verif Require Import Num Arr NumR Util SlipGeom Eos Hard KinVoce KinKMBalD Elast Evptn MatModel Cases Py P_Api SpecQuiet P_Demo SpecPy P_Py P_Py2 P_Py3.
Import ListNotations.
Local Open Scope nat_scope.

Section Q.
  Context {T : Type} {N : Num T}.

  Lemma out_init c (s : MM T) l o p st : mm_init c (mm_setOut s l) o p st = (fst (mm_init c s o p st), mm_setOut (snd (mm_init c s o p st)) l).
  Proof.
    unfold mm_init. cbv zeta.
    repeat match goal with |- context [if ?b then _ else _] => destruct b; try reflexivity end.
    destruct (c_sgSet c _); [|reflexivity]. destruct (c_kinSet c _) as [[? ?]|]; [|reflexivity].
    destruct el_getBulkMod; [|reflexivity]. unfold eos_getInfo. cbv beta iota zeta. destruct negb; reflexivity.
  Qed.
  Lemma out_out (s : MM T) l l' : mm_setOut (mm_setOut s l) l' = mm_setOut s l'.
  Proof. reflexivity. Qed.
  Lemma out_step c (s : MM T) l op : snd (mm_step c (mm_setOut s l) op) = snd (mm_step c s op).
  Proof.
    destruct op; cbn [mm_step]; try reflexivity.
    - rewrite out_init. destruct mm_init. reflexivity.
    - change (mm_getResponse solver lu c (mm_setOut s l) dt mtan n m) with (mm_getResponse solver lu c s dt mtan n m).
      destruct mm_getResponse. reflexivity.
  Qed.
  Lemma step_shape c (s : MM T) l op : exists l', fst (mm_step c (mm_setOut s l) op) =
    mm_setOut (if shapes op then fst (mm_step c s op) else s) l'.
  Proof.
    destruct op; cbn [mm_step shapes]; try (exists l; reflexivity).
    - exists l. rewrite out_init. destruct mm_init. reflexivity.
    - exists l0. reflexivity.
    - exists l. destruct mm_getResponse. reflexivity.
  Qed.
  Lemma run_shape c ops : forall (s : MM T) l, exists l', fst (mm_run c (mm_setOut s l) ops) = mm_setOut (fst (mm_run c s (filter shapes ops))) l'.
  Proof.
    induction ops as [|op ops IH]; intros s l; [exists l; reflexivity|].
    rewrite mm_run_cons. cbn [fst filter]. destruct (step_shape c s l op) as [l1 E]. rewrite E.
    destruct (shapes op); [rewrite mm_run_cons; cbn [fst]|]; apply IH.
  Qed.
  Lemma out_self (s : MM T) : mm_setOut s (mm_out s) = s.
  Proof. destruct s. reflexivity. Qed.
  Lemma run_notice c (s : MM T) ops op : snd (mm_step c (fst (mm_run c s ops)) op) = snd (mm_step c (fst (mm_run c s (filter shapes ops))) op).
  Proof.
    rewrite <- (out_self s) at 1. destruct (run_shape c ops s (mm_out s)) as [l' E]. rewrite E. apply out_step.
  Qed.
  Lemma tasks_notice c (s : MM T) ops sv lu dt mt n :
    mm_tasks sv lu c (fst (mm_run c s ops)) dt mt n = mm_tasks sv lu c (fst (mm_run c s (filter shapes ops))) dt mt n.
  Proof.
    rewrite <- (out_self s) at 1. destruct (run_shape c ops s (mm_out s)) as [l' E]. rewrite E. reflexivity.
  Qed.
  (** a whole program: the answers to the calls of any kind that are kept do not depend on those that are dropped *)
  Lemma run_answers c (keep : Op T -> bool) : (forall op, shapes op = true -> keep op = true) -> forall ops (s : MM T),
    map snd (filter (fun x => keep (fst x)) (combine ops (snd (mm_run c s ops)))) = snd (mm_run c s (filter keep ops)).
  Proof.
    intros K ops s. rewrite <- (out_self s) at 1. generalize (mm_out s) as l. revert s.
    induction ops as [|op ops IH]; intros s l; [reflexivity|].
    rewrite mm_run_cons. cbn [snd combine filter fst]. destruct (step_shape c s l op) as [l1 E]. rewrite E, out_step.
    destruct (keep op) eqn:Ek.
    - cbn [map snd]. rewrite mm_run_cons. cbn [snd]. f_equal. rewrite IH.
      destruct (shapes op) eqn:Es; [reflexivity|].
      assert (X : exists l2, fst (mm_step c s op) = mm_setOut s l2).
      { destruct (step_shape c s (mm_out s) op) as [l2 E2]. rewrite out_self, Es in E2. eauto. }
      destruct X as [l2 ->]. clear - K.
      enough (H : forall os (t : MM T) a, snd (mm_run c (mm_setOut t a) os) = snd (mm_run c t os)) by (symmetry; apply H).
      induction os as [|o os IH]; intros t a; [reflexivity|]. rewrite !mm_run_cons. cbn [snd]. rewrite out_step. f_equal.
      destruct (step_shape c t a o) as [b E]. rewrite E.
      destruct (step_shape c t (mm_out t) o) as [d E']. rewrite out_self in E'.
      set (u := if shapes o then fst (mm_step c t o) else t) in *. clearbody u. rewrite E'. now rewrite !IH.
    - destruct (shapes op) eqn:Es; [specialize (K op Es); congruence|]. apply IH.
  Qed.
  Lemma setters c (s : MM T) ops op : op = OComplete \/ (exists a, op = OSetExec a) \/ (exists l, op = OSetOut l) ->
    snd (mm_step c (fst (mm_run c s ops)) op) = ROut Done.
  Proof. intros [->|[[a ->]|[l ->]]]; reflexivity. Qed.
End Q.

Local Open Scope R_scope.
(** ** The developer interface *)
Lemma dev_step_setup (v v' : Dev R) dt d w vr e s h : dev_step v (DSetup dt d w vr e s h) = Some v' ->
  forall v0 : Dev R, dv_mat v0 = dv_mat v -> dv_in v' = dv_in (snd (dev_setup v0 dt d w vr e s h)).
Proof.
  cbn [dev_step]. intros H v0 E. apply some_inj in H. subst v'. unfold dev_setup. rewrite E. cbv zeta.
  destruct k_updateH as [[hu ?]|]; [|reflexivity]. destruct negb; reflexivity.
Qed.
Lemma dev_run_app ops : forall (v : Dev R) ops', dev_run v (ops ++ ops') = match dev_run v ops with None => None | Some v' => dev_run v' ops' end.
Proof. induction ops as [|op r IH]; intros v ops'; [reflexivity|]. cbn [app dev_run]. destruct dev_step; [apply IH|reflexivity]. Qed.
Lemma dev_forgets (v v' : Dev R) ops dt d w vr e s h : dev_run v (ops ++ [DSetup dt d w vr e s h]) = Some v' ->
  dv_in v' = dv_in (snd (dev_setup v dt d w vr e s h)).
Proof.
  rewrite dev_run_app. destruct (dev_run v ops) as [v1|] eqn:E; [|discriminate]. cbn [dev_run].
  destruct (dev_step v1 _) as [v2|] eqn:E2; [|discriminate]. intros H. apply some_inj in H. subst v2.
  apply (dev_step_setup _ _ _ _ _ _ _ _ _ E2). symmetry. exact (proj1 (dev_run_mat _ _ _ E)).
Qed.
(** refusals: a rank other than 1, an unknown name or a wrong number of parameters raises an exception *)
Lemma dev_new_rejects hs name a j1 j2 j3 : (forall n, py_shape a = [n] -> (py_off a + Z.to_nat n <= List.length (py_base a))%nat) ->
  (forall c np nh, In (name, c, np, nh) (py_table hs) -> py_shape a <> [Z.of_nat (dev_nParams c)]) ->
  dev_new hs name a j1 j2 j3 = PFail Failed.
Proof.
  intros HV HT. unfold dev_new, py_params. destruct (py_shape a) as [|s0 [|]] eqn:ES; try reflexivity.
  specialize (HV s0 eq_refl).
  destruct (Nat.ltb_spec (List.length (py_ptr a)) (Z.to_nat s0)) as [H|H].
  { unfold py_ptr in H. rewrite skipn_length in H. lia. }
  destruct (py_model hs name) as [[c s]|] eqn:EM; [|reflexivity].
  apply py_model_iff in EM. destruct EM as [-> (np & nh & Hin)]. specialize (HT _ _ _ Hin).
  unfold dev_make. rewrite firstn_length_le by exact H.
  destruct (Nat.eqb_spec (Z.to_nat s0) (dev_nParams c)) as [E|E]; [|reflexivity].
  exfalso. apply HT. f_equal. rewrite <- E. assert (3 <= dev_nParams c)%nat by (unfold dev_nParams; lia). lia.
Qed.
Lemma dev_counts hs name c np nh : In (name, c, np, nh) (py_table hs) ->
  dev_nParams c = if String.eqb name "km_bal_dd_hcp_norm" then 96%nat else np.
Proof.
  intros Hin. cbn in Hin.
  repeat (destruct Hin as [Hin|Hin]; [injection Hin; intros; subst; reflexivity|]). contradiction.
Qed.
Lemma dev_new_refuses hs name a j1 j2 j3 : (forall n, py_shape a = [n] -> (py_off a + Z.to_nat n <= List.length (py_base a))%nat) ->
  (forall c np nh, In (name, c, np, nh) (py_table hs) ->
    py_shape a <> [Z.of_nat (if String.eqb name "km_bal_dd_hcp_norm" then 96 else np)]) ->
  dev_new hs name a j1 j2 j3 = PFail Failed.
Proof.
  intros HV HT. apply dev_new_rejects; [exact HV|]. intros c np nh Hin. rewrite (dev_counts _ _ _ _ _ Hin). exact (HT _ _ _ Hin).
Qed.
