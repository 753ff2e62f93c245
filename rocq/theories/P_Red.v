(** The nonlinear Voce model with exponent one is the linear one: proof of C68. *)
From Coq Require Import List ZArith Bool Lia Reals Lra FunctionalExtensionality String.
From Verif Require Import Num NumR Arr Util SlipGeom Eos Hard KinVoce Elast Evptn MatModel Cases SpecRed.
Import ListNotations.
Local Open Scope R_scope.

Lemma Rpow_0_r x : Rpow x 0 = 1.
Proof. unfold Rpow. destruct (Rlt_dec 0 x) as [H|H]; [apply Rpower_O; exact H|]. destruct (Req_EM_T 0 0); [reflexivity|contradiction]. Qed.

Lemma sdot_one a0 a1 a2 a3 a4 a5 a6 a7 a8 ev h :
  voce_getSdot1 (voce_setParams true [a0; a1; a2; a3; a4; a5; 1; a6; a7; a8]) ev h = voce_getSdot1 (voce_setParams false [a0; a1; a2; a3; a4; a5; a6; a7; a8]) ev h.
Proof.
  destruct ev as [shr sat]. unfold voce_getSdot1, voce_setParams. cbn [v_nonlinear v_tausi v_h0 v_xmprime v_xmprime1 get nth].
  rops. replace (1 - 1) with 0 by ring. rewrite Rpow_0_r. f_equal; ring.
Qed.
Lemma kin_one hs n a0 a1 a2 a3 a4 a5 a6 a7 a8 :
  kinVoce hs true n [a0; a1; a2; a3; a4; a5; 1; a6; a7; a8] = kinVoce hs false n [a0; a1; a2; a3; a4; a5; a6; a7; a8].
Proof.
  unfold kinVoce. f_equal. f_equal. unfold voce_kinetics. f_equal.
  apply functional_extensionality; intros h. apply functional_extensionality; intros dt. apply functional_extensionality; intros g.
  unfold voce_updateH. 
  replace (voce_getSdot1 (voce_setParams true [a0; a1; a2; a3; a4; a5; 1; a6; a7; a8]) (voce_getEvolVals (voce_setParams true [a0; a1; a2; a3; a4; a5; 1; a6; a7; a8]) n g))
    with (voce_getSdot1 (voce_setParams false [a0; a1; a2; a3; a4; a5; a6; a7; a8]) (voce_getEvolVals (voce_setParams false [a0; a1; a2; a3; a4; a5; a6; a7; a8]) n g)); [reflexivity|].
  apply functional_extensionality. intros x. symmetry. apply sdot_one.
Qed.

(** one class is the other one with the exponent as additional parameter *)
Section Pair.
  Variables (hs : Solver R) (c c' : MClass R).
  Hypothesis HC : c = cls_FCC_A hs /\ c' = cls_FCC_AH hs \/ c = cls_BCC_B hs /\ c' = cls_BCC_BH hs.

  Definition setp (s : MM R) (p : list R) : MM R := 
    {| mm_complete := mm_complete s; mm_rho0 := mm_rho0 s; mm_cvav := mm_cvav s; mm_v0 := mm_v0 s; mm_e0 := mm_e0 s;
       mm_bulkRef := mm_bulkRef s; mm_out := mm_out s; mm_accel := mm_accel s;
       mm_sg := mm_sg s; mm_kin := mm_kin s; mm_el := mm_el s; mm_eos := mm_eos s; mm_tol := mm_tol s;
       mm_strides := mm_strides s; mm_rhv := mm_rhv s; mm_opts := mm_opts s; mm_pars := p; mm_strs := mm_strs s |}.
  Definition okp (p p' : list R) : Prop := p' = with_one p \/ p = [] /\ p' = [].
  Lemma setp_eta s : setp s (mm_pars s) = s.
  Proof. destruct s; reflexivity. Qed.

  Lemma len_one p : List.length (with_one p) = S (List.length p).
  Proof. unfold with_one. rewrite app_length. cbn [List.length]. rewrite <- (firstn_skipn 12 p) at 3. rewrite app_length. lia. Qed.

  Lemma list17 (p : list R) : List.length p = 17%nat -> exists a0 a1 a2 a3 a4 a5 a6 a7 a8 a9 a10 a11 a12 a13 a14 a15 a16,
    p = [a0; a1; a2; a3; a4; a5; a6; a7; a8; a9; a10; a11; a12; a13; a14; a15; a16].
  Proof.
    intros H. do 17 (destruct p as [|? p]; [discriminate H|]). destruct p as [|? p]; [|discriminate H]. do 17 eexists. reflexivity.
  Qed.

  Lemma init_one s q o p st : mm_init c' (setp s q) o (with_one p) st = (fst (mm_init c s o p st), setp (snd (mm_init c s o p st)) (with_one p)).
  Proof.
    unfold mm_init.
    assert (NP : mm_nParams c = 17%nat /\ mm_nParams c' = 18%nat) by (destruct HC as [[-> ->]|[-> ->]]; split; reflexivity).
    destruct NP as [-> ->]. rewrite len_one. cbn [Nat.eqb]. destruct (negb (Nat.eqb (List.length p) 17)) eqn:EL; [reflexivity|].
    destruct (negb (Nat.eqb (List.length o) 0)); [reflexivity|]. destruct (Nat.ltb 1 (List.length st)); [reflexivity|].
    apply negb_false_iff, Nat.eqb_eq in EL. destruct (list17 p EL) as (a0 & a1 & a2 & a3 & a4 & a5 & a6 & a7 & a8 & a9 & a10 & a11 & a12 & a13 & a14 & a15 & a16 & ->).
    unfold with_one. cbn [firstn skipn app].
    assert (KS : forall l, c_sgSet c' l = c_sgSet c l) by (destruct HC as [[-> ->]|[-> ->]]; reflexivity).
    assert (KE : forall l, c_elSet c' l = c_elSet c l) by (destruct HC as [[-> ->]|[-> ->]]; reflexivity).
    assert (KI : c_iso c' = c_iso c) by (destruct HC as [[-> ->]|[-> ->]]; reflexivity).
    assert (KH : forall k, mm_histInfo c' k = mm_histInfo c k) by (destruct HC as [[-> ->]|[-> ->]]; reflexivity).
    assert (KN : mm_numHist c' = mm_numHist c) by (destruct HC as [[-> ->]|[-> ->]]; reflexivity).
    assert (S1 : c_sgNP c = 0%nat /\ c_sgNP c' = 0%nat /\ c_elNP c = 3%nat /\ c_elNP c' = 3%nat /\ c_kinNP c = 9%nat /\ c_kinNP c' = 10%nat) by (destruct HC as [[-> ->]|[-> ->]]; repeat split; reflexivity).
    destruct S1 as (-> & -> & -> & -> & -> & ->). cbn [Nat.add]. rewrite KI, KE, KN.
    match goal with |- context [c_kinSet c' ?l] => set (lk' := l) end.
    match goal with |- context [c_kinSet c ?l] => set (lk := l) end.
    assert (KK : c_kinSet c' lk' = c_kinSet c lk).
    { destruct HC as [[-> ->]|[-> ->]]; exact (kin_one hs 12 a6 a7 a8 a9 a10 a11 a12 a13 a14). }
    rewrite KK, KS.
    change (sub [a0; a1; a2; a3; a4; a5; a6; a7; a8; a9; a10; a11; 1; a12; a13; a14; a15; a16] 3 0) with (sub [a0; a1; a2; a3; a4; a5; a6; a7; a8; a9; a10; a11; a12; a13; a14; a15; a16] 3 0).
    change (sub [a0; a1; a2; a3; a4; a5; a6; a7; a8; a9; a10; a11; 1; a12; a13; a14; a15; a16] 3 3) with (sub [a0; a1; a2; a3; a4; a5; a6; a7; a8; a9; a10; a11; a12; a13; a14; a15; a16] 3 3).
    change (sub [a0; a1; a2; a3; a4; a5; a6; a7; a8; a9; a10; a11; 1; a12; a13; a14; a15; a16] 16 (eos_nParams - 3)) with (sub [a0; a1; a2; a3; a4; a5; a6; a7; a8; a9; a10; a11; a12; a13; a14; a15; a16] 15 (eos_nParams - 3)).
    destruct (c_sgSet c _) as [sg|]; [|reflexivity].
    destruct (c_kinSet c lk) as [[kin kinH]|]; [|reflexivity].
    destruct (el_getBulkMod _) as [bulk|]; [|reflexivity]. rewrite KH.
    destruct eos_getInfo as [[[x1 x2] e0] v0]. destruct (negb _); reflexivity.
  Qed.

  Lemma ready_setp s q : mm_ready (setp s q) = mm_ready s.
  Proof. reflexivity. Qed.
  Lemma step_one s q op : okp (mm_pars s) q ->
    exists q', okp (mm_pars (fst (mm_step c s op))) q' /\ fst (mm_step c' (setp s q) (op_with_one op)) = setp (fst (mm_step c s op)) q' /\
      same_answer (snd (mm_step c s op)) (snd (mm_step c' (setp s q) (op_with_one op))).
  Proof.
    intros Hq. 
    assert (KN : mm_numHist c' = mm_numHist c) by (destruct HC as [[-> ->]|[-> ->]]; reflexivity).
    assert (KH : c_nH c' = c_nH c /\ c_nslip c' = c_nslip c) by (destruct HC as [[-> ->]|[-> ->]]; split; reflexivity).
    destruct op; cbn [op_with_one mm_step].
    - rewrite init_one. exists (with_one pars). destruct (mm_init c s opts pars strs) as [r s1] eqn:E. cbn [fst snd].
      refine (conj _ (conj eq_refl eq_refl)). left. f_equal.
      assert (X : mm_pars s1 = pars).
      { clear - E. unfold mm_init in E. 
        assert (Y : forall a b : outcome * MM R, a = b -> mm_pars (snd a) = mm_pars (snd b)) by (intros a b ->; reflexivity). apply Y in E. cbn [snd] in E. rewrite <- E. clear E Y.
        destruct (negb _); [reflexivity|]. destruct (negb _); [reflexivity|]. destruct (Nat.ltb _ _); [reflexivity|].
        destruct (c_sgSet c _); [|reflexivity]. destruct (c_kinSet c _) as [[kin kinH]|]; [|reflexivity].
        destruct (el_getBulkMod _); [|reflexivity]. destruct eos_getInfo as [[[? ?] ?] ?]. destruct (negb _); reflexivity. }
      now rewrite X.
    - exists q. refine (conj Hq (conj eq_refl _)). cbn [snd same_answer mm_getParams setp mm_opts mm_pars mm_strs]. exact (conj eq_refl (conj eq_refl Hq)).
    - exists q. refine (conj Hq (conj eq_refl _)). unfold mm_getHistInfo. cbn [setp mm_rhv]. rewrite KN. destruct (Nat.eqb _ _); reflexivity.
    - exists q. refine (conj Hq (conj eq_refl _)). cbn [snd same_answer]. unfold mm_getNumHist. now rewrite KN.
    - exists q. refine (conj Hq (conj eq_refl _)). unfold mm_getRhoRef. cbn [setp mm_rho0 snd]. destruct (_ <? _)%num; reflexivity.
    - exists q. refine (conj Hq (conj eq_refl _)). reflexivity.
    - exists q. refine (conj Hq (conj eq_refl _)). cbn [snd same_answer mm_getParams setp mm_opts mm_pars mm_strs]. exact (conj eq_refl (conj eq_refl Hq)).
    - exists q. exact (conj Hq (conj eq_refl eq_refl)).
    - exists q. exact (conj Hq (conj eq_refl eq_refl)).
    - exists q. exact (conj Hq (conj eq_refl eq_refl)).
    - exists q. assert (X : mm_getResponse solver lu c' (setp s q) dt mtan n m = mm_getResponse solver lu c s dt mtan n m).
      { unfold mm_getResponse. rewrite ready_setp. destruct KH as [-> ->]. reflexivity. }
      rewrite X. destruct (mm_getResponse solver lu c s dt mtan n m) as [bo m']. exact (conj Hq (conj eq_refl eq_refl)).
  Qed.
  Lemma run_one ops : forall s q, okp (mm_pars s) q -> Forall2 same_answer (snd (mm_run c s ops)) (snd (mm_run c' (setp s q) (map op_with_one ops))) /\
    exists q', fst (mm_run c' (setp s q) (map op_with_one ops)) = setp (fst (mm_run c s ops)) q'.
  Proof.
    induction ops as [|op ops IH]; intros s q Hq; [split; [constructor|exists q; reflexivity]|].
    destruct (step_one s q op Hq) as (q' & H1 & H2 & H3). cbn [map mm_run].
    destruct (mm_step c s op) as [s1 x]. destruct (mm_step c' (setp s q) (op_with_one op)) as [s1' x']. cbn [fst snd] in *. subst s1'.
    specialize (IH s1 q' H1). destruct (mm_run c s1 ops) as [s2 xs]. destruct (mm_run c' (setp s1 q') (map op_with_one ops)) as [s2' xs'].
    destruct IH as [I1 I2]. split; [constructor; assumption|exact I2].
  Qed.
  Lemma tasks_one s q sv lu dt mt n : mm_tasks sv lu c' (setp s q) dt mt n = mm_tasks sv lu c s dt mt n.
  Proof.
    assert (KH : c_nH c' = c_nH c /\ c_nslip c' = c_nslip c) by (destruct HC as [[-> ->]|[-> ->]]; split; reflexivity).
    unfold mm_tasks. rewrite ready_setp. destruct KH as [-> ->]. reflexivity.
  Qed.
  Lemma fresh_one s : mm_pars s = [] -> same_program c c' s (setp s []).
  Proof.
    intros E ops. destruct (run_one ops s [] (or_intror (conj E eq_refl))) as [A [q' B]]. split; [exact A|].
    intros. rewrite B. apply tasks_one.
  Qed.
  Lemma new_one : same_program c c' (mm_new c) (mm_new c').
  Proof.
    assert (E : mm_new c' = setp (mm_new c) []) by (destruct HC as [[-> ->]|[-> ->]]; reflexivity).
    rewrite E. apply fresh_one. reflexivity.
  Qed.
  Lemma strided_one strides len : match mm_newStrides c strides len, mm_newStrides c' strides len with
    | Some s, Some s' => same_program c c' s s'
    | None, None => True
    | _, _ => False
    end.
  Proof.
    assert (E : mm_newStrides c' strides len = mm_newStrides c strides len) by (destruct HC as [[-> ->]|[-> ->]]; reflexivity).
    rewrite E. unfold mm_newStrides.
    destruct (negb _); [exact I|]; repeat (destruct (Nat.ltb _ _); [exact I|]). exact (fresh_one (mm_base (firstn len strides)) eq_refl).
  Qed.
End Pair.
