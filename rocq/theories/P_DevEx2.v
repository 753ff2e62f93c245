(** The loop of the developer example with any root finder, and demonstration calls. *)
From Coq Require Import List ZArith Bool Lia PeanoNat Reals Lra String.
From Verif Require Import Num Arr NumR Util SlipGeom Eos Hard KinVoce KinKMBalD Elast Evptn MatModel Cases Py PyBind PyExampleDev SpecTensor
  P_Tensor P_Api P_Builtin SpecApi SpecBatch SpecObj P_Demo P_Demo3 SpecPy P_Py P_Py2 P_Py3 P_Demo9 SpecDevEx P_DevEx.
Import ListNotations.
Local Open Scope R_scope.

Lemma getState_gmod (v2 v3 : Dev R) x pt q : dev_getState v2 x pt = Some (Done, v3, q) -> exists g, el_getGmod (m_el (dv_mat v2)) = Some g.
Proof.
  unfold dev_getState. destruct (dv_in v2) as [i|]; [|discriminate]. destruct (di_last i) as [ev|]; [|discriminate].
  cbv zeta. destruct stateFromX as [e u]. destruct el_getGmod as [g|]; [now exists g|]. intros H.
  apply (f_equal (option_map (fun t => fst (fst t)))) in H. discriminate H.
Qed.

Section U.
  Variables (hs : Solver R) (c : MClass R) (b : BCall) (pars : list R) (j1 j2 j3 : R) (v0 : Dev R) (root : Root R) (tol : R).
  Hypothesis G : good hs c b.
  Hypothesis HT : b_mtan b = false.
  Hypothesis U : in_use c (b_s b) pars.
  Hypothesis D : dev_make c pars j1 j2 j3 = POk v0.
  Hypothesis NE : forall f t x, ro_evals (root f t x) <> [].

  Lemma any_pass i v ops : (i < b_n b)%nat -> dev_run v0 ops = Some v -> exists v3 r1 ops',
    devex_point root v (b_dt b) tol (devex_sdd (point c (b_s b) false (b_m b) i)) = Some (Done, v3, r1) /\ dev_run v ops' = Some v3.
  Proof.
    intros Hi Rn. destruct (dev_callb hs c b i pars j1 j2 j3 v0 v ops G HT Hi U D Rn) as (v1 & E1 & E2 & E3). cbv zeta in *.
    set (r := b_solver b 8%nat (dev_rj v1) (nth 2 pars 0) 200%nat (repeat 0 8)) in *. clearbody r.
    destruct (setup_in _ _ _ _ _ _ _ _ _ E1) as ((ii & II) & _ & _).
    destruct (evals_some [so_xlast r] v1 ii II) as [v2 EV].
    destruct (E3 [so_xlast r] v2 [0; 0] ltac:(discriminate) eq_refl EV eq_refl) as (v3 & q & F0 & _). clear E3.
    destruct (getState_gmod _ _ _ _ _ F0) as [g EG].
    destruct (evals_last [so_xlast r] v1 v2 ii II ltac:(discriminate) EV) as (M1 & _). rewrite M1 in EG.
    set (P := point c (b_s b) false (b_m b) i) in *.
    set (sol := root (devex_rj v1) tol (repeat (nZ 0) 8)).
    assert (NX : ro_evals sol <> []) by apply NE.
    destruct (evals_some (ro_evals sol) v1 ii II) as [v2' EV'].
    destruct (evals_last (ro_evals sol) v1 v2' ii II NX EV') as (M2 & _ & _ & _ & IN). rewrite <- M2 in EG.
    destruct (getState_some v2' (ro_x sol) {| pt_eInt := P AE; pt_stress := P AS; pt_hist := P AH; pt_tkelv := get (P AT) 0; pt_sdd := repeat (nZ 0) 2; pt_mtan := None |} _ _ g IN eq_refl EG) as (w3 & qq & FF).
    unfold devex_point. cbn [devex_sdd]. rewrite E1. cbv zeta. fold sol. unfold dev_evals in EV'. rewrite EV'. unfold bound_getState. rewrite FF.
    eexists. eexists. exists ([DSetup (b_dt b) (P AD) (P AW) (P AV) (P AE) (P AS) (P AH)] ++ map DRJ (ro_evals sol) ++ [DState (ro_x sol) {| pt_eInt := P AE; pt_stress := P AS; pt_hist := P AH; pt_tkelv := get (P AT) 0; pt_sdd := repeat (nZ 0) 2; pt_mtan := None |}]).
    split; [reflexivity|].
    apply (dev_run_app (v1 := v1)); [cbn [dev_run dev_step]; now rewrite E1|]. apply (dev_run_app (v1 := v2')); [exact EV'|].
    cbn [dev_run dev_step]. rewrite FF. reflexivity.
  Qed.
  Lemma any_loop len : forall a v ops, (a + len <= b_n b)%nat -> dev_run v0 ops = Some v -> exists v' rs,
    devex_loop root v (b_dt b) tol (map (fun i => devex_sdd (point c (b_s b) false (b_m b) i)) (seq a len)) = Some (Done, v', rs) /\ List.length rs = len.
  Proof.
    induction len as [|len IH]; intros a v ops Hn HR; [now exists v, []|].
    destruct (any_pass a v ops ltac:(lia) HR) as (v3 & r1 & ops' & H1 & H2).
    destruct (IH (S a) v3 _ ltac:(lia) (dev_run_app _ _ HR H2)) as (v' & rs & L1 & L2).
    exists v', (r1 :: rs). cbn [seq map devex_loop]. rewrite H1, L1. split; [reflexivity|]. cbn; now rewrite L2.
  Qed.
  Lemma any_all v ops : dev_run v0 ops = Some v -> exists v' rs, devex_solve root v (b_dt b) tol (rows_of c b) = Some (Done, v', rs) /\ List.length rs = b_n b.
  Proof. intros HR. unfold devex_solve, rows_of. rewrite map_map. exact (any_loop (b_n b) 0 v ops ltac:(lia) HR). Qed.

  (** the library on the same points, with a solver that does not converge *)
  Lemma lib_throws solver lu : (forall n f t it x, so_converged (solver n f t it x) = false) -> (0 < b_n b)%nat ->
    fst (mm_getResponse solver lu c (b_s b) (b_dt b) false (Z.of_nat (b_n b)) (b_m b)) <> BRet Done.
  Proof.
    intros NC Hn H. destruct G as (B & HR & HO & _).
    destruct (mm_getResponse solver lu c (b_s b) (b_dt b) false (Z.of_nat (b_n b)) (b_m b)) as [o m'] eqn:E. cbn [fst] in H. subst o.
    set (b' := {| b_s := b_s b; b_solver := solver; b_lu := lu; b_dt := b_dt b; b_mtan := false; b_n := b_n b; b_m := b_m b; b_m1 := m' |}).
    assert (G' : good hs c b') by (refine (conj B (conj HR (conj _ E))); rewrite HT in HO; exact HO).
    destruct (dev_callb hs c b' 0 pars j1 j2 j3 v0 v0 [] G' eq_refl Hn U D eq_refl) as (v1 & _ & X & _). cbv zeta in X.
    cbn [b' b_solver] in X. rewrite NC in X. discriminate X.
  Qed.
End U.

(** ** Demonstration *)
(** stays at the initial guess and evaluates there; what [echo] does *)
Definition root_echo : Root R := fun _ _ x => {| ro_x := x; ro_evals := [x] |}.
Lemma root_echo_finds : finds_as echo root_echo.
Proof. intros f tol. cbv zeta. intros _. split; [reflexivity|]. split; [discriminate|reflexivity]. Qed.

Lemma devex_energy_wrong j1 j2 j3 v root : dev_make demo_c demo_pars j1 j2 j3 = POk v -> finds_as echo root ->
  exists m v' rs, good echo demo_c (call_at m) /\ devex_solve root v (/10) (nth 2 demo_pars 0) (rows_of demo_c (call_at m)) = Some (Done, v', rs) /\
    nth 0 (nth 0 rs (fun _ => []) AE) 0 <> eInt demo_s (b_m1 (call_at m)) 0.
Proof.
  intros EV FA. destruct (energy_wrong _ _ _ _ EV) as (m & xs & v1 & v2 & v3 & q & G & H & NE).
  destruct (dev_state echo demo_c (call_at m) 0 demo_pars j1 j2 j3 v v [] G eq_refl (le_S 1 1 (le_n 1)) demo_in_use EV eq_refl) as [_ RA].
  destruct (RA _ _ _ _ _ H) as (_ & _ & EA). rewrite EA in NE.
  destruct (devex_all echo demo_c (call_at m) demo_pars j1 j2 j3 v root G eq_refl demo_in_use EV FA v [] (fun _ => []) eq_refl) as (v' & rs & L1 & _ & L3).
  exists m, v', rs. split; [exact G|]. split; [exact L1|]. destruct (L3 0%nat (le_S 1 1 (le_n 1))) as (AE0 & _). rewrite AE0. exact NE.
Qed.
Lemma devex_temp_wrong j1 j2 j3 v root : dev_make demo_c demo_pars j1 j2 j3 = POk v -> finds_as echo root ->
  exists m v' rs, good echo demo_c (call_at m) /\ devex_solve root v (/10) (nth 2 demo_pars 0) (rows_of demo_c (call_at m)) = Some (Done, v', rs) /\
    nth 1 rs (fun _ => []) AT = [300] /\ tKel demo_s (b_m1 (call_at m)) 1 = 301.
Proof.
  intros EV FA. pose proof (call_at_good demo_m (demo_batch demo_m (fun a => eq_refl)) (proj2 demo_m_pos)) as G.
  assert (V : forall i, (i < 2)%nat -> 0 < vNew demo_s demo_m i) by (apply (demo_vals demo_m); reflexivity).
  destruct (devex_all echo demo_c (call_at demo_m) demo_pars j1 j2 j3 v root G eq_refl demo_in_use EV FA v [] (fun _ => []) eq_refl) as (v' & rs & L1 & _ & L3).
  exists demo_m, v', rs. split; [exact G|]. split; [exact L1|]. destruct (L3 1%nat (le_n 2)) as (_ & AT0 & _). rewrite AT0. split.
  - unfold tKel, val. change (b_s (call_at demo_m)) with demo_s. rewrite demo_strides. reflexivity.
  - rewrite (call_at_temp demo_m G V). unfold eInt, val. rewrite demo_strides. cbn. lra.
Qed.
