(** Python objects and arrays: the hypotheses of the theorems about the Python module can be met, and where it goes wrong. *)
From Coq Require Import List ZArith Bool Lia PeanoNat Reals Lra String.
From Verif Require Import Num Arr NumR Util SlipGeom Eos Hard KinVoce KinKMBalD Elast Evptn MatModel Cases Py SpecTensor
  P_Tensor P_Eos P_Sngl P_Sngl2 P_Sngl3 P_Batch P_Batch2 P_Batch3 P_Api P_Builtin SpecApi P_Hist SpecBatch P_Batch4 SpecObj P_Api2 P_Slip P_Demo P_Step SpecPy P_Py P_Py2 P_Py3.
Import ListNotations.
Local Open Scope R_scope.

(** ** Objects *)
Definition packed1 (l : list R) : PyArr R := {| py_base := l; py_off := 0; py_shape := [Z.of_nat (List.length l)]; py_strides := [1%Z] |}.
Lemma packed1_vector l : vector (List.length l) (packed1 l).
Proof. repeat split. cbn. lia. Qed.

Lemma py_new_eq hs name c l s1 : py_model hs name = Some (c, mm_new c) -> mm_init c (mm_new c) [] l [] = (Done, s1) ->
  py_new hs name (packed1 l) = POk (c, fst (mm_run c (mm_new c) [OInit [] l []; OComplete])).
Proof.
  intros EM EI. unfold py_new, py_params. cbn [packed1 py_shape py_ptr py_base py_off skipn]. rewrite Nat2Z.id.
  destruct (Nat.ltb_spec (List.length l) (List.length l)) as [H|_]; [lia|]. rewrite firstn_all, EM, EI.
  f_equal. f_equal. rewrite mm_run_cons. cbn [mm_step]. rewrite EI. cbn [fst].
  destruct (init_done _ _ _ _ _ _ EI) as (_ & a & _ & _ & ES). rewrite ES. reflexivity.
Qed.
Lemma demo_py : py_new echo "voce_fcc_norm" (packed1 demo_pars) = POk (demo_c, demo_s).
Proof.
  destruct demo_init as [s1 H]. exact (py_new_eq echo "voce_fcc_norm" demo_c demo_pars s1 eq_refl H).
Qed.

(** ** Arrays *)
Definition packed2 (n w : nat) (l : list R) : PyArr R := {| py_base := l; py_off := 0; py_shape := [Z.of_nat n; Z.of_nat w]; py_strides := [Z.of_nat w; 1%Z] |}.
Lemma packed2_table n w l : (n * w <= List.length l)%nat -> table2 n w (packed2 n w l) /\ row_major w (packed2 n w l).
Proof.
  intros H. split; [|reflexivity]. split; [reflexivity|]. split; [reflexivity|]. intros i j Hi Hj. unfold where2. cbn [packed2 py_off py_strides py_base nth]. nia.
Qed.
Definition demo_a (m : Mem R) (n : nat) (x : arr) : PyArr R := packed2 n (columns 26 x) (m x).
Lemma demo_a_ok m n : (n <= 2)%nat -> (forall a, List.length (m a) = List.length (demo_m a)) ->
  forall x, In x solve_args -> table2 n (columns 26 x) (demo_a m n x) /\ row_major (columns 26 x) (demo_a m n x).
Proof.
  intros Hn HL x Hx. apply packed2_table. rewrite HL. cbn in Hx.
  repeat (destruct Hx as [<-|Hx]; [cbn [columns demo_m demo_h List.length app]; lia|]). contradiction.
Qed.

(** ** A column of a larger array as the energies *)
Definition view_e : PyArr R := {| py_base := [1; 100; 2; 200]; py_off := 0; py_shape := [2; 1]%Z; py_strides := [2; 1]%Z |}.
Definition demo_v (x : arr) : PyArr R := match x with AE => view_e | _ => demo_a demo_m 2 x end.
Lemma demo_v_ok x : In x solve_args -> table2 2 (columns 26 x) (demo_v x) /\ same_elems 2 (columns 26 x) (demo_a demo_m 2 x) (demo_v x).
Proof.
  intros Hx. destruct (demo_a_ok demo_m 2 (le_n 2) (fun a => eq_refl) x Hx) as [HT _].
  destruct x; try (split; [exact HT|split; reflexivity]). split.
  - split; [reflexivity|]. split; [reflexivity|]. intros i j Hi Hj. cbn [columns] in Hj. unfold where2. cbn [demo_v view_e py_off py_strides py_base nth List.length]. lia.
  - split; [reflexivity|]. intros i j Hi Hj. cbn [columns] in Hj. destruct j as [|j]; [|lia]. destruct i as [|[|i]]; [reflexivity|reflexivity|lia].
Qed.
Definition m_view (x : arr) : list R := match x with AE => [1; 100; 2; 200] | _ => demo_m x end.
Lemma m_view_batch : batch_ok demo_c demo_s false 2 m_view.
Proof.
  destruct (demo_batch demo_m (fun a => eq_refl)) as [H1 H2]. split; [exact H1|]. intros a i Hi Hp. specialize (H2 a i Hi Hp).
  destruct a; try exact H2. refine (Nat.le_trans _ _ _ H2 _). cbn. lia.
Qed.
Lemma m_view_pos i : (i < 2)%nat -> 0 < val demo_s m_view AH i 13.
Proof. exact (proj2 demo_m_pos i). Qed.
Definition call_at (m : Mem R) : BCall :=
  {| b_s := demo_s; b_solver := echo; b_lu := noLU; b_dt := /10; b_mtan := false; b_n := 2; b_m := m;
     b_m1 := snd (mm_getResponse echo noLU demo_c demo_s (/10) false 2 m) |}.
Lemma call_at_good m : batch_ok demo_c demo_s false 2 m -> (forall i, (i < 2)%nat -> 0 < val demo_s m AH i 13) -> good echo demo_c (call_at m).
Proof.
  intros HO HP. refine (conj demo_builtin (conj demo_reach (conj HO _))). cbn [call_at b_n b_solver b_lu b_s b_dt b_mtan b_m b_m1].
  destruct (demo_done 2 (/10) m HO HP) as [m1 E]. change (Z.of_nat 2) with 2%Z in *. now rewrite E.
Qed.
Lemma call_at_temp m : good echo demo_c (call_at m) -> (forall i, (i < 2)%nat -> 0 < vNew demo_s m i) ->
  tKel demo_s (b_m1 (call_at m)) 1 = (eInt demo_s m 1 + 600) / 2.
Proof.
  intros G HV. destruct (call_material _ _ _ 1%nat demo_pars G (le_n 2) demo_in_use (HV 1%nat (le_n 2))) as (_ & T & _).
  refine (eq_trans T _). unfold spec_T, p_ec0, p_cv. cbn [demo_c cls_FCC_A]. change (mm_nParams demo_c) with 17%nat.
  change (b_s (call_at m)) with demo_s. change (b_m (call_at m)) with m. unfold demo_pars. cbn [nth Nat.sub]. lra.
Qed.

Lemma layout_wrong : exists a b oa ob a' b',
  (forall x, In x solve_args -> table2 2 (columns 26 x) (a x) /\ table2 2 (columns 26 x) (b x) /\ same_elems 2 (columns 26 x) (a x) (b x)) /\
  py_solve echo noLU demo_c demo_s (/10) a 2 = (oa, a') /\ py_solve echo noLU demo_c demo_s (/10) b 2 = (ob, b') /\
  oa = BRet Done /\ ob = BRet Done /\ elem (a' AT) 1 0 <> elem (b' AT) 1 0.
Proof.
  pose proof (demo_batch demo_m (fun a => eq_refl)) as HO.
  pose proof (call_at_good demo_m HO (proj2 demo_m_pos)) as GA. pose proof (call_at_good m_view m_view_batch m_view_pos) as GB.
  assert (V : forall i, (i < 2)%nat -> 0 < vNew demo_s demo_m i) by (apply (demo_vals demo_m); reflexivity).
  pose proof (call_at_temp demo_m GA V) as TA. pose proof (call_at_temp m_view GB V) as TB.
  destruct GA as (_ & _ & _ & EA). destruct GB as (_ & _ & _ & EB).
  cbn [call_at b_n b_solver b_lu b_s b_dt b_mtan b_m] in EA, EB. change (Z.of_nat 2) with 2%Z in EA, EB.
  set (MA := b_m1 (call_at demo_m)) in *. set (MB := b_m1 (call_at m_view)) in *.
  exists (demo_a demo_m 2), demo_v, (BRet Done), (BRet Done), (fun x => py_put (demo_a demo_m 2 x) (MA x)), (fun x => py_put (demo_v x) (MB x)).
  assert (SH : forall (f : arr -> PyArr R), (forall x, In x solve_args -> table2 2 (columns 26 x) (f x)) -> forall x, In x solve_args -> py_shape (f x) = [2%Z; Z.of_nat (columns (mm_numHist demo_c) x)]).
  { intros f Hf x Hx. exact (proj1 (Hf x Hx)). }
  split; [|split; [|split; [|split; [reflexivity|split; [reflexivity|]]]]].
  - intros x Hx. refine (conj (proj1 (demo_a_ok demo_m 2 (le_n 2) (fun a => eq_refl) x Hx)) (demo_v_ok x Hx)).
  - rewrite solve_eq by (apply SH; intros x Hx; exact (proj1 (demo_a_ok demo_m 2 (le_n 2) (fun a => eq_refl) x Hx))).
    change (fun b => py_ptr (demo_a demo_m 2 b)) with demo_m. rewrite EA. reflexivity.
  - rewrite solve_eq by (apply SH; intros x Hx; exact (proj1 (demo_v_ok x Hx))).
    assert (EP : mm_getResponse echo noLU demo_c demo_s (/10) false 2 (fun b => py_ptr (demo_v b)) = (BRet Done, MB)).
    { rewrite <- EB. f_equal. apply FunctionalExtensionality.functional_extensionality. intros x. destruct x; reflexivity. }
    rewrite EP. reflexivity.
  - unfold elem, where2. cbn [py_put demo_a demo_v packed2 py_off py_strides py_base nth columns firstn app].
    unfold tKel, val in TA, TB. rewrite demo_strides in TA, TB.
    change (Z.to_nat (Z.of_nat 0 + Z.of_nat 1 * Z.of_nat 1 + Z.of_nat 0 * 1)) with 1%nat.
    assert (X : nth 1 (MA AT) 0 = nth 1 (MB AT) 0 -> False); [|exact X]. intros X.
    assert (TA' : nth 1 (MA AT) 0 = (eInt demo_s demo_m 1 + 600) / 2) by exact TA.
    assert (TB' : nth 1 (MB AT) 0 = (eInt demo_s m_view 1 + 600) / 2) by exact TB.
    rewrite TA', TB' in X. unfold eInt, val in X. rewrite demo_strides in X. unfold stride_of in X. cbn [gstride st_int_eng nth Nat.mul Nat.add demo_m m_view] in X. lra.
Qed.

(** ** A reversed array *)
Definition rev_d : PyArr R := {| py_base := [0; /2; 0; 0; 0; -1; 1]; py_off := 6; py_shape := [1; 7]%Z; py_strides := [-7; -1]%Z |}.
Definition demo_r (x : arr) : PyArr R := match x with AD => rev_d | _ => demo_a demo_m 1 x end.
Lemma bounds_wrong : (forall x, In x solve_args -> table2 1 (columns 26 x) (demo_r x)) /\
  fst (py_solve echo noLU demo_c demo_s (/10) demo_r 1) = BUndef.
Proof.
  assert (HT : forall x, In x solve_args -> table2 1 (columns 26 x) (demo_r x)).
  { intros x Hx. destruct (demo_a_ok demo_m 1 (le_S 1 1 (le_n 1)) (fun a => eq_refl) x Hx) as [HT _].
    destruct x; try exact HT. split; [reflexivity|]. split; [reflexivity|]. intros i j Hi Hj. cbn [columns] in Hj. unfold where2.
    cbn [demo_r rev_d py_off py_strides py_base nth List.length]. lia. }
  split; [exact HT|]. rewrite solve_eq by (intros x Hx; exact (proj1 (HT x Hx))). cbn [fst].
  destruct demo_ready as (sg & _ & HM). unfold mm_getResponse. rewrite demo_complete, HM. cbn [negb].
  change (seq 0 (Z.to_nat 1)) with [0%nat]. cbn [runSeq]. unfold pointProg. cbv zeta. 
  rewrite exec_readL_oob; [reflexivity| |lia]. rewrite demo_strides. cbn. lia.
Qed.

(** ** Every second entry of a larger vector as the parameters *)
Fixpoint weave (l k : list R) : list R := match l with [] => [] | x :: r => x :: match k with [] => 0 :: weave r [] | y :: k' => y :: weave r k' end end.
(** entries 0, 2, 4, ... are those of [demo_pars]; the first 17 doubles are others *)
Definition woven : PyArr R := {| py_base := weave demo_pars (repeat 1 17); py_off := 0; py_shape := [17%Z]; py_strides := [2%Z] |}.
Lemma woven_entry k : (k < 17)%nat -> entry1 woven k = nth k demo_pars 0.
Proof. intros H. unfold entry1. do 17 (destruct k as [|k]; [reflexivity|]). lia. Qed.
Lemma woven_in k : (k < 17)%nat -> (0 <= 2 * Z.of_nat k < Z.of_nat (List.length (py_base woven)))%Z.
Proof. intros H. cbn [woven py_base demo_pars weave repeat List.length]. lia. Qed.
Lemma woven_params : exists s, py_new echo "voce_fcc_norm" woven = POk (demo_c, s) /\ mm_getParams s <> mm_getParams demo_s.
Proof.
  set (l := [3; 1; 2; 1; /100; 1; 3; 1; 1; 1; 1; 1; 1; 1; /10; 1; 1] : list R).
  assert (I : exists s1, mm_init demo_c (mm_new demo_c) [] l [] = (Done, s1)).
  { destruct (@geom_fcc) as (g & Hg & _).
    eapply (init_done_conv demo_c (mm_new demo_c) [] l []
      {| pa_sg := g; pa_el := c_elSet demo_c (sub l 3 3); pa_kin := voce_kinetics echo (voce_setParams false (sub l 6 9)) 12;
         pa_hist := voce_histInfo (voce_setParams false (sub l 6 9)); pa_bulk := 1 / 3 * (1 + 2 * /100) |}).
    - repeat split; cbn; lia.
    - refine (conj Hg (conj eq_refl (conj eq_refl _))).
      cbn [pa_el pa_bulk demo_c cls_FCC_A c_elSet]. unfold el_getBulkMod, cubic_setParams, l. cbn [el_K_bulkMod]. rarr.
      destruct (Rleb (1 / 3 * (1 + 2 * / 100)) 0) eqn:E; [apply Rleb_true in E; lra|reflexivity].
    - reflexivity. }
  destruct I as [s1 EI]. exists (mm_doComplete (mm_setExec s1 CPU)). split.
  - unfold py_new, py_params. cbn [woven py_shape py_ptr py_base py_off skipn].
    change (Nat.ltb (List.length (weave demo_pars (repeat 1 17))) (Z.to_nat 17)) with false. cbn iota beta.
    change (firstn (Z.to_nat 17) (weave demo_pars (repeat 1 17))) with l.
    change (py_model echo "voce_fcc_norm") with (Some (demo_c, mm_new demo_c)). cbn iota beta. rewrite EI. reflexivity.
  - destruct (init_done _ _ _ _ _ _ EI) as (_ & a & _ & _ & ES).
    destruct demo_init as [s2 H]. destruct (init_done _ _ _ _ _ _ H) as (_ & a2 & _ & _ & ES2).
    assert (E : demo_s = fst (mm_run demo_c s2 [OComplete])).
    { unfold demo_s. rewrite mm_run_cons. cbn [mm_step]. rewrite H. reflexivity. }
    rewrite E, ES, ES2. unfold mm_getParams. cbn. intros X. apply (f_equal (fun t => nth 1 (snd (fst t)) 0)) in X. cbn [fst snd] in X. unfold l, demo_pars in X. cbn [nth] in X. lra.
Qed.

(** ** The developer interface *)
Lemma demo_dev j1 j2 j3 : exists v, dev_make demo_c demo_pars j1 j2 j3 = POk v.
Proof.
  destruct (in_use_mat _ _ _ demo_in_use) as (a & (P1 & P2 & P3 & P4) & _).
  unfold dev_make. cbv zeta. change (negb (Nat.eqb (List.length demo_pars) (dev_nParams demo_c))) with false. cbn iota.
  rewrite P1, P3. rewrite <- P2, P4.
  change (Nat.ltb (List.length demo_pars) (3 + c_sgNP demo_c + c_elNP demo_c + c_kinNP demo_c + (eos_nParams - 3))) with false.
  change (negb (Nat.eqb (3 + c_sgNP demo_c + c_elNP demo_c + c_kinNP demo_c + (eos_nParams - 3)) (dev_nParams demo_c))) with false. cbn iota.
  assert (EH : pa_hist a = voce_histInfo (voce_setParams false (sub demo_pars 6 9))).
  { apply (f_equal (option_map snd)) in P3. cbn [option_map snd] in P3.
    change (Some (voce_histInfo (voce_setParams false (sub demo_pars 6 9))) = Some (pa_hist a)) in P3. clear - P3. congruence. }
  rewrite EH. change (negb (Nat.eqb (List.length (dev_histInfo demo_c (voce_histInfo (voce_setParams false (sub demo_pars 6 9))))) (mm_numHist demo_c))) with false.
  cbn iota. eexists; reflexivity.
Qed.

Lemma hcp_none hs pars j1 j2 j3 (v : Dev R) : dev_make (cls_HCP_A hs) pars j1 j2 j3 <> POk v.
Proof.
  unfold dev_make. cbv zeta.
  change (3 + c_sgNP (cls_HCP_A hs) + c_elNP (cls_HCP_A hs) + c_kinNP (cls_HCP_A hs) + (eos_nParams - 3))%nat with 97%nat.
  change (dev_nParams (cls_HCP_A hs)) with 96%nat.
  destruct (Nat.eqb_spec (List.length pars) 96) as [E|]; cbn [negb]; [|discriminate].
  destruct c_sgSet; [|discriminate]. destruct c_kinSet as [[]|]; [|discriminate]. destruct el_getBulkMod; [|discriminate].
  rewrite E. change (Nat.ltb 96 97) with true. discriminate.
Qed.

Lemma state_stress (v v' : Dev R) x (p p' q q' : Pt R) o o' v1 v1' : List.length (pt_stress p) = 7%nat -> List.length (pt_stress p') = 7%nat -> dv_in v = dv_in v' ->
  dev_getState v x p = Some (o, v1, q) -> dev_getState v' x p' = Some (o', v1', q') -> pt_stress q = pt_stress q'.
Proof.
  intros L L' EI. unfold dev_getState. rewrite <- EI. destruct (dv_in v) as [i|]; [|discriminate]. destruct (di_last i) as [ev|]; [|discriminate].
  cbv zeta. destruct stateFromX as [e u].
  assert (LS : List.length (stress_out u (elastNEtoC (di_prob i) e)) = 7%nat) by reflexivity.
  destruct (el_getGmod (m_el (dv_mat v))); destruct (el_getGmod (m_el (dv_mat v'))); intros H H'; apply (f_equal (option_map (fun t => pt_stress (snd t)))) in H, H'; cbn [option_map snd pt_stress] in H, H';
    apply some_inj in H, H'; rewrite <- H, <- H'; rewrite !updl_all by congruence; reflexivity.
Qed.
Lemma setup_same (v : Dev R) dt d w vr e st st' h : get st 6 = get st' 6 -> dev_setup v dt d w vr e st h = dev_setup v dt d w vr e st' h.
Proof. intros E. unfold dev_setup. rewrite E. reflexivity. Qed.

Definition m_soft (x : arr) : list R := match x with AS => [0; 0; 0; 0; 0; 0; 1;   0; 0; 0; 1; 1; 1; 3] | _ => demo_m x end.
Lemma m_soft_batch : batch_ok demo_c demo_s false 2 m_soft.
Proof. apply demo_batch. intros a. now destruct a. Qed.

Lemma energy_wrong j1 j2 j3 v : dev_make demo_c demo_pars j1 j2 j3 = POk v ->
  exists m xs v1 v2 v3 q, good echo demo_c (call_at m) /\ by_hand demo_c (call_at m) (nth 2 demo_pars 0) 0 v xs v1 v2 v3 q /\
    nth 0 (pt_eInt q) 0 <> eInt demo_s (b_m1 (call_at m)) 0.
Proof.
  intros EV. 
  pose proof (call_at_good demo_m (demo_batch demo_m (fun a => eq_refl)) (proj2 demo_m_pos)) as GA.
  pose proof (call_at_good m_soft m_soft_batch (proj2 demo_m_pos)) as GB.
  destruct (dev_state echo demo_c (call_at demo_m) 0 demo_pars j1 j2 j3 v v [] GA eq_refl (le_S 1 1 (le_n 1)) demo_in_use EV eq_refl) as [(xs & v1 & v2 & v3 & q & HA) RA].
  pose proof (RA _ _ _ _ _ HA) as (SA & _ & EA).
  destruct (dev_state echo demo_c (call_at m_soft) 0 demo_pars j1 j2 j3 v v [] GB eq_refl (le_S 1 1 (le_n 1)) demo_in_use EV eq_refl) as [(xs' & v1' & v2' & v3' & q' & HB) RB].
  pose proof (RB _ _ _ _ _ HB) as (SB & _ & EB).
  destruct (Req_dec (nth 0 (pt_eInt q) 0) (eInt demo_s (b_m1 (call_at demo_m)) 0)) as [X|X]; [|now exists demo_m, xs, v1, v2, v3, q].
  destruct (Req_dec (nth 0 (pt_eInt q') 0) (eInt demo_s (b_m1 (call_at m_soft)) 0)) as [Y|Y]; [|now exists m_soft, xs', v1', v2', v3', q'].
  exfalso.
  assert (PS : forall x, x <> AS -> point demo_c demo_s false m_soft 0 x = point demo_c demo_s false demo_m 0 x).
  { intros x Hx. unfold point. apply map_ext. intros k. unfold val. destruct x; try reflexivity. contradiction. }
  assert (ST : pt_stress q = pt_stress q').
  { destruct HA as (A1 & A2 & A3 & A4 & A5 & A6). destruct HB as (B1 & B2 & B3 & B4 & B5 & B6). cbv zeta in *.
    cbn [call_at b_s b_m b_dt b_solver echo so_x so_xlast] in A1, A4, A6, B1, B4, B6.
    rewrite (PS AD), (PS AW), (PS AV), (PS AE), (PS AH) in B1 by discriminate.
    rewrite (setup_same _ _ _ _ _ _ (point demo_c demo_s false m_soft 0 AS) (point demo_c demo_s false demo_m 0 AS)), A1 in B1.
    2:{ unfold point, val. rewrite demo_strides. reflexivity. }
    assert (v1' = v1) by (clear - B1; congruence). subst v1'.
    assert (IN : exists ii, dv_in v1 = Some ii).
    { clear - A1. unfold dev_setup in A1. cbv zeta in A1. destruct k_updateH as [[hu ?]|]; [|discriminate A1].
      destruct negb; [discriminate A1|]. apply (f_equal snd) in A1. cbn [snd] in A1. subst v1. cbn [dv_in]. eexists; reflexivity. }
    destruct IN as [ii IN].
    destruct (evals_last xs v1 v2 ii IN A3 A5) as (_ & _ & _ & _ & L1). destruct (evals_last xs' v1 v2' ii IN B3 B5) as (_ & _ & _ & _ & L2).
    rewrite A4 in L1. rewrite B4 in L2. rewrite <- L2 in L1.
    refine (state_stress v2 v2' (repeat 0 8) _ _ q q' Done Done v3 v3' _ _ L1 A6 B6); cbn [pt_stress]; unfold point; now rewrite map_length, seq_length. }
  destruct SA as (SA & _). destruct SB as (SB & _). rewrite SA, SB in ST. change (b_s (call_at demo_m)) with demo_s in *. change (b_s (call_at m_soft)) with demo_s in *.
  change (b_m (call_at demo_m)) with demo_m in *. change (b_m (call_at m_soft)) with m_soft in *.
  assert (ED : devStress demo_s (b_m1 (call_at m_soft)) 0 = devStress demo_s (b_m1 (call_at demo_m)) 0).
  { assert (V : forall k, (k < 7)%nat -> val demo_s (b_m1 (call_at m_soft)) AS 0 k = val demo_s (b_m1 (call_at demo_m)) AS 0 k).
    { intros k Hk. apply (f_equal (fun l => nth k l 0)) in ST.
      refine (eq_trans (eq_sym (get_point1 demo_c (call_at m_soft) 0 AS k Hk)) (eq_trans (eq_sym ST) (get_point1 demo_c (call_at demo_m) 0 AS k Hk))). }
    unfold devStress, sym6. rewrite !V by lia. reflexivity. }
  pose proof (call_energy _ _ _ 0%nat GA (le_S 1 1 (le_n 1))) as WA. pose proof (call_energy _ _ _ 0%nat GB (le_S 1 1 (le_n 1))) as WB.
  change (b_s (call_at demo_m)) with demo_s in *. change (b_s (call_at m_soft)) with demo_s in *.
  change (b_m (call_at demo_m)) with demo_m in *. change (b_m (call_at m_soft)) with m_soft in *.
  rewrite X, WA in EA. rewrite Y, WB in EB. unfold work in EA, EB. cbv zeta in EA, EB. cbn [call_at b_s b_m b_dt] in EA, EB.
  change (b_m1 (call_at demo_m)) with (b_m1 (call_at demo_m)) in *.
  change (snd (mm_getResponse echo noLU demo_c demo_s (/10) false 2 demo_m)) with (b_m1 (call_at demo_m)) in EA.
  change (snd (mm_getResponse echo noLU demo_c demo_s (/10) false 2 m_soft)) with (b_m1 (call_at m_soft)) in EB.
  rewrite ED in EB.
  assert (DR : devRate demo_s m_soft 0 = devRate demo_s demo_m 0) by reflexivity. rewrite DR in EB.
  set (K := inner (devStress demo_s (b_m1 (call_at demo_m)) 0) (devRate demo_s demo_m 0)) in *.
  change (eInt demo_s m_soft 0) with (eInt demo_s demo_m 0) in EB. change (delv demo_s m_soft 0) with (delv demo_s demo_m 0) in EB.
  change (vOld demo_s m_soft 0) with (vOld demo_s demo_m 0) in EB. change (vNew demo_s m_soft 0) with (vNew demo_s demo_m 0) in EB.
  assert (PP : pres demo_s m_soft 0 = pres demo_s demo_m 0) by (unfold pres, val; rewrite demo_strides; reflexivity). rewrite PP in EB.
  assert (I1 : inner (devStress demo_s demo_m 0) (devRate demo_s demo_m 0) = 3).
  { unfold inner, devStress, devRate, sym6, val. rewrite demo_strides. unfold stride_of. cbn [gstride st_def_rate st_stress nth Nat.mul Nat.add demo_m]. cbn. lra. }
  assert (I2 : inner (devStress demo_s m_soft 0) (devRate demo_s demo_m 0) = 0).
  { unfold inner, devStress, devRate, sym6, val. rewrite demo_strides. unfold stride_of. cbn [gstride st_def_rate st_stress nth Nat.mul Nat.add demo_m m_soft]. cbn. lra. }
  rewrite I1 in EA. rewrite I2 in EB.
  assert (VO : vOld demo_s demo_m 0 = 1) by (unfold vOld, val; rewrite demo_strides; reflexivity).
  assert (VN : vNew demo_s demo_m 0 = 11/10) by (unfold vNew, val; rewrite demo_strides; reflexivity).
  rewrite VO, VN in EA, EB. lra.
Qed.
