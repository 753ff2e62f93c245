(** Slip laws and stored Schmid data of the cubic models under the rotations of the cube, continued (C22). *)
From Coq Require Import List ZArith Bool Lia PeanoNat Reals Lra String.
From Verif Require Import P_Demo.
From Verif Require Import Num Arr NumR Util SlipGeom Eos Hard KinVoce KinKMBalD Elast Evptn MatModel Cases SpecTensor
  SpecElast SpecSlip P_Tensor P_Elast P_Eos P_Sngl P_Sngl2 P_Sngl3 P_Batch P_Batch2 P_Batch3 P_Batch4 P_Api P_Builtin SpecApi P_Hist SpecStress P_Stress
  SpecKin SpecKinApi SpecStep P_KinV P_Kin4 P_Call P_Slip P_SlipH P_Step P_Step2 P_Energy SpecJac SpecSym P_Sym P_Sym1 P_Sym2 P_Sym3.
Import ListNotations.
Local Open Scope R_scope.

Lemma tr3_cong A B : tr3 (cong A B) = cong A (tr3 B).
Proof. unfold cong. rewrite !tr3_mul. rewrite mul3_assoc. destruct A as [a1 a2 a3 a4 a5 a6 a7 a8 a9]. reflexivity. Qed.
Lemma scal_symp r X (Y : M3) : symp (scal3 r X) = scal3 r (symp X) /\ skwp (scal3 r X) = scal3 r (skwp X).
Proof. destruct X as [b1 b2 b3 b4 b5 b6 b7 b8 b9]. unfold symp, skwp, scal3, tr3, add3. cbn [a00 a01 a02 a10 a11 a12 a20 a21 a22]. split; f_equal; ring. Qed.
Lemma symp_turn A r B : symp (scal3 r (cong A B)) = scal3 r (cong A (symp B)).
Proof. rewrite (proj1 (scal_symp r _ B)). f_equal. unfold symp. rewrite tr3_cong, !SpecTensor.cong_scal, SpecTensor.cong_add. reflexivity. Qed.
Lemma skwp_turn A r B : skwp (scal3 r (cong A B)) = scal3 r (cong A (skwp B)).
Proof. rewrite (proj2 (scal_symp r _ B)). f_equal. unfold skwp. rewrite tr3_cong, !SpecTensor.cong_scal, SpecTensor.cong_add, SpecTensor.cong_scal. reflexivity. Qed.
Lemma inner_scal r A B : inner (scal3 r A) B = r * inner A B.
Proof. destruct A as [a1 a2 a3 a4 a5 a6 a7 a8 a9], B as [b1 b2 b3 b4 b5 b6 b7 b8 b9]. unfold inner, scal3. cbn [a00 a01 a02 a10 a11 a12 a20 a21 a22]. ring. Qed.
Lemma axial_scal r w : scal3 r (axial w) = axial (scv r w).
Proof. destruct w as [x y z]. unfold scal3, axial, scv. cbn [a00 a01 a02 a10 a11 a12 a20 a21 a22 v0 v1 v2]. f_equal; ring. Qed.

Section Schmid.
  Variables (P Q : list R) (n : nat) (md sd : nat -> V3) (S : M3) (sg : nat -> nat) (ep : nat -> R).
  Hypothesis SD : schmid_data P Q n md sd.
  Hypothesis HM : matches n S sg ep md sd.
  Hypothesis HS : is_rot S.
  Lemma sch_HP i k : (i < 5)%nat -> (k < n)%nat -> get2 n P i (sg k) = ep k * rm 5 (rmat S) (fun j => get2 n P j k) i.
  Proof.
    intros Hi Hk. destruct SD as (_ & _ & SD'). destruct HM as ((R1 & _) & HM'). destruct (HM' k Hk) as (_ & E).
    pose proof (proj1 (SD' (sg k) (R1 k Hk)) i Hi) as E1.
    assert (E2 : forall j, (j < 5)%nat -> get2 n P j k = get (vec5 (symp (outer (sd k) (md k)))) j).
    { intros j Hj. rewrite vec5_get by exact Hj. exact (proj1 (SD' k Hk) j Hj). }
    rewrite (rm_ext 5 _ _ _ i E2). unfold rm. rewrite <- (get_lin5 S (vec5 (symp (outer (sd k) (md k)))) i (proj1 HS) eq_refl Hi).
    rewrite <- vec5_cong_dev by (apply orth_tr; exact (proj1 HS)). rewrite vec5_get by exact Hi.
    refine (eq_trans E1 _). rewrite E, symp_turn, inner_scal. reflexivity.
  Qed.
  Lemma sch_HW i k : (i < 3)%nat -> (k < n)%nat -> get2 n Q i (sg k) = ep k * rm 3 (ofM3 S) (fun j => get2 n Q j k) i.
  Proof.
    intros Hi Hk. destruct SD as (_ & _ & SD'). destruct HM as ((R1 & _) & HM'). destruct (HM' k Hk) as (_ & E).
    pose proof (proj2 (SD' (sg k) (R1 k Hk))) as E1. pose proof (proj2 (SD' k Hk)) as E2.
    rewrite E, skwp_turn, <- E2, cong_axial, axial_scal in E1 by (apply rot_tr; exact HS).
    apply axial_inj in E1.
    assert (G : forall k, get2 n Q 0 k = nth k Q 0 /\ get2 n Q 1 k = nth (n + k) Q 0 /\ get2 n Q 2 k = nth (2 * n + k) Q 0).
    { intros j. unfold get2, get. rewrite Nat.mul_1_l. split; [reflexivity|split; reflexivity]. }
    set (w := [nth k Q 0; nth (n + k) Q 0; nth (2 * n + k) Q 0]).
    assert (E3 : forall j, (j < 3)%nat -> get2 n Q j k = get w j).
    { intros j Hj. destruct (G k) as (G0 & G1 & G2). destruct j as [|[|[|]]]; [exact G0|exact G1|exact G2|lia]. }
    rewrite (rm_ext 3 _ _ _ i E3). unfold rm. rewrite <- (get_lin3 S w i eq_refl Hi).
    change (toV3 w) with (mkV (nth k Q 0) (nth (n + k) Q 0) (nth (2 * n + k) Q 0)).
    set (u := mulv (tr3 S) _) in *. clearbody u. destruct u as [u0 u1 u2]. unfold scv in E1. cbn [v0 v1 v2] in E1.
    injection E1 as X0 X1 X2. destruct (G (sg k)) as (G0 & G1 & G2).
    destruct i as [|[|[|]]]; [| | |lia]; cbn [ofV3 get nth v0 v1 v2].
    - rewrite G0. exact X0.
    - rewrite G1. exact X1.
    - rewrite G2. exact X2.
  Qed.
End Schmid.

(** the slip rates are renumbered, with the sign of the slip direction *)
Lemma law_sym hs c pars T h law ref pr kin hi n sg ep : slip_law hs c pars T h law ref -> c <> cls_HCP_A hs -> List.length pars = mm_nParams c ->
  c_kinSet c (sub pars (3 + c_sgNP c + c_elNP c) (c_kinNP c)) = Some (kin, hi) -> k_valsOk kin pr T [h] = true ->
  n = c_nslip c -> renumbers n sg -> (forall k, (k < n)%nat -> ep k = 1 \/ ep k = -1) ->
  forall tau tau', (forall k, (k < n)%nat -> get tau' (sg k) = ep k * get tau k) -> forall k, (k < n)%nat ->
  let vals := fst (k_getVals kin pr T [h]) in
  get (fst (fst (k_evalGdots kin tau' vals))) (sg k) = ep k * get (fst (fst (k_evalGdots kin tau vals))) k /\
  get (snd (fst (k_evalGdots kin tau' vals))) (sg k) = get (snd (fst (k_evalGdots kin tau vals))) k.
Proof.
  intros HLaw HC HL HK HV En [Hsg _] Hep tau tau' Ht k Hk vals. subst n. pose proof (Hsg k Hk) as Hk'.
  destruct (law_data hs c pars T h law ref pr kin hi HLaw HL HK HV) as (_ & _ & R2). fold vals in R2. split.
  - rewrite !R2, !get_tab by assumption. rewrite (Ht k Hk).
    assert (X : forall j l, law j = law l /\ forall x, law j (- x) = - law j x).
    { destruct HLaw as [H1 H2|H1 H2|H1 H2|H1 H2 H3]; [| | |contradiction]; intros j l; (split; [reflexivity|]); intros x.
      - apply law_odd.
      - apply km_odd.
      - apply km_odd. }
    rewrite (proj1 (X (sg k) k)). destruct (Hep k Hk) as [E|E]; rewrite E.
    + rewrite !Rmult_1_l. reflexivity.
    + replace (-1 * get tau k) with (- get tau k) by ring. rewrite (proj2 (X k k)). ring.
  - clear R2 HV. rewrite kin_pars_sub in HK by assumption.
    assert (TE : get tau' (sg k) = get tau k \/ get tau' (sg k) = - get tau k).
    { rewrite (Ht k Hk). destruct (Hep k Hk) as [E|E]; rewrite E; [left|right]; ring. }
    assert (V : forall nl, c_kinSet c = kinVoce hs nl (c_nslip c) -> get (snd (fst (k_evalGdots kin tau' vals))) (sg k) = get (snd (fst (k_evalGdots kin tau vals))) k).
    { intros nl EK. rewrite EK in HK. apply (f_equal (option_map fst)) in HK. cbn [kinVoce option_map fst] in HK. apply some_inj in HK.
      clearbody vals. subst kin. cbn [voce_kinetics k_evalGdots]. unfold voce_evalGdots. cbn [fst snd]. rewrite !get_tab by assumption.
      destruct TE as [E|E]; rewrite E; [reflexivity|]. apply voce_even. }
    assert (M : forall ga p1 q1 nv, c_kinSet c = kinKM hs ga p1 q1 false nv (c_nslip c) -> get (snd (fst (k_evalGdots kin tau' vals))) (sg k) = get (snd (fst (k_evalGdots kin tau vals))) k).
    { intros ga p1 q1 nv EK. rewrite EK in HK. unfold kinKM in HK. destruct (_ && _); [|discriminate]. apply (f_equal (option_map fst)) in HK. cbn [option_map fst] in HK. apply some_inj in HK.
      clearbody vals. subst kin. cbn [km_kinetics k_evalGdots]. unfold km_evalGdots. cbn [fst snd]. rewrite !get_tab by assumption.
      change (km_perSS (km_setParams ga p1 q1 false nv (kin_pars c pars))) with false. cbv iota.
      destruct TE as [E|E]; rewrite E; [reflexivity|]. apply km_even. }
    destruct HLaw as [H1 H2|H1 H2|H1 H2|H1 H2 H3]; [| | |contradiction].
    + destruct H1 as [E|[E|[E|E]]]; [apply (V false)|apply (V true)|apply (V false)|apply (V true)]; rewrite E; reflexivity.
    + apply (M false false false 1%nat). rewrite H1. reflexivity.
    + apply (M true false false 1%nat). rewrite H1. reflexivity.
Qed.

(** the elastic constants of the cubic models *)
Lemma cubic_el hs c pars : builtin hs c -> c <> cls_HCP_A hs -> el_hex (el_of c pars) = false /\
  get (el_K_diag (el_of c pars)) 1 = get (el_K_diag (el_of c pars)) 0 /\ get (el_K_diag (el_of c pars)) 3 = get (el_K_diag (el_of c pars)) 2 /\
  get (el_K_diag (el_of c pars)) 4 = get (el_K_diag (el_of c pars)) 2 /\ c_nslip c = 12%nat.
Proof. intros HB HC. destruct HB as [ E | [ E | [ E | [ E | [ E | [ E | E ]]]]]]; try contradiction; rewrite E; repeat split. Qed.
