(** What a call on a material without elastic strain that does not deform leaves behind (C23, C24). *)
From Coq Require Import List ZArith Bool Lia PeanoNat Reals Lra String.
From Verif Require Import Num Arr NumR Util SlipGeom Eos Hard KinVoce KinKMBalD Elast Evptn MatModel Cases SpecTensor
  SpecElast SpecSlip P_Tensor P_Elast P_Eos P_Sngl P_Sngl2 P_Sngl3 P_Batch P_Batch2 P_Batch3 P_Batch4 P_Api P_Builtin SpecApi P_Hist SpecStress P_Stress
  SpecKin SpecKinApi SpecStep SpecEnergy P_KinV P_Hard P_Kin4 P_Call P_Slip P_SlipH P_Demo P_Demo2 P_Demo3 P_Step P_Step2 P_Step3 P_Energy P_Rest P_Rigid P_Rigid2 P_Rigid3.
Import ListNotations.
Local Open Scope R_scope.

(** unit quaternions of the same rotation that are not opposite are equal *)
Lemma rotq_unique p q : List.length p = 4%nat -> List.length q = 4%nat -> SpecTensor.norm2 p = 1 -> SpecTensor.norm2 q = 1 ->
  rotq p = rotq q -> 0 <= dot4 p q -> p = q.
Proof.
  intros Lp Lq Np Nq E D.
  destruct p as [|a [|b [|c [|d []]]]]; try discriminate. destruct q as [|a' [|b' [|c' [|d' []]]]]; try discriminate.
  rewrite !rotq_form in E. unfold SpecTensor.norm2 in *. unfold dot4 in D. cbn [nth fold_right map] in *.
  injection E as E0 E1 E2 E3 E4 E5 E6 E7 E8.
  assert (S : (a*a' + b*b' + c*c' + d*d') * (a*a' + b*b' + c*c' + d*d') = 1).
  { assert (A : a*a = a'*a') by lra. assert (B : b*b = b'*b') by lra. assert (C : c*c = c'*c') by lra. assert (F : d*d = d'*d') by lra.
    assert (AB : a*b = a'*b') by lra. assert (AC : a*c = a'*c') by lra. assert (AD : a*d = a'*d') by lra.
    assert (BC : b*c = b'*c') by lra. assert (BD : b*d = b'*d') by lra. assert (CD : c*d = c'*d') by lra.
    transitivity ((a*a)*(a'*a') + (b*b)*(b'*b') + (c*c)*(c'*c') + (d*d)*(d'*d') + 2*((a*b)*(a'*b')) + 2*((a*c)*(a'*c')) + 2*((a*d)*(a'*d'))
      + 2*((b*c)*(b'*c')) + 2*((b*d)*(b'*d')) + 2*((c*d)*(c'*d'))); [ring|].
    rewrite <- A, <- B, <- C, <- F, <- AB, <- AC, <- AD, <- BC, <- BD, <- CD.
    transitivity ((a*a+b*b+c*c+d*d)*(a*a+b*b+c*c+d*d)); [ring|]. assert (X : a*a+b*b+c*c+d*d = 1) by lra. rewrite X. ring. }
  set (t := a*a' + b*b' + c*c' + d*d') in *.
  assert (T1 : t = 1). { destruct (Rtotal_order t 1) as [H|[H|H]]; [exfalso|assumption|exfalso]; nra. }
  assert (Z : (a-a')*(a-a') + (b-b')*(b-b') + (c-c')*(c-c') + (d-d')*(d-d') = 0). { unfold t in T1. clear - Np Nq T1. lra. }
  assert (Q : forall x, 0 <= x * x) by (intros; nra).
  pose proof (Q (a-a')). pose proof (Q (b-b')). pose proof (Q (c-c')). pose proof (Q (d-d')).
  assert (Q0 : forall x, x * x = 0 -> x = 0) by (intros x Hx; apply Rmult_integral in Hx; tauto).
  assert (a - a' = 0) by (apply Q0; lra). assert (b - b' = 0) by (apply Q0; lra). assert (c - c' = 0) by (apply Q0; lra). assert (d - d' = 0) by (apply Q0; lra).
  repeat f_equal; lra.
Qed.

Section Eff.
  Variables (hs : Solver R) (c : MClass R) (b : BCall) (i : nat) (pars : list R).
  Hypothesis G : good hs c b.
  Hypothesis Hi : (i < b_n b)%nat.
  Hypothesis U : in_use c (b_s b) pars.
  Let s := b_s b. Let m := b_m b. Let m1 := b_m1 b.
  Variables (md sd : nat -> V3).
  Hypothesis HSys : systems hs c pars md sd.
  Hypothesis HKh : keeps_solution hs.
  Hypothesis Hdt : 0 < b_dt b.
  Hypothesis HR : at_rest hs c pars s m i.
  Hypothesis HW : / 10 ^ 90 < norm3 (scalv (b_dt b) (spin s m i)) \/ spin s m i = mkV 0 0 0.
  Hypothesis HX : forall rj it, (forall j, (j < 8)%nat -> nth j (fst (rj (rest_x s m (b_dt b) i))) 0 = 0) ->
    let r := b_solver b 8%nat rj (nth 2 pars 0) it (tab 8 (fun _ => 0)) in so_x r = rest_x s m (b_dt b) i /\ so_xlast r = rest_x s m (b_dt b) i.

  Lemma rest_state : strength s m1 i = kept c pars (strength s m i) /\ (forall k, (k < 5)%nat -> val s m1 AH i (4 + k) = 0) /\
    (forall k, (k < c_nslip c)%nat -> val s m1 AH i (14 + k) = 0) /\ val s m1 AH i 0 = 0 /\ val s m1 AH i 1 = val s m AH i 1 /\
    rotq (quat s m1 i) = mul3 (turn (scalv (b_dt b) (spin s m i))) (rotq (unit4 (quat s m i))).
  Proof.
    destruct (call_parts hs c b i pars G Hi U) as (sg & kin & hi & h_u & v & nf & gm & E1 & E2 & N1 & N2 & K & HL & S & S' & Rs). cbv zeta in *.
    pose proof G as (HB & _ & HO & _).
    pose proof (builtin_nH hs c b pars G U) as NH.
    assert (EH : h_u = [strength s m1 i]).
    { pose proof (r_H _ _ _ _ _ _ _ _ _ _ _ _ _ _ Rs) as X. cbn [mat_of m_kin] in X. rewrite N2, NH in X. change iHistLbH with 13%nat in X.
      rewrite (hist_out_sub hs c b i G Hi (mat_of c pars sg kin)) in X; try assumption; [|lia]. rewrite <- X. reflexivity. }
    destruct (rest_point hs c s pars HB HL (b_mtan b) (b_n b) (b_dt b) m i HO Hi md sd HSys HKh Hdt HR HW sg kin hi E1 E2)
      as ((nh & F1) & F2 & F3 & F4 & F5 & F6 & _ & F7).
    destruct (call_hard hs c b i pars G Hi U) as (kin' & hi' & n' & E2' & E3').
    rewrite E2 in E2'. apply (f_equal (option_map fst)) in E2'. cbn [option_map fst] in E2'. apply some_inj in E2'. subst kin'.
    change (old_rates c b i) with (slip_rates c s m i) in E3'. change (val (b_s b) (b_m b) AH i 13) with (strength s m i) in E3'. rewrite F1 in E3'.
    assert (EK : strength s m1 i = kept c pars (strength s m i)).
    { apply (f_equal (option_map fst)) in E3'. cbn [option_map fst] in E3'. apply some_inj in E3'. change (val (b_s b) (b_m1 b) AH i 13) with (strength s m1 i) in E3'. congruence. }
    rewrite EK in EH. subst h_u.
    set (p := snglProb (mat_of c pars sg kin) (b_dt b) (in_cell c b i AD) (in_cell c b i AW) (in_cell c b i AV) (P_in c b i) [kept c pars (strength s m i)]) in *.
    set (r := b_solver b 8%nat (computeRJ p) (nth 2 pars 0) 200%nat (tab 8 (fun _ => 0))) in *.
    destruct (HX (computeRJ p) 200%nat F3) as [X1 X2]. change (so_x r = rest_x s m (b_dt b) i) in X1. change (so_xlast r = rest_x s m (b_dt b) i) in X2.
    assert (EVV : v = evalEv p (rest_x s m (b_dt b) i)).
    { pose proof (r_v _ _ _ _ _ _ _ _ _ _ _ _ _ _ Rs) as X. rewrite X. rewrite X1, X2. destruct (pt_mtan (P_in c b i)); reflexivity. }
    assert (EG : forall k, (k < c_nslip c)%nat -> get (ev_gdot v) k = 0) by (intros k Hk; rewrite EVV; now apply F5).
    assert (ES : ev_shrateEff v = 0).
    { rewrite EVV. change (ev_shrateEff (evalEv p (rest_x s m (b_dt b) i))) with (vecsssumabs (sg_nslip sg) (ev_gdot (evalEv p (rest_x s m (b_dt b) i)))).
      rewrite N1. unfold vecsssumabs. rewrite (sum_ext _ _ (fun _ => 0)).
      - clear. induction (c_nslip c); [reflexivity|]. rewrite sum_S, IHn. rops. ring.
      - intros k Hk. rewrite F5 by assumption. apply Rabs_R0. }
    assert (Lq : List.length (snd (stateFromX p (so_x r))) = 4%nat) by reflexivity.
    split; [exact EK|]. split; [|split; [|split; [|split]]].
    - intros k Hk. pose proof (r_E _ _ _ _ _ _ _ _ _ _ _ _ _ _ Rs) as RE. change iHistLbE with 4%nat in RE.
      change (fst (stateFromX p (so_x r))) with (ev_e_f (evalEv p (so_x r))) in RE. rewrite X1 in RE. 
      rewrite (hist_out_sub hs c b i G Hi (mat_of c pars sg kin)) in RE; try assumption; [|lia].
      assert (RE' : get (tab 5 (fun k => val s m1 AH i (4 + k))) k = get [0;0;0;0;0] k) by (f_equal; etransitivity; [exact RE|exact F4]).
      rewrite get_tab in RE' by assumption. rewrite RE'. do 5 (destruct k as [|k]; [reflexivity|]); lia.
    - intros k Hk. pose proof (r_G _ _ _ _ _ _ _ _ _ _ _ _ _ _ Rs) as X. cbn [mat_of m_kin m_sg] in X. rewrite N2, NH, N1 in X. change (iHistLbGdot 1) with 14%nat in X.
      rewrite (hist_out_sub hs c b i G Hi (mat_of c pars sg kin)) in X; try assumption; [|lia]. rewrite <- (EG k Hk), <- X, get_tab by assumption. reflexivity.
    - pose proof (r_shrateEff _ _ _ _ _ _ _ _ _ _ _ _ _ _ Rs) as X. rewrite <- ES, <- X. symmetry. apply (hist_out_val hs c b i G Hi). lia.
    - pose proof (r_shrEff _ _ _ _ _ _ _ _ _ _ _ _ _ _ Rs) as X. change iHistA_shrEff with 1%nat in X.
      rewrite (hist_out_val hs c b i G Hi), (hist_in hs c b i G Hi) in X by lia. rewrite ES in X. unfold s, m, m1. rewrite X. ring.
    - pose proof (quat_out hs c b i G Hi) as QO. change (quat (b_s b) (b_m1 b) i) with (quat s m1 i) in QO. rewrite <- QO. unfold quat_of.
      assert (EQ : rotq (sub (pt_hist (P_out c b i)) iHistLbQ 4) = rotq (ev_C_quat (evalEv p (rest_x s m (b_dt b) i)))).
      { rewrite (r_Q _ _ _ _ _ _ _ _ _ _ _ _ _ _ Rs). unfold rotq. rewrite quat_final_tensor by assumption. rewrite X1. reflexivity. }
      change (pt_hist (pt_of c (b_s b) (b_mtan b) (b_m1 b) i)) with (pt_hist (P_out c b i)).
      etransitivity; [exact EQ|]. etransitivity; [exact F6|].
      destruct HR as (_ & _ & _ & _ & HQ & _).
      destruct (unit4_unit (quat s m i) eq_refl HQ) as [U1 U2]. pose proof (rotq_rot _ U1 U2) as RT.
      rewrite <- mulv_scalv. rewrite turn_cong; [|assumption|].
      + rewrite <- mulv_mul. destruct RT as [[RT _] _]. rewrite RT, mulv_I. reflexivity.
      + rewrite norm_mulv by (apply (proj1 (rot_tr _ RT))). destruct HW as [A|A]; [left; exact A|right; rewrite A].
        clear. set (B := tr3 _). clearbody B. unfold scalv. un3. meq; ring.
  Qed.
  Lemma rest_zero_stress : devStress s m1 i = Z3.
  Proof.
    destruct rest_state as (_ & HE & _). destruct HR as (_ & _ & _ & Hv & Hq & _ & HU & _).
    destruct (call_hooke hs c b i pars G Hi U Hv Hq) as [[C HC] HH]. destruct (HH C (or_introl HC)) as [RC DS]. fold s m m1 in DS. rewrite DS.
    assert (EL : latStrain s m1 i (vNew s m i) = scal3 (ln (vNew s m i) / 3) I3).
    { unfold latStrain. cbn [map]. rewrite !HE by lia. rewrite ten5_0, scal3_Z, add3_Zl. reflexivity. }
    rewrite EL. unfold unloaded in HU. rewrite dev3_scal in HU. apply scal3_0 in HU; [|apply Rgt_not_eq; exact Hv].
    etransitivity; [apply f_equal; exact HU|]. apply cong_Z.
  Qed.
  Lemma rest_energy : eInt s m1 i = eInt s m i - delv s m i * pres s m i.
  Proof.
    pose proof (call_energy hs c b i G Hi) as E. fold s m m1 in E. rewrite E. unfold work. fold s m m1.
    destruct HR as (HD & _). rewrite HD, !inner_Zr. field.
  Qed.
  Lemma rest_quat : spin s m i = mkV 0 0 0 -> quat s m1 i = unit4 (quat s m i).
  Proof.
    intros H0. destruct rest_state as (_ & _ & _ & _ & _ & E). destruct HR as (_ & _ & _ & _ & HQ & _).
    destruct (unit4_unit (quat s m i) eq_refl HQ) as [U1 U2].
    apply rotq_unique; try reflexivity; try assumption.
    - exact (call_quat hs c b i G Hi HQ).
    - rewrite E, H0. assert (Z : scalv (b_dt b) (mkV 0 0 0) = mkV 0 0 0) by (unfold scalv; cbn; meq; ring). rewrite Z.
      assert (T : turn (mkV 0 0 0) = I3). { unfold turn. rewrite norm3_0. destruct (Rlt_dec _ _) as [N|_]; [pose proof tiny_pos; lra|]. apply rodrigues_0. }
      rewrite T. apply SpecTensor.mul3_1l.
    - destruct (call_dot hs c b i G Hi HQ) as [D _]. fold s m m1 in D.
      assert (P : 0 < sqrt (SpecTensor.norm2 (quat s m i))).
      { apply sqrt_lt_R0. assert (0 <= SpecTensor.norm2 (quat s m i)); [|lra]. unfold SpecTensor.norm2, quat. cbn. nra. }
      set (y := sqrt (SpecTensor.norm2 (quat s m i))) in *.
      assert (EQ : dot4 (quat s m1 i) (unit4 (quat s m i)) = dot4 (quat s m1 i) (quat s m i) / y).
      { unfold dot4, unit4. fold y. unfold quat. cbn [map nth]. field. lra. }
      rewrite EQ. apply Rmult_le_pos; [assumption|left; now apply Rinv_0_lt_compat].
  Qed.
End Eff.
