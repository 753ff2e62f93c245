(** What a step computes for two equivalent orientations (C22). *)
From Coq Require Import List ZArith Bool Lia PeanoNat Reals Lra String.
From Verif Require Import P_Demo.
From Verif Require Import Num Arr NumR Util SlipGeom Eos Hard KinVoce KinKMBalD Elast Evptn MatModel Cases SpecTensor
  SpecElast SpecSlip P_Tensor P_Elast P_Eos P_Sngl P_Sngl2 P_Sngl3 P_Batch P_Batch2 P_Batch3 P_Batch4 P_Api P_Builtin SpecApi P_Hist SpecStress P_Stress
  SpecKin SpecKinApi SpecStep P_KinV P_Kin4 P_Call P_Slip P_SlipH P_Step P_Step2 P_Energy P_Deriv P_Jac P_Jac2 SpecJac P_Frame SpecSym P_Sym P_Sym1 P_Sym2 P_Sym3 P_Sym4 P_Sym5.
Import ListNotations.
Local Open Scope R_scope.

Record sym_ok (p : Prob R) (q : list R) (sg : nat -> nat) (ep : nat -> R) : Prop := {
  y_Lq : List.length q = 4%nat;
  y_Nq : SpecTensor.norm2 q = 1;
  y_HQ : List.length (pb_Cn_quat p) = 4%nat /\ SpecTensor.norm2 (pb_Cn_quat p) = 1;
  y_Ld : List.length (pb_d_vecd_sm p) = 5%nat;
  y_Lw : List.length (pb_w_veccp_sm p) = 3%nat;
  y_Le : List.length (pb_e_vecd_n p) = 5%nat;
  y_sg : renumbers (sg_nslip (pb_sg p)) sg;
  y_ep : forall k, (k < sg_nslip (pb_sg p))%nat -> ep k * ep k = 1;
  y_HP : forall i k, (i < 5)%nat -> (k < sg_nslip (pb_sg p))%nat -> get2 (sg_nslip (pb_sg p)) (sg_P (pb_sg p)) i (sg k) = ep k * rm 5 (rmat (rotq q)) (fun j => get2 (sg_nslip (pb_sg p)) (sg_P (pb_sg p)) j k) i;
  y_HW : forall i k, (i < 3)%nat -> (k < sg_nslip (pb_sg p))%nat -> get2 (sg_nslip (pb_sg p)) (sg_Q (pb_sg p)) i (sg k) = ep k * rm 3 (ofM3 (rotq q)) (fun j => get2 (sg_nslip (pb_sg p)) (sg_Q (pb_sg p)) j k) i;
  y_HK : forall i j, (i < 5)%nat -> (j < 5)%nat -> get2 5 (rmat (rotq q)) j i * (get (el_K_diag (pb_el p)) i - get (el_K_diag (pb_el p)) j) = 0;
  y_hex : el_hex (pb_el p) = true -> forall i, (i < 5)%nat ->
    get2 5 (rmat (rotq q)) 1 i = (if Nat.eqb i 1 then 1 else 0) /\ get2 5 (rmat (rotq q)) i 1 = (if Nat.eqb i 1 then 1 else 0);
  y_law : forall tau tau', List.length tau = sg_nslip (pb_sg p) -> List.length tau' = sg_nslip (pb_sg p) -> (forall k, (k < sg_nslip (pb_sg p))%nat -> get tau' (sg k) = ep k * get tau k) ->
    forall k, (k < sg_nslip (pb_sg p))%nat -> get (fst (fst (k_evalGdots (pb_kin p) tau' (pb_kin_vals p)))) (sg k) = ep k * get (fst (fst (k_evalGdots (pb_kin p) tau (pb_kin_vals p)))) k /\
      get (snd (fst (k_evalGdots (pb_kin p) tau' (pb_kin_vals p)))) (sg k) = get (snd (fst (k_evalGdots (pb_kin p) tau (pb_kin_vals p)))) k
}.

Lemma xi_trial p x : List.length x = 8%nat -> toV3 (ev_xi (evalEv p x)) = trial_rot x.
Proof.
  intros L. explode x. reflexivity.
Qed.

Lemma dot_right q a b : List.length q = 4%nat -> SpecTensor.norm2 q = 1 -> List.length a = 4%nat -> List.length b = 4%nat ->
  vecsyadotb 4 (quat_prod a q) (quat_prod b q) = vecsyadotb 4 a b.
Proof.
  intros Lq Nq La Lb. explode q. explode a. explode b. rewrite !qp_form. unfold SpecTensor.norm2 in Nq. cbn in Nq.
  unfold vecsyadotb. rewrite !sum_S_R. unfold sum. cbn [seq fold_left]. rarr.
  match type of Nq with ?n = 1 => set (N := n) in Nq end.
  match goal with |- _ = ?r => transitivity (N * r); [unfold N; clear; rops; ring|rewrite Nq; rops; ring] end.
Qed.
Lemma final_right q a b : List.length q = 4%nat -> SpecTensor.norm2 q = 1 -> List.length a = 4%nat -> List.length b = 4%nat ->
  quat_final (quat_prod a q) (quat_prod b q) = quat_prod (quat_final a b) q.
Proof.
  intros Lq Nq La Lb. unfold quat_final. rewrite dot_right by assumption. destruct Rltb; [|reflexivity].
  explode q. explode a. cbn [map]. rewrite !qp_form. cbn [map]. repeat f_equal; ring.
Qed.
Lemma cong_back C S X : is_orth S -> cong (mul3 C S) (cong (tr3 S) X) = cong C X.
Proof.
  intros [H1 H2]. unfold cong. rewrite tr3_mul, !mul3_assoc. replace (tr3 (tr3 S)) with S by (destruct S; reflexivity).
  rewrite <- (mul3_assoc S (tr3 S) (tr3 C)), H1, SpecTensor.mul3_1l, <- (mul3_assoc S (tr3 S) (mul3 X (tr3 C))), H1, SpecTensor.mul3_1l. reflexivity.
Qed.
Lemma ten6_turn S v x : is_orth S -> List.length v = 5%nat -> ten6 (vec5 (cong (tr3 S) (ten5 v)) ++ [x]) = cong (tr3 S) (ten6 (v ++ [x])).
Proof.
  intros HS L. assert (E : forall w, List.length w = 5%nat -> ten6 (w ++ [x]) = add3 (ten5 w) (scal3 x (basis 5))).
  { intros w Lw. unfold ten6. rewrite ten5_app by exact Lw. explode w. reflexivity. }
  rewrite !E by (assumption || reflexivity). rewrite SpecTensor.cong_add, SpecTensor.cong_scal. f_equal.
  - apply SpecTensor.ten5_vec5. apply cong_dev; [apply orth_tr; exact HS|apply ten5_dev].
  - f_equal. change (basis 5) with (scal3 (/ sqrt 3) I3). rewrite SpecTensor.cong_scal. f_equal. unfold cong. rewrite SpecTensor.mul3_1r. replace (tr3 (tr3 S)) with S by (destruct S; reflexivity). symmetry. exact (proj2 HS).
Qed.

Section Out.
  Variables (p : Prob R) (q : list R) (sg : nat -> nat) (ep : nat -> R).
  Hypothesis HH : sym_ok p q sg ep.
  Let S := rotq q.
  Let n := sg_nslip (pb_sg p).
  Let p' := sym_prob q p.
  Lemma so_orth : is_orth S. Proof. exact (proj1 (rotq_rot q (y_Lq _ _ _ _ HH) (y_Nq _ _ _ _ HH))). Qed.
  Lemma so_related x : List.length x = 8%nat -> off_tiny x -> related_at 8 (sym_map S) (computeRJ p) (computeRJ p') x.
  Proof.
    intros Lx Ho. destruct HH. assert (Ho' : off (toV3 (ev_xi (evalEv p x)))) by (rewrite xi_trial by exact Lx; exact Ho). split.
    - exact (residual_turn p q sg ep y_Lq0 y_Nq0 y_HQ0 y_Ld0 y_Lw0 y_Le0 y_sg0 y_ep0 y_HP0 y_HW0 y_HK0 y_hex0 y_law0 x Lx Ho').
    - intros u Lu. exact (jac_turn p q sg ep y_Lq0 y_Nq0 y_HQ0 y_Ld0 y_Lw0 y_Le0 y_sg0 y_ep0 y_HP0 y_HW0 y_HK0 y_hex0 y_law0 x Lx Ho' u Lu).
  Qed.
  Lemma so_sized (r : Prob R) : sized 8 (computeRJ r).
  Proof. intros x _. split; reflexivity. Qed.
  Lemma so_gd x k : List.length x = 8%nat -> (k < n)%nat -> get (ev_gdot (evalEv p' (sym_map S x))) (sg k) = ep k * get (ev_gdot (evalEv p x)) k.
  Proof. intros Lx Hk. destruct HH. exact (proj1 (gd_get p q sg ep y_Lq0 y_Nq0 y_Le0 y_sg0 y_HP0 y_HK0 y_hex0 y_law0 x Lx k Hk)). Qed.
  Lemma so_tau x k : List.length x = 8%nat -> (k < n)%nat -> get (ev_taua (evalEv p' (sym_map S x))) (sg k) = ep k * get (ev_taua (evalEv p x)) k.
  Proof. intros Lx Hk. destruct HH. exact (tau_get p q sg ep y_Lq0 y_Nq0 y_Le0 y_sg0 y_HP0 y_HK0 y_hex0 x Lx k Hk). Qed.
  Lemma ep_abs k : (k < n)%nat -> Rabs (ep k) = 1.
  Proof. intros Hk. pose proof (y_ep _ _ _ _ HH k Hk) as E. assert (F : (ep k - 1) * (ep k + 1) = 0) by (rewrite <- (Rminus_diag_eq _ _ E); ring).
    apply Rmult_integral in F. destruct F as [F|F]; [replace (ep k) with 1 by lra; apply Rabs_R1|replace (ep k) with (- (1)) by lra; rewrite Rabs_Ropp; apply Rabs_R1]. Qed.
  Lemma so_shrate x : List.length x = 8%nat -> ev_shrateEff (evalEv p' (sym_map S x)) = ev_shrateEff (evalEv p x).
  Proof.
    intros Lx. change (vecsssumabs n (ev_gdot (evalEv p' (sym_map S x))) = vecsssumabs n (ev_gdot (evalEv p x))). unfold vecsssumabs.
    destruct (y_sg _ _ _ _ HH) as [R1 R2].
    rewrite <- (sum_perm n sg (fun k => nabs (get (ev_gdot (evalEv p' (sym_map S x))) k)) R1 R2). apply sum_ext. intros k Hk.
    rewrite so_gd by assumption. rops. rewrite Rabs_mult, ep_abs by exact Hk. ring.
  Qed.
  Lemma so_disRate x : List.length x = 8%nat -> ev_disRate (evalEv p' (sym_map S x)) = ev_disRate (evalEv p x).
  Proof.
    intros Lx. change (pb_detV_ri p * vecsyadotb n (ev_taua (evalEv p' (sym_map S x))) (ev_gdot (evalEv p' (sym_map S x))) = pb_detV_ri p * vecsyadotb n (ev_taua (evalEv p x)) (ev_gdot (evalEv p x))).
    f_equal. unfold vecsyadotb. destruct (y_sg _ _ _ _ HH) as [R1 R2].
    rewrite <- (sum_perm n sg (fun k => nmul (get (ev_taua (evalEv p' (sym_map S x))) k) (get (ev_gdot (evalEv p' (sym_map S x))) k)) R1 R2). apply sum_ext. intros k Hk.
    rewrite so_gd, so_tau by assumption. rops. transitivity (ep k * ep k * (get (ev_taua (evalEv p x)) k * get (ev_gdot (evalEv p x)) k)); [ring|].
    rewrite (y_ep _ _ _ _ HH k Hk). ring.
  Qed.
  Lemma so_e x : List.length x = 8%nat -> fst (stateFromX p' (sym_map S x)) = vec5 (cong (tr3 S) (ten5 (fst (stateFromX p x)))).
  Proof. intros Lx. destruct HH. exact (ef_list p q y_Lq0 y_Nq0 y_Le0 x Lx). Qed.
  Lemma so_C x : List.length x = 8%nat -> off_tiny x -> snd (stateFromX p' (sym_map S x)) = quat_prod (snd (stateFromX p x)) q.
  Proof.
    intros Lx Ho. destruct HH. assert (Ho' : off (toV3 (ev_xi (evalEv p x)))) by (rewrite xi_trial by exact Lx; exact Ho).
    exact (C_turn p q y_Lq0 y_Nq0 y_HQ0 x Lx Ho').
  Qed.
  Lemma so_cauchy x : List.length x = 8%nat -> exists u y, List.length u = 5%nat /\ elastNEtoC p (fst (stateFromX p x)) = u ++ [y] /\
    elastNEtoC p' (fst (stateFromX p' (sym_map S x))) = vec5 (cong (tr3 S) (ten5 u)) ++ [y].
  Proof.
    intros Lx. pose proof (fun i Hi => T_get p q (y_Lq _ _ _ _ HH) (y_Nq _ _ _ _ HH) (y_Le _ _ _ _ HH) (y_HK _ _ _ _ HH) (y_hex _ _ _ _ HH) x Lx i Hi) as TG.
    set (e := fst (stateFromX p x)). set (e' := fst (stateFromX p' (sym_map S x))).
    change (ev_T (evalEv (sym_prob q p) (sym_map (rotq q) x))) with (elastNEtoT p e') in TG. change (ev_T (evalEv p x)) with (elastNEtoT p e) in TG.
    change (elastNEtoC p' e') with (el_getCauchy (elastNEtoT p e') (pb_detV_ri p)). change (elastNEtoC p e) with (el_getCauchy (elastNEtoT p e) (pb_detV_ri p)).
    assert (T5 : get (elastNEtoT p e') 5 = get (elastNEtoT p e) 5).
    { assert (X : el_hex (pb_el p) = true -> get e' 1 = get e 1).
      { intros EX. unfold e'. rewrite (so_e x Lx). fold e. rewrite get_lin5 by (exact so_orth || reflexivity || lia).
        unfold rm, sum. cbn [fold_left seq]. rops. pose proof (y_hex _ _ _ _ HH EX) as Y. fold S in Y.
        rewrite (proj2 (Y 0%nat ltac:(lia))), (proj2 (Y 1%nat ltac:(lia))), (proj2 (Y 2%nat ltac:(lia))), (proj2 (Y 3%nat ltac:(lia))), (proj2 (Y 4%nat ltac:(lia))).
        cbn [Nat.eqb]. ring. }
      unfold elastNEtoT, el_eval. destruct (el_hex (pb_el p)).
      - specialize (X eq_refl). unfold vecsVAdiagB, vecsVxa, iSvecS, iTvecHex. rarr. rewrite X. reflexivity.
      - unfold vecsVAdiagB, vecsVxa, iSvecS. rarr. reflexivity. }
    exists (tab 5 (fun i => pb_detV_ri p * get (elastNEtoT p e) i)), (pb_detV_ri p * get (elastNEtoT p e) 5).
    assert (F : forall t, el_getCauchy t (pb_detV_ri p) = tab 5 (fun i => pb_detV_ri p * get t i) ++ [pb_detV_ri p * get t 5]) by reflexivity.
    split; [reflexivity|]. split; [apply F|]. rewrite F. rewrite T5. f_equal.
    apply list5_eq; [exact so_orth|reflexivity|reflexivity|]. intros i Hi. rewrite get_tab by exact Hi. rewrite (TG i Hi).
    rewrite (rm_ext 5 _ (get (tab 5 (fun j => pb_detV_ri p * get (elastNEtoT p e) j))) (fun j => pb_detV_ri p * get (elastNEtoT p e) j)) by (intros j Hj; now rewrite get_tab).
    rewrite rm_scal. reflexivity.
  Qed.
  Lemma so_stress x : List.length x = 8%nat -> off_tiny x ->
    stress_out (snd (stateFromX p' (sym_map S x))) (elastNEtoC p' (fst (stateFromX p' (sym_map S x)))) =
    stress_out (snd (stateFromX p x)) (elastNEtoC p (fst (stateFromX p x))).
  Proof.
    intros Lx Ho. destruct (so_cauchy x Lx) as (u & y & Lu & E1 & E2). rewrite E1, E2, (so_C x Lx Ho).
    assert (N : SpecTensor.norm2 (snd (stateFromX p x)) = 1) by exact (proj2 (ev_C_unit p (y_HQ _ _ _ _ HH) x)).
    assert (Nq := y_Nq _ _ _ _ HH). assert (Lq := y_Lq _ _ _ _ HH).
    assert (L4 : List.length (snd (stateFromX p x)) = 4%nat) by reflexivity.
    rewrite !stress_out_law; try assumption; try reflexivity; [|rewrite norm2_prod by assumption; rewrite N, Nq; ring].
    rewrite rotq_prod by assumption. fold S. rewrite ten6_turn by (exact so_orth || exact Lu). rewrite cong_back by exact so_orth. reflexivity.
  Qed.
End Out.
