(** Failed calls (C67): a batch in which the second point fails, and a model whose shear modulus is not positive. *)
From Coq Require Import List ZArith Bool Lia PeanoNat Reals Lra String FunctionalExtensionality.
From Verif Require Import Num Arr NumR Util SlipGeom Eos Hard KinVoce KinKMBalD Elast Evptn MatModel Cases SpecTensor
  P_Tensor P_Eos P_Sngl P_Sngl2 P_Sngl3 P_Batch P_Batch2 P_Batch3 P_Batch4 P_Api P_Api2 P_Builtin SpecApi P_Hist SpecBatch
  SpecKin P_KinV P_Hard P_Call P_Slip P_Demo P_Demo2 P_Demo3 P_Demo4 P_State SpecState P_State2 P_Fail.
Import ListNotations.
Local Open Scope R_scope.

(** ** the second point needs a strength the solver does not find *)
Definition fl_h0 : list R := demo_h [1; 2; 0; 0] [2].
Definition fl_h1 : list R := d2_h [1; 0; 0; 0] [1] [1; 0; -1; 0; 0; 0; 0; 0; 0; 0; 0; 2].
Definition fl_ok : Mem R := fun a => match a with AH => fl_h0 ++ fl_h0 | _ => demo_m a end.
Definition fl_m : Mem R := fun a => match a with AH => fl_h0 ++ fl_h1 | _ => demo_m a end.
Definition fl_c : MClass R := d2_c checked.
Definition fl_s : MM R := d2_s checked.

Lemma fl_batch (m : Mem R) : (forall a, List.length (m a) = List.length (demo_m a)) -> batch_ok fl_c fl_s false 2 m.
Proof.
  intros H. split.
  - unfold fl_s. rewrite d2_strides. split; [|discriminate]. intros a Ha. destruct a; reflexivity.
  - unfold fl_s. rewrite d2_strides. intros a i Hi Hp. rewrite H. destruct i as [|[|i]]; [| |lia]; destruct a; cbn in *; lia.
Qed.
Lemma fl_ok_len a : List.length (fl_ok a) = List.length (demo_m a). Proof. destruct a; reflexivity. Qed.
Lemma fl_m_len a : List.length (fl_m a) = List.length (demo_m a). Proof. destruct a; reflexivity. Qed.

Lemma rest_rate dt : voce_updateH checked d2_v 12 [2] dt [0; 0; 0; 0; 0; 0; 0; 0; 0; 0; 0; 0] = Some ([h1_getHn 2 [0]], 1%nat).
Proof.
  unfold voce_updateH, updateH1. rewrite voce_evol by (try reflexivity; cbn; lra).
  set (sd := voce_getSdot1 _ _). unfold checked, offer. cbn [so_converged so_x so_nfev seq forallb].
  change (@nZ R RNum 0) with 0. rewrite h1_residual. cbn [nth get].
  assert (E : Fi (fun h => fst (sd h)) dt 2 (h1_getHn 2 [0]) = 0).
  { unfold Fi, sd. rewrite voce_sdot by reflexivity. cbn [fst]. replace (shear_sum _) with 0 by (unfold shear_sum; cbn; rewrite !Rabs_R0; ring).
    unfold voce_hardening. destruct Rle_dec; unfold h1_getHn; rops; cbn [get nth]; ring. }
  rewrite E. replace (0 / h1_x_scale 2) with 0 by (unfold Rdiv; ring). rewrite Rabs_R0.
  destruct (Rleb 0 _) eqn:X; [reflexivity|]. apply Rleb_false in X. exfalso. assert (0 < nlit 1 (-10)) by (cbn; lra). rops. lra.
Qed.
Lemma fl_sat shr : 1 < voce_sat 4 (/ 1000) (/ 20) (1 + shr * shr).
Proof.
  unfold voce_sat. pose proof (Rle_0_sqr shr) as P. unfold Rsqr in P. destruct Rlt_dec as [H|H]; [|lra].
  assert (1 <= Rpower ((1 + shr * shr) / / 1000) (/ 20)); [|lra].
  assert (G : 1 < (1 + shr * shr) / / 1000) by (unfold Rdiv; rewrite Rinv_inv; lra). set (x := _ / _) in *.
  assert (L : Rpower x 0 <= Rpower x (/ 20)) by (apply Rle_Rpower; lra). rewrite Rpower_O in L by lra. exact L.
Qed.
Lemma slip_rate : voce_updateH checked d2_v 12 [1] (/ 10) [1; 0; -1; 0; 0; 0; 0; 0; 0; 0; 0; 2] = None.
Proof.
  unfold voce_updateH, updateH1. rewrite voce_evol by (try reflexivity; cbn; lra).
  set (sd := voce_getSdot1 _ _). unfold checked, offer. cbn [so_converged so_x so_nfev seq forallb].
  change (@nZ R RNum 0) with 0. rewrite h1_residual. cbn [nth get].
  assert (ES : shear_sum [1; 0; -1; 0; 0; 0; 0; 0; 0; 0; 0; 2] = 1 + sqrt 3 * sqrt 3).
  { unfold shear_sum. cbn [map fold_right]. rewrite !Rabs_R0, (Rabs_pos_eq 1), (Rabs_pos_eq 2), (Rabs_left (-1)) by lra. rewrite sqrt_sqrt by lra. lra. }
  assert (E : Fi (fun h => fst (sd h)) (/ 10) 1 (h1_getHn 1 [0]) = - (4 / 10)).
  { unfold Fi, sd. rewrite voce_sdot by reflexivity. cbn [fst]. rewrite ES. pose proof (fl_sat (sqrt 3)) as S.
    change (v_taus0 d2_v) with 4. change (v_gamss0 d2_v) with (/ 1000). change (v_xms d2_v) with (/ 20). change (v_tausi d2_v) with 1. change (v_h0 d2_v) with 1.
    clear sd. rewrite sqrt_sqrt in S |- * by lra. revert S. generalize (voce_sat 4 (/ 1000) (/ 20) (1 + 3)). intros sat S.
    assert (EH : h1_getHn 1 [0] = 1) by (unfold h1_getHn; rops; cbn [get nth]; ring). rewrite EH.
    unfold voce_hardening. destruct Rle_dec; [lra|]. field. lra. }
  rewrite E. assert (EX : h1_x_scale 1 = 1) by (unfold h1_x_scale; cbn; unfold Rmax; destruct Rle_dec; reflexivity).
  rewrite EX. destruct (Rleb (Rabs (- (4 / 10) / 1)) _) eqn:X; [|reflexivity]. apply Rleb_true in X. exfalso.
  rewrite Rabs_left in X by lra. assert (nlit 1 (-10) < / 10) by (cbn; lra). rops. lra.
Qed.

Definition fl_call : BCall := call_of fl_c fl_s echo noLU false 2 (/ 10) fl_ok.
Lemma fl_good : good checked fl_c fl_call.
Proof.
  apply (d2_good checked echo 2 (/ 10) fl_ok (fl_batch fl_ok fl_ok_len)). intros i Hi.
  exists (h1_getHn 2 [0]), 1%nat. split; [|split; [unfold h1_getHn; rops; cbn [get nth]; lra|reflexivity]].
  assert (E : d2_rates checked fl_ok i = [0; 0; 0; 0; 0; 0; 0; 0; 0; 0; 0; 0] /\ val (d2_s checked) fl_ok AH i 13 = 2).
  { unfold d2_rates, val. rewrite d2_strides. destruct i as [|[|i]]; [split; reflexivity|split; reflexivity|lia]. }
  destruct E as [-> ->]. apply rest_rate.
Qed.
Lemma fl_proven : proven fl_c demo_pars.
Proof.
  exists echo, noLU, {| v_s := fl_s; v_dt := / 10; v_mtan := false; v_n := 2; v_i := 0; v_m := fl_ok; v_m1 := b_m1 fl_call |}.
  exact (conj (d2_in_use checked) (conj (fl_batch fl_ok fl_ok_len) (conj (Nat.lt_0_succ 1) (proj2 (proj2 (proj2 fl_good)))))).
Qed.
Lemma sngl_noH {T} {N : Num T} (solver : Solver T) lu m dt tol d w vr pt :
  k_updateH (m_kin m) (sub (pt_hist pt) iHistLbH (k_nH (m_kin m))) dt (sub (pt_hist pt) (iHistLbGdot (k_nH (m_kin m))) (sg_nslip (m_sg m))) = None ->
  fst (getResponseSngl solver lu m dt tol d w vr pt) = Failed.
Proof. intros H. unfold getResponseSngl. cbv zeta. rewrite H. reflexivity. Qed.
(** the second point alone fails *)
Lemma fl_alone1 : exists mi, alone echo noLU fl_c fl_s (/ 10) false fl_m 1 = (BRet Failed, mi).
Proof.
  destruct (d2_ready checked) as (sg & Eg & Hsg & HM).
  destruct (alone_spec fl_c false echo noLU (/ 10) fl_s 2 fl_m 1 _ _ (d2_reach checked) (d2_complete checked) HM (fl_batch fl_m fl_m_len) (le_n 2)) as (mi & A & _).
  exists mi. rewrite A. f_equal. f_equal.
  assert (EH : k_updateH (m_kin (mat_of fl_c demo_pars sg (voce_kinetics checked d2_v 12))) (sub (pt_hist (pt_of fl_c fl_s false fl_m 1)) iHistLbH (k_nH (m_kin (mat_of fl_c demo_pars sg (voce_kinetics checked d2_v 12))))) (/ 10)
    (sub (pt_hist (pt_of fl_c fl_s false fl_m 1)) (iHistLbGdot (k_nH (m_kin (mat_of fl_c demo_pars sg (voce_kinetics checked d2_v 12))))) (sg_nslip (m_sg (mat_of fl_c demo_pars sg (voce_kinetics checked d2_v 12))))) = None).
  { cbn [m_kin mat_of m_sg voce_kinetics k_updateH k_nH]. rewrite Hsg.
    assert (EP : pt_hist (pt_of fl_c fl_s false fl_m 1) = fl_h1) by (unfold pt_of, pt_at, fl_s; cbn [pt_hist]; rewrite d2_strides; reflexivity).
    rewrite EP. exact slip_rate. }
  exact (sngl_noH _ _ _ _ _ _ _ _ _ EH).
Qed.
Lemma fl_result : exists m1, mm_getResponse echo noLU fl_c fl_s (/ 10) false (Z.of_nat 2) fl_m = (BRet Failed, m1) /\
  norm2 (quat fl_s m1 0) = 1.
Proof.
  destruct (d2_ready checked) as (sg & Eg & Hsg & HM).
  destruct (api_batch fl_c fl_s echo noLU (/ 10) false 2 fl_m _ _ (d2_reach checked) (d2_complete checked) HM (fl_batch fl_m fl_m_len)) as (o & m1 & E & UT & _).
  destruct fl_alone1 as (mf & AF).
  assert (HN : o <> Done).
  { intros ->. destruct (alone_done fl_c false echo noLU (/ 10) fl_s 2 fl_m m1 (d2_reach checked) (fl_batch fl_m fl_m_len) E 1 (le_n 2)) as (x & X & _). rewrite AF in X. discriminate. }
  destruct (alone_failed fl_c false echo noLU (/ 10) fl_s 2 fl_m m1 o (d2_reach checked) (fl_batch fl_m fl_m_len) (d2_complete checked) E HN) as (k & Hk & (mk & A1 & A2) & L & _).
  assert (G0 : exists x, alone echo noLU fl_c fl_s (/ 10) false fl_m 0 = (BRet Done, x) /\ norm2 (quat fl_s x 0) = 1).
  { destruct (alone_done fl_c false echo noLU (/ 10) fl_s 2 fl_ok (b_m1 fl_call) (d2_reach checked) (fl_batch fl_ok fl_ok_len) (proj2 (proj2 (proj2 fl_good))) 0 (Nat.lt_0_succ 1)) as (x & X & XP).
    exists x. split.
    - rewrite <- X. unfold alone. f_equal.
      apply functional_extensionality. intros a. unfold point, fl_s. rewrite d2_strides. destruct a; reflexivity.
    - pose proof (call_quat checked fl_c fl_call 0 fl_good (Nat.lt_0_succ 1)) as Q. cbn [fl_call call_of b_s b_m] in Q.
      assert (NZ : norm2 (quat fl_s fl_ok 0) <> 0) by (unfold quat, val, fl_s; rewrite d2_strides; unfold SpecTensor.norm2; cbn; lra).
      rewrite <- (Q NZ). f_equal. unfold quat. apply map_ext_in. intros j Hj. unfold val. rewrite XP. unfold point, fl_s. rewrite d2_strides. cbn in Hj. destruct Hj as [<-|[<-|[<-|[<-|[]]]]]; reflexivity. }
  destruct G0 as (x0 & X0 & N0).
  assert (k = 1%nat). { destruct k as [|[|k]]; [rewrite X0 in A1; congruence|reflexivity|lia]. } subst k.
  exists m1. rewrite AF in A1. assert (o = Failed) by congruence. subst o. split; [exact E|].
  destruct (L 0%nat (Nat.lt_0_succ 0)) as (y & Y & YP). rewrite X0 in Y. assert (y = x0) by congruence. subst y.
  rewrite <- N0. f_equal. unfold quat. apply map_ext_in. intros j Hj. unfold val. rewrite YP. unfold point, fl_s. rewrite d2_strides. cbn in Hj. destruct Hj as [<-|[<-|[<-|[<-|[]]]]]; reflexivity.
Qed.
