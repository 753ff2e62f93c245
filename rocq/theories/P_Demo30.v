(** A run of the mini-app whose printed "function evaluations" are not the evaluations (C71). *)
From Coq Require Import String List ZArith Bool Lia PeanoNat Reals Lra Permutation.
From Verif Require Import Num Arr NumR Util SlipGeom Eos Hard KinVoce KinKMBalD Elast Evptn MatModel Cases Miniapp MiniPrint SpecTensor
  P_Tensor P_Sngl P_Batch P_Batch3 P_Batch4 P_Api P_Api2 P_Builtin P_Rigid SpecKin SpecApi SpecElast SpecStress SpecKinApi SpecStep SpecObj P_Hist P_Call P_Slip P_Energy P_Step2 P_Step3 P_Tan3 P_Demo P_Demo2 P_Demo3 P_Demo4 P_Demo6 SpecMini SpecMini2
  SpecPrint P_Mini P_Mini2 P_Mini3 P_Demo8 P_Demo29 P_Print.
Import ListNotations.
Local Open Scope R_scope.

Definition pull : M3 := mk3 (- / 2) 0 0 0 (- / 2) 0 0 0 1.
Lemma echo_tau pars b i md sd : vNew (b_s b) (b_m b) i = 1 -> dev_strain (b_s b) (b_m1 b) i = Z3 -> tau_after demo_c pars b i sd md = 0.
Proof.
  intros EV ED. unfold tau_after. cbv zeta. rewrite EV. unfold resolved, latStrain.
  change (ten5 (map (fun k => val (b_s b) (b_m1 b) AH i (4 + k)) [0; 1; 2; 3; 4]%nat)) with (dev_strain (b_s b) (b_m1 b) i). rewrite ED.
  unfold latStress. change (p_ghex demo_c pars) with 0. change (p_hooke demo_c pars) with (hooke_cubic (nth 3 pars 0) (nth 4 pars 0) (nth 5 pars 0)). rewrite ln_1.
  generalize (nth 3 pars 0) (nth 4 pars 0) (nth 5 pars 0) (eInt (b_s b) (b_m b) i - delv (b_s b) (b_m b) i * pres (b_s b) (b_m b) i) (/ Rpower 1 (1 / 3)) (basis 1). intros p3 p4 p5 e a B.
  replace (add3 (scal3 a Z3) (scal3 (0 / 3) I3)) with Z3 by (clear; un3; meq; lra).
  replace (hooke_cubic p3 p4 p5 Z3) with Z3 by (clear; unfold hooke_cubic; un3; meq; ring).
  replace (scal3 1 (add3 (scal3 (/ 1) Z3) (scal3 (- (0 * e)) B))) with Z3 by (clear; un3; meq; field).
  apply inner_Zl.
Qed.
Lemma echo_point b i md sd law ref : good echo demo_c b -> (i < b_n b)%nat -> in_use demo_c (b_s b) demo_pars ->
  systems echo demo_c demo_pars md sd -> slip_law echo demo_c demo_pars (tKel (b_s b) (b_m1 b) i) (strength (b_s b) (b_m1 b) i) law ref ->
  b_solver b = echo -> b_mtan b = true -> vNew (b_s b) (b_m b) i = 1 -> devRate (b_s b) (b_m b) i = pull ->
  dev_strain (b_s b) (b_m b) i = Z3 ->
  val (b_s b) (b_m1 b) AH i 2 = 0 /\ val (b_s b) (b_m1 b) AH i 3 = 2.
Proof.
  intros G Hi U HS HL EB EM EV EDR E0. split.
  - assert (Hv : 0 < vNew (b_s b) (b_m b) i) by (rewrite EV; lra).
    destruct (call_step echo demo_c b i demo_pars G Hi U md sd law ref HS HL Hv) as
      (p & r & sg & v & Er & _ & _ & _ & _ & _ & _ & _ & _ & _ & _ & _ & L5 & EE0 & EE1 & _).
    assert (E1 : dev_strain (b_s b) (b_m1 b) i = Z3).
    { rewrite <- EE1. rewrite E0 in EE0. rewrite <- EE0. f_equal. rewrite Er, EB. cbn [echo so_x].
      change (ev_e_f (evalEv p (tab 8 (fun _ => 0)))) with (vecsVapb 5 (vecsVxa 5 e_scale (x_e (tab 8 (fun _ => 0)))) (pb_e_vecd_n p)).
      destruct (pb_e_vecd_n p) as [|e1 [|e2 [|e3 [|e4 [|e5 [|]]]]]]; try discriminate L5.
      unfold vecsVapb, vecsVxa, x_e. rarr. meq; ring. }
    pose proof (call_flow echo demo_c b i demo_pars G Hi U md sd law ref HS HL Hv (or_introl EM)) as F. rewrite EDR in F.
    assert (ET : trace pull = 0) by (unfold trace, pull; cbn [a00 a11 a22]; lra).
    assert (ED : sqrt (2 / 3) * norm3t pull = 1).
    { unfold norm3t. rewrite <- sqrt_mult; [|lra|unfold inner, pull; cbn [a00 a01 a02 a10 a11 a12 a20 a21 a22]; lra]. rewrite <- sqrt_1. f_equal. unfold inner, pull. cbn [a00 a01 a02 a10 a11 a12 a20 a21 a22]. lra. }
    specialize (F ET). cbv zeta in F. rewrite ED in F.
    assert (T : / 10 ^ 90 < 1). { rewrite <- Rinv_1. apply Rinv_lt_contravar; [rewrite Rmult_1_l; apply pow_lt; lra|apply Rlt_pow_R1; [lra|lia]]. }
    specialize (F T). rewrite EV in F. rewrite sum_zero in F by (intros k _; rewrite (echo_tau demo_pars b i (md k) (sd k) EV E1); ring). lra.
  - destruct (call_counter echo demo_c b i G Hi) as (f & tol & E). cbv zeta in E. rewrite E, EB, EM. reflexivity.
Qed.
Lemma sym_part (f : nat -> R) x w : pull = add3 (add3 (sym6 f) (scal3 (x / 3) I3)) (axial w) -> trace (sym6 f) = 0 -> sym6 f = pull.
Proof.
  unfold pull, sym6, trace, add3, scal3, I3, axial. cbn [a00 a01 a02 a10 a11 a12 a20 a21 a22]. intros E H. injection E. intros. meq; lra.
Qed.
Lemma echo_run s n ori a' : app_main echo true true "voce" "OpenMP" demo_pars = Ready demo_c s 28 OPENMP -> few n ->
  computes echo anyLU demo_c s 28 (/ 10) n ori 1 a' -> forall q, (q < n)%nat -> stored 28 a' q 2 = 0 /\ stored 28 a' q 3 = 2.
Proof.
  intros HM F (a0 & qs & orders & a & SZ & V & OK & L & E1 & E2) q Hq.
  destruct (main_start _ _ _ _ _ _ _ _ _ _ n ori qs a0 HM SZ V) as (h & a1 & EH & ES & ST & _).
  assert (a1 = a) by congruence. subst a1. destruct ST as [SZ1 ST]. destruct (ST q Hq) as (VG & _ & VO & _ & _ & ST'). clear ST.
  destruct (app_ready _ _ _ _ _ _ _ _ _ _ HM) as (HB & HR & HU & HC & HV & HN & _).
  destruct orders as [|[os os'] [|]]; try discriminate L. destruct (OK (os, os') (or_introl eq_refl)) as [V1 V2]. cbn [fst snd] in V1, V2.
  cbn [app_run] in E2. destruct (app_step echo anyLU demo_c s 28 (/ 10) n os os' a) as [o a2] eqn:EA.
  assert (EO : o = BRet Done /\ a2 = a').
  { destruct o as [o|]; [|discriminate E2]. destruct o; try discriminate E2. split; [reflexivity|]. clear - E2. congruence. }
  destruct EO as [-> ->]. clear E2.
  pose proof (app_wrap 28 s n HV ltac:(lia) F) as HW.
  destruct (step_is echo demo_c s 28 n HB HR HV HN HW echo anyLU (/ 10) os os' a a' SZ1 V1 V2 EA) as (b & G & B1 & B2 & _ & _ & B5 & B6 & Q & _).
  destruct (Q q Hq) as [(GV & GT & _ & _ & _ & GN & _ & _ & _ & _ & GH) (_ & _ & _ & TH)].
  rewrite !TH by lia.
  destruct (d4_systems echo) as (md & sd & HS).
  assert (HL : slip_law echo demo_c demo_pars (tKel (b_s b) (b_m1 b) q) (strength (b_s b) (b_m1 b) q) (fun _ => voce_law (kin_par demo_c demo_pars 2) (kin_par demo_c demo_pars 1) (strength (b_s b) (b_m1 b) q)) (kin_par demo_c demo_pars 2)).
  { apply law_V; [now left|]. cbn. lra. }
  destruct (echo_point b q md sd _ _ G ltac:(lia) ltac:(rewrite B1; exact HU) HS HL B2 B5) as [P1 P2].
  - rewrite B1, GN, VO, VG. unfold trace. cbn [a00 a11 a22]. replace (/ 10 * (- / 2 + - / 2 + 1)) with 0 by lra. rewrite exp_0. ring.
  - rewrite B1. rewrite VG in GV. exact (sym_part _ _ _ GV GT).
  - rewrite B1. unfold dev_strain. cbn [map]. rewrite !GH by lia. rewrite !ST' by lia.
    destruct (P_Api2.hist_in_use echo demo_c s demo_pars HB HU) as (nm & HI & _). rewrite HI in EH. apply some_inj in EH. subst h.
    cbn. apply ten5_0.
  - rewrite B1 in P1, P2. exact (conj P1 P2).
Qed.
Lemma evals_wrong : exists s a', app_main echo true true "voce" "OpenMP" demo_pars = Ready demo_c s 28 OPENMP /\
  computes echo anyLU demo_c s 28 (/ 10) 3 (concat [co_q 1; co_q 2; co_q 3]) 1 a' /\
  (forall q, (q < 3)%nat -> stored 28 a' q 3 = 2) /\
  forall t, reduction 3 t -> let '(lo, av, hi) := printed_evals 3 28 t a' in lo = 0 /\ av = 0 /\ hi = 0.
Proof.
  destruct (voce_ready echo true true "OpenMP" OPENMP eq_refl) as [s HM]. exists s.
  assert (F : few 3) by (unfold few; lia).
  destruct (computes_any s 3 (concat [co_q 1; co_q 2; co_q 3]) 1 HM F) as [a' HC]. exists a'. pose proof (echo_run s 3 _ a' HM F HC) as H.
  split; [exact HM|]. split; [exact HC|]. split; [intros q Hq; apply H; exact Hq|].
  intros t HT. pose proof (printed_evals_are 3 28 t a' HT) as P. cbv zeta in P. destruct (printed_evals 3 28 t a') as [[lo av] hi]. destruct P as (P1 & P2 & P3).
  cbn [seq map] in P1, P3. rewrite !(fun q Hq => proj1 (H q Hq)) in P1, P3 by lia. split; [|split].
  - destruct P1 as [I M]. pose proof (M 0 ltac:(cbn; tauto)). cbn [In] in I. lra.
  - rewrite P2. unfold mean, total. cbn [seq map fold_right]. rewrite !(fun q Hq => proj1 (H q Hq)) by lia. cbn [INR]. field.
  - destruct P3 as [I M]. cbn [In] in I. lra.
Qed.
