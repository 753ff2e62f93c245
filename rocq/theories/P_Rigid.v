(** The rigid motion of a stress-free crystal solves the step exactly; calls on an undeformed material succeed (C23, C24). *)
From Coq Require Import List ZArith Bool Lia PeanoNat Reals Lra String.
From Verif Require Import Num Arr NumR Util SlipGeom Eos Hard KinVoce KinKMBalD Elast Evptn MatModel Cases SpecTensor
  SpecElast SpecSlip P_Tensor P_Elast P_Eos P_Sngl P_Sngl2 P_Sngl3 P_Batch P_Batch2 P_Batch3 P_Batch4 P_Api P_Builtin SpecApi P_Hist SpecStress P_Stress
  SpecKin SpecKinApi SpecStep SpecEnergy P_KinV P_Kin4 P_Call P_Slip P_SlipH P_Demo P_Demo3 P_Step P_Step2 P_Step3 P_Energy P_Rest.
Import ListNotations.
Local Open Scope R_scope.

Lemma r_scale_R : r_scale = / 100 :> R. Proof. unfold r_scale. cbn. lra. Qed.
Lemma ten5_0 : ten5 [0; 0; 0; 0; 0] = Z3.
Proof. unfold ten5, basis. cbn [nth]. set (x := / sqrt 2). set (y := / sqrt 6). clearbody x y. spec3. meq; ring. Qed.
Lemma zero5 l : List.length l = 5%nat -> ten5 l = Z3 -> l = [0; 0; 0; 0; 0].
Proof.
  intros L H. assert (E : vec5 (ten5 l) = vec5 Z3) by now rewrite H. rewrite vec5_ten5 in E by assumption. rewrite E. unfold vec5. rewrite !inner_Zl. reflexivity.
Qed.
Definition rigid_x (dt : R) (C0 : M3) (w : V3) : list R :=
  let xi := scalv dt (mulv (tr3 C0) w) in [0; 0; 0; 0; 0; 100 * v0 xi; 100 * v1 xi; 100 * v2 xi].

Section Rigid.
  Variables (p : Prob R) (hs : Solver R) (c : MClass R) (pars : list R) (w : V3) (md sd : nat -> V3) (law : nat -> R -> R).
  Hypothesis HB : builtin hs c.
  Hypothesis HL : List.length pars = mm_nParams c.
  Hypothesis Hel : pb_el p = el_of c pars.
  Hypothesis Hv : 0 < pb_detV p.
  Hypothesis Ha : pb_a_V p = Rpow (pb_detV p) (1 / 3).
  Hypothesis Har : pb_a_V_ri p = 1 / pb_a_V p.
  Hypothesis Hdt : pb_dt_ri p = 1 / pb_dt p.
  Hypothesis Hdt0 : pb_dt p <> 0.
  Hypothesis Hn : sg_nslip (pb_sg p) = c_nslip c.
  Hypothesis SD : schmid_data (sg_P (pb_sg p)) (sg_Q (pb_sg p)) (c_nslip c) md sd.
  Hypothesis SL : legal_systems (c_nslip c) md sd.
  Hypothesis HG : forall tau, fst (fst (k_evalGdots (pb_kin p) tau (pb_kin_vals p))) = tab (c_nslip c) (fun k => law k (get tau k)).
  Hypothesis HG0 : forall k, law k 0 = 0.
  Hypothesis HQ : List.length (pb_Cn_quat p) = 4%nat /\ SpecTensor.norm2 (pb_Cn_quat p) = 1.
  Hypothesis HE : pb_e_vecd_n p = [0; 0; 0; 0; 0].
  Hypothesis Hd : pb_d_vecd_sm p = vec5 Z3.
  Hypothesis Hw : pb_w_veccp_sm p = ofV3 w.
  Hypothesis HU : unloaded c pars (pb_detV p) (pb_eVref p).
  Let C0 := rotq (pb_Cn_quat p).
  Let xi := scalv (pb_dt p) (mulv (tr3 C0) w).
  Let x := rigid_x (pb_dt p) C0 w.
  Hypothesis HW : / 10 ^ 90 < norm3 xi \/ xi = mkV 0 0 0.

  Lemma rigid_e : ev_e_f (evalEv p x) = [0; 0; 0; 0; 0].
  Proof.
    unfold evalEv. cbn [ev_e_f]. rewrite HE. unfold x, rigid_x, x_e, vecsVapb, vecsVxa, tab, sub. cbn [map seq skipn firstn get nth]. rops.
    meq; ring.
  Qed.
  Lemma rigid_xi : toV3 (ev_xi (evalEv p x)) = xi.
  Proof.
    unfold evalEv. cbn [ev_xi]. unfold x, rigid_x, x_r, vecsVxa, tab, sub. fold xi. cbn [map seq skipn firstn get nth toV3]. rewrite r_scale_R. rops.
    generalize xi. intros [y0 y1 y2]. unfold toV3. cbn [v0 v1 v2 nth]. meq; field.
  Qed.
  Lemma rigid_gdot k : (k < c_nslip c)%nat -> get (ev_gdot (evalEv p x)) k = 0.
  Proof.
    intros Hk. rewrite ev_gdot_evalGdots, HG, get_tab by assumption. rewrite <- (HG0 k). f_equal.
    change (ev_taua (evalEv p x)) with (vecsVaTM 5 (sg_nslip (pb_sg p)) (elastNEtoT p (ev_e_f (evalEv p x))) (sg_P (pb_sg p))). rewrite Hn, rigid_e.
    destruct (kirchhoff_law p [0;0;0;0;0] c pars hs HB HL Hel Hv Ha Har eq_refl) as [SS [y EX]]. rewrite EX.
    rewrite (resolve_law _ y _ _ _ md sd k SS SD SL Hk). clear EX. rewrite ten5_0, scal3_Z, add3_Zl in SS |- *.
    rewrite inner_comm, <- (symp_inner _ _ SS), inner_comm, <- dev_inner by (apply dev_symp, SL, Hk).
    etransitivity; [apply (f_equal (fun A => inner A _)); exact HU|]. apply inner_Zl.
  Qed.
  Lemma rigid_zero j : (j < 8)%nat -> get (residual p x) j = 0.
  Proof.
    intros Hj.
    assert (HaP : pb_a_V p <> 0) by (rewrite Ha, Rpow_pos by assumption; apply Rgt_not_eq, exp_pos).
    assert (L5 : List.length (pb_e_vecd_n p) = 5%nat) by now rewrite HE.
    pose proof (res_strain p Z3 (c_nslip c) sd md dev_Z Hd Hn SD HQ L5 Hdt Hdt0 Har x) as RS.
    pose proof (res_spin p Z3 w (c_nslip c) sd md Hd Hw Hn SD HQ L5 Hdt Hdt0 Har HaP x) as RW.
    rewrite rigid_e, HE, ten5_0, rigid_xi in *.
    assert (ER : erate (pb_dt p) Z3 Z3 = Z3) by (unfold erate; rewrite sub3_Z; apply scal3_Z).
    destruct (Nat.lt_ge_cases j 5) as [H5|H5].
    - rewrite RS by assumption. unfold strain_gap. rewrite slip_zero by apply rigid_gdot. rewrite ER, scal3_Z, cong_Z, sub3_Z, add3_Z, inner_Zl. apply Rmult_0_r.
    - assert (EG : spin_gap (pb_dt p) (pb_a_V p) Z3 Z3 (rotq (ev_C_quat (evalEv p x))) w xi (c_nslip c) sd md (get (ev_gdot (evalEv p x))) = Z3).
      { unfold spin_gap. rewrite slip_zero by apply rigid_gdot. rewrite ER.
        assert (EQ : commutator Z3 Z3 = Z3) by (unfold commutator; rewrite mul3_Z, sub3_Z; reflexivity). rewrite EQ, scal3_Z, sub3_Z, add3_Z.
        pose proof (ev_C_comp p HQ x) as CC. rewrite rigid_xi, turn_emap in CC. fold C0 in CC. rewrite CC.
        pose proof (rotq_rot _ (proj1 HQ) (proj2 HQ)) as R0. fold C0 in R0. clearbody C0. pose proof (turn_rot xi) as RX. pose proof (rot_mul _ _ R0 RX) as R1.
        rewrite (cong_axial _ w (rot_tr _ R1)).
        assert (E : scalv (pb_dt p) (mulv (tr3 (mul3 C0 (turn xi))) w) = xi).
        { rewrite tr3_mul, mulv_mul, <- mulv_scalv. fold xi. pose proof (turn_axis xi HW) as TA. rewrite <- TA at 2. rewrite <- mulv_mul.
          destruct RX as [[_ RX] _]. rewrite RX. apply mulv_I. }
        rewrite <- E at 1. generalize (mulv (tr3 (mul3 C0 (turn xi))) w) (pb_dt p). clear. intros u y. unfold scalv. un3. meq; ring. }
      rewrite EG in RW. destruct RW as (W5 & W6 & W7). assert (Q : j = 5%nat \/ j = 6%nat \/ j = 7%nat) by lia.
      destruct Q as [-> | [-> | -> ]]; [rewrite W5|rewrite W6|rewrite W7]; apply Rmult_0_r.
  Qed.
End Rigid.
