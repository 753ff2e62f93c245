(** The USE_DPEFF build and the default build do the same except for two history values per point. *)
From Coq Require Import List ZArith Bool Lia PeanoNat.
From Verif Require Import Num Arr Util SlipGeom Eos Hard Elast Evptn MatModel EvptnDp P_Batch P_Batch2 P_Batch3 P_Api P_Dp.
Import ListNotations.

Section B.
  Context {T : Type} {N : Num T}.

  Definition hsim (h h' : list T) : Prop :=
    length h = length h' /\ forall k, (2 <= k)%nat -> nth_error h k = nth_error h' k.

  Lemma hsim_refl h : hsim h h.
  Proof. split; auto. Qed.

  Lemma hsim_upd h h' j x : hsim h h' -> hsim (upd h j x) (upd h' j x).
  Proof.
    intros [L E]. split; [now rewrite !upd_length|]. intros k Hk.
    destruct (Nat.eq_dec j k) as [->|Hjk].
    - destruct (Nat.lt_ge_cases k (length h)).
      + rewrite !nth_error_upd_same by lia. reflexivity.
      + rewrite (proj2 (nth_error_None (upd h k x) k)), (proj2 (nth_error_None (upd h' k x) k)) by (rewrite upd_length; lia). reflexivity.
    - rewrite !nth_error_upd_other by assumption. now apply E.
  Qed.
  Lemma hsim_upd2 h h' j x y : (j < 2)%nat -> hsim h h' -> hsim (upd h j x) (upd h' j y).
  Proof.
    intros Hj [L E]. split; [now rewrite !upd_length|]. intros k Hk.
    rewrite !nth_error_upd_other by lia. now apply E.
  Qed.
  Lemma hsim_updl v : forall h h' j, hsim h h' -> hsim (updl h j v) (updl h' j v).
  Proof. induction v as [|x v IH]; intros h h' j H; cbn [updl]; [assumption|]. apply IH. now apply hsim_upd. Qed.
  Lemma hsim_sub h h' j n : (2 <= j)%nat -> hsim h h' -> sub h j n = sub h' j n.
  Proof. intros Hj [_ E]. apply sub_ext. intros k Hk. apply E. lia. Qed.

  Lemma hsim_out nH h h' e q hu (v v' : Ev T) dt flow nf :
    hsim h h' -> ev_gdot v = ev_gdot v' ->
    hsim (hist_out nH h e q hu v dt flow nf) (hist_out nH h' e q hu v' dt flow nf).
  Proof.
    intros H E. unfold hist_out. cbv zeta. rewrite E.
    apply hsim_upd, hsim_upd. apply hsim_upd2; [unfold iHistA_shrEff; lia|].
    apply hsim_upd2; [unfold iHistA_shrateEff; lia|]. now repeat apply hsim_updl.
  Qed.

  Definition psim (p p' : Pt T) : Prop :=
    pt_eInt p = pt_eInt p' /\ pt_stress p = pt_stress p' /\ hsim (pt_hist p) (pt_hist p') /\ pt_tkelv p = pt_tkelv p' /\
    pt_sdd p = pt_sdd p' /\ pt_mtan p = pt_mtan p'.

  Lemma sngl_sim solver lu m dt tol d w vr p p' : psim p p' ->
    fst (getResponseSngl_dp solver lu m dt tol d w vr p') = fst (getResponseSngl solver lu m dt tol d w vr p) /\
    psim (snd (getResponseSngl solver lu m dt tol d w vr p)) (snd (getResponseSngl_dp solver lu m dt tol d w vr p')).
  Proof.
    intros (E1 & E2 & H & E4 & E5 & E6).
    unfold getResponseSngl, getResponseSngl_dp. cbv zeta.
    assert (HH : sub (pt_hist p') iHistLbH (k_nH (m_kin m)) = sub (pt_hist p) iHistLbH (k_nH (m_kin m)))
      by (symmetry; apply hsim_sub; [unfold iHistLbH; lia | assumption]).
    assert (HG : sub (pt_hist p') (iHistLbGdot (k_nH (m_kin m))) (sg_nslip (m_sg m)) = sub (pt_hist p) (iHistLbGdot (k_nH (m_kin m))) (sg_nslip (m_sg m)))
      by (symmetry; apply hsim_sub; [unfold iHistLbGdot, iHistLbH; lia | assumption]).
    assert (HE : sub (pt_hist p') iHistLbE 5 = sub (pt_hist p) iHistLbE 5)
      by (symmetry; apply hsim_sub; [unfold iHistLbE; lia | assumption]).
    assert (HQ : snglQuatN (pt_hist p') = snglQuatN (pt_hist p))
      by (unfold snglQuatN; f_equal; symmetry; apply hsim_sub; [unfold iHistLbQ, iHistLbE; lia | assumption]).
    rewrite HH, HG.
    destruct k_updateH as [[h_u nh]|]; [|cbn [fst snd]; unfold psim; cbn; rewrite E1; auto 10].
    rewrite <- E1, <- E2.
    destruct k_valsOk; cbn [negb]; [|cbn [fst snd]; unfold psim; cbn; auto 10].
    assert (EP : snglProb m dt d w vr p' h_u = snglProb m dt d w vr p h_u).
    { unfold snglProb. now rewrite <- E1, <- E2, HE, HQ. }
    rewrite EP. set (pb := snglProb m dt d w vr p h_u). clearbody pb. set (r := solver _ _ _ _ _). clearbody r.
    destruct (so_converged r); cbn [negb]; [|cbn [fst snd]; unfold psim; cbn; auto 10].
    rewrite <- E6.
    destruct (pt_mtan p) as [old|] eqn:EM.
    - destruct (mtan_vecds lu pb (so_x r)); [|cbn [fst snd]; unfold psim; cbn; auto 10].
      destruct (stateFromX pb (so_x r)) as [e_u q_u]. rewrite HQ.
      assert (S8 : forall flow nf, hsim (hist_out (k_nH (m_kin m)) (pt_hist p) e_u q_u h_u (evalEv pb (so_x r)) dt flow nf)
                 (hist_out (k_nH (m_kin m)) (pt_hist p') e_u q_u h_u (evalEv_dp pb (so_x r)) dt flow nf)) by (intros; now apply hsim_out).
      destruct (el_getGmod (m_el m)); cbn [fst snd]; (split; [reflexivity|]); unfold psim; cbn [pt_eInt pt_stress pt_hist pt_tkelv pt_sdd pt_mtan evalEv_dp ev_disRate];
        destruct nltb; (split; [now rewrite ?E1 | split; [now rewrite ?E2 | split; [try apply hsim_updl; apply S8 | split; [reflexivity | split; [now rewrite ?E5 | reflexivity]]]]]).
    - destruct (stateFromX pb (so_x r)) as [e_u q_u]. rewrite HQ.
      assert (S8 : forall flow nf, hsim (hist_out (k_nH (m_kin m)) (pt_hist p) e_u q_u h_u (evalEv pb (so_xlast r)) dt flow nf)
                 (hist_out (k_nH (m_kin m)) (pt_hist p') e_u q_u h_u (evalEv_dp pb (so_xlast r)) dt flow nf)) by (intros; now apply hsim_out).
      destruct (el_getGmod (m_el m)); cbn [fst snd]; (split; [reflexivity|]); unfold psim; cbn [pt_eInt pt_stress pt_hist pt_tkelv pt_sdd pt_mtan evalEv_dp ev_disRate];
        destruct nltb; (split; [now rewrite ?E1 | split; [now rewrite ?E2 | split; [try apply hsim_updl; apply S8 | split; [reflexivity | split; [now rewrite ?E5 | reflexivity]]]]]).
  Qed.
End B.
