(** The state of a material point: what a call reads of the output arrays (C66). *)
From Coq Require Import List ZArith Bool Lia PeanoNat.
From Verif Require Import Num Arr Util SlipGeom Eos Hard Elast Evptn MatModel Cases P_Sngl P_Sngl2 P_Batch P_Batch2 P_Batch3 P_Api P_Builtin SpecApi P_Hist SpecBatch P_Batch4 P_Gen.
Import ListNotations.
Local Open Scope nat_scope.

Section S.
  Context {T : Type} {N : Num T}.
  Lemma updl_cons (v : list T) : forall a l i, updl (a :: l) (S i) v = a :: updl l i v.
  Proof. induction v as [|x v IH]; intros a l i; [reflexivity|]. cbn [updl upd]. rewrite IH. reflexivity. Qed.
  (** histories that agree except at the entries 0, 2, 3 *)
  Definition hagree (h h' : list T) : Prop := exists a0 a2 a3 b0 b2 b3 x r, h = a0 :: x :: a2 :: a3 :: r /\ h' = b0 :: x :: b2 :: b3 :: r.
  Lemma hagree_intro h h' : 4 <= length h -> length h = length h' -> (forall k, k <> 0 -> k <> 2 -> k <> 3 -> nth_error h k = nth_error h' k) -> hagree h h'.
  Proof.
    intros L4 L H. destruct h as [|a0 [|x [|a2 [|a3 r]]]]; cbn in L4; try lia. destruct h' as [|b0 [|y [|b2 [|b3 r']]]]; cbn in L; try lia.
    pose proof (H 1 ltac:(lia) ltac:(lia) ltac:(lia)) as E. cbn in E. assert (y = x) by congruence. subst y.
    assert (r' = r) by (symmetry; apply lext; intros j; apply (H (S (S (S (S j))))); lia). subst r'. exists a0, a2, a3, b0, b2, b3, x, r. auto.
  Qed.
  Lemma hagree_sub h h' i n : hagree h h' -> 4 <= i -> sub h i n = sub h' i n.
  Proof. intros (a0 & a2 & a3 & b0 & b2 & b3 & x & r & -> & ->) Hi. do 4 (destruct i as [|i]; [lia|]). reflexivity. Qed.
  Lemma hagree_out nH h h' e q hu (v : Ev T) dt f k : hagree h h' -> hist_out nH h e q hu v dt f k = hist_out nH h' e q hu v dt f k.
  Proof.
    intros (a0 & a2 & a3 & b0 & b2 & b3 & x & r & -> & ->). unfold hist_out, iHistLbE, iHistLbQ, iHistLbH, iHistLbGdot, iHistA_shrateEff, iHistA_shrEff, iHistA_flowStr, iHistA_nFEval. cbv zeta.
    change (iHistLbH + nH) with (S (S (S (S (9 + nH))))). rewrite !updl_cons. reflexivity.
  Qed.
  Lemma mtan_len p bk (mv : list T) : length (mtanSD_of p bk mv) = 36. Proof. reflexivity. Qed.

  (** what a call reads of the point *)
  Definition pagree (p q : Pt T) : Prop := pt_eInt p = pt_eInt q /\ pt_stress p = pt_stress q /\ hagree (pt_hist p) (pt_hist q) /\
    length (pt_sdd p) = 2 /\ length (pt_sdd q) = 2 /\
    match pt_mtan p, pt_mtan q with None, None => True | Some l, Some l' => length l = 36 /\ length l' = 36 | _, _ => False end.
  Lemma sdd_all (l : list T) x y : length l = 2 -> upd (upd l 0 x) 1 y = [x; y].
  Proof. destruct l as [|? [|? [|]]]; try discriminate. reflexivity. Qed.

  Lemma sngl_state solver lu m dt tol d w vr (p q : Pt T) : pagree p q ->
    fst (getResponseSngl solver lu m dt tol d w vr p) = fst (getResponseSngl solver lu m dt tol d w vr q) /\
    (fst (getResponseSngl solver lu m dt tol d w vr p) = Done -> getResponseSngl solver lu m dt tol d w vr p = getResponseSngl solver lu m dt tol d w vr q).
  Proof.
    intros (A1 & A2 & A3 & A4 & A5 & A6). unfold getResponseSngl. cbv zeta.
    assert (SP : forall hu, snglProb m dt d w vr p hu = snglProb m dt d w vr q hu).
    { intros hu. unfold snglProb, snglQuatN. rewrite A1, A2, (hagree_sub _ _ _ _ A3), (hagree_sub _ _ iHistLbQ _ A3) by (unfold iHistLbE, iHistLbQ; lia). reflexivity. }
    assert (SQ : snglQuatN (pt_hist p) = snglQuatN (pt_hist q)) by (unfold snglQuatN; rewrite (hagree_sub _ _ _ _ A3) by (unfold iHistLbQ; lia); reflexivity).
    rewrite A1, A2, SQ, (hagree_sub _ _ iHistLbH _ A3), (hagree_sub _ _ (iHistLbGdot (k_nH (m_kin m))) _ A3) by (unfold iHistLbH, iHistLbGdot, iHistLbH; lia).
    destruct (k_updateH (m_kin m) _ dt _) as [[h_u nh]|]; [|split; [reflexivity|discriminate]].
    destruct (k_valsOk _ _ _ _); cbn [negb]; [|split; [reflexivity|discriminate]].
    rewrite SP. set (pr := snglProb m dt d w vr q h_u). set (r := solver _ _ _ _ _).
    destruct (so_converged r); cbn [negb]; [|split; [reflexivity|discriminate]].
    destruct (pt_mtan p) as [l|] eqn:EP; destruct (pt_mtan q) as [l'|] eqn:EQ; try contradiction.
    - destruct A6 as [L1 L2]. destruct (mtan_vecds lu pr (so_x r)) as [mv|]; [|split; [reflexivity|discriminate]].
      destruct (stateFromX pr (so_x r)) as [e_u q_u]. rewrite (hagree_out _ _ _ _ _ _ _ _ _ _ A3).
      rewrite !(gupdl_all (mtanSD_of _ _ _)) by (rewrite mtan_len; congruence).
      destruct (el_getGmod (m_el m)); [|split; [reflexivity|discriminate]]. cbn [fst pt_stress pt_mtan]. rewrite !sdd_all by assumption. split; [reflexivity|]. intros _. reflexivity.
    - destruct (stateFromX pr (so_x r)) as [e_u q_u]. rewrite (hagree_out _ _ _ _ _ _ _ _ _ _ A3).
      destruct (el_getGmod (m_el m)); [|split; [reflexivity|discriminate]]. cbn [fst pt_stress pt_mtan]. rewrite !sdd_all by assumption. split; [reflexivity|]. intros _. reflexivity.
  Qed.
End S.
