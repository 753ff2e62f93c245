(** One point of a model with cubic elasticity and kinetics that do not read pressure and temperature: what depends on the thermal
    state (C76). *)
From Coq Require Import List ZArith Bool Lia PeanoNat FunctionalExtensionality.
From Verif Require Import Num Arr Util SlipGeom Eos Hard Elast Evptn MatModel Cases P_Sngl P_Sngl2 P_Batch P_Batch2 P_Batch3 P_Api P_Builtin SpecApi P_Hist SpecBatch P_Batch4 P_Gen P_State.
Import ListNotations.
Local Open Scope nat_scope.

Section S.
  Context {T : Type} {N : Num T}.
  (** the problem with another energy, pressure and temperature *)
  Definition rethermo (p : Prob T) (e pr tk : T) : Prob T :=
    {| pb_sg := pb_sg p; pb_kin := pb_kin p; pb_el := pb_el p; pb_dt := pb_dt p; pb_detV := pb_detV p; pb_eVref := e; pb_p_EOS := pr; pb_tK := tk;
       pb_a_V := pb_a_V p; pb_dt_ri := pb_dt_ri p; pb_a_V_ri := pb_a_V_ri p; pb_detV_ri := pb_detV_ri p;
       pb_hdn_scale := pb_hdn_scale p; pb_epsdot_scale_inv := pb_epsdot_scale_inv p; pb_rotincr_scale_inv := pb_rotincr_scale_inv p;
       pb_kin_vals := pb_kin_vals p; pb_e_vecd_n := pb_e_vecd_n p; pb_Cn_quat := pb_Cn_quat p; pb_d_vecd_sm := pb_d_vecd_sm p; pb_w_veccp_sm := pb_w_veccp_sm p |}.
  Definition setT (v : Ev T) (t : list T) : Ev T :=
    {| ev_edot := ev_edot v; ev_e_f := ev_e_f v; ev_xi := ev_xi v; ev_C_quat := ev_C_quat v; ev_C_matx := ev_C_matx v; ev_qr5x5 := ev_qr5x5 v;
       ev_d_lat := ev_d_lat v; ev_w_lat := ev_w_lat v; ev_T := t; ev_taua := ev_taua v; ev_gdot := ev_gdot v; ev_dgdot_dtau := ev_dgdot_dtau v;
       ev_pl_vecd := ev_pl_vecd v; ev_pl_wvec := ev_pl_wvec v; ev_A_e := ev_A_e v; ev_ee_wvec := ev_ee_wvec v; ev_ee_fac := ev_ee_fac v;
       ev_disRate := ev_disRate v; ev_shrateEff := ev_shrateEff v |}.

  Section P.
    Variables (p : Prob T) (e pr tk : T).
    Hypothesis HC : el_hex (pb_el p) = false \/ e = pb_eVref p.
    Let p' := rethermo p e pr tk.
    Lemma T_shape x : exists A a b, length A = 5 /\ elastNEtoT p x = A ++ [a] /\ elastNEtoT p' x = A ++ [b].
    Proof.
      unfold elastNEtoT, el_eval. cbv zeta. unfold p'. cbn [rethermo pb_el pb_a_V pb_a_V_ri pb_eVref pb_p_EOS]. destruct (el_hex (pb_el p)).
      - destruct HC as [X| -> ]; [discriminate X|].
        set (A := vecsVAdiagB 5 _ _). assert (L : length A = 5) by reflexivity. clearbody A. generalize (nmul (nopp sqr3) (nexp (nmul sqr3 (get (vecsVxa 5 (pb_a_V_ri p) x ++ [nmul sqr3 (nlog (pb_a_V p))]) iSvecS)))) as z. intros z.
        destruct A as [|x0 [|x1 [|x2 [|x3 [|x4 [|]]]]]]; try discriminate L. eexists [x0; _; x2; x3; x4], _, _. split; [reflexivity|]. split; reflexivity.
      - eexists _, _, _. split; [|split; reflexivity]. reflexivity.
    Qed.
    Lemma taua_same (A : list T) a b ns P : length A = 5 -> vecsVaTM 5 ns (A ++ [a]) P = vecsVaTM 5 ns (A ++ [b]) P.
    Proof. intros L. destruct A as [|x0 [|x1 [|x2 [|x3 [|x4 [|]]]]]]; try discriminate L. reflexivity. Qed.
    Lemma ev_re x : evalEv p' x = setT (evalEv p x) (ev_T (evalEv p' x)).
    Proof.
      set (t := ev_T (evalEv p' x)). 
      assert (X : forall ef, vecsVaTM 5 (sg_nslip (pb_sg p)) (elastNEtoT p' ef) (sg_P (pb_sg p)) = vecsVaTM 5 (sg_nslip (pb_sg p)) (elastNEtoT p ef) (sg_P (pb_sg p))).
      { intros ef. destruct (T_shape ef) as (A & a & b & L & EA & EB). rewrite EA, EB. now apply taua_same. }
      subst t. unfold evalEv, setT. cbv zeta. cbn [ev_edot ev_e_f ev_xi ev_C_quat ev_C_matx ev_qr5x5 ev_d_lat ev_w_lat ev_T ev_taua ev_gdot ev_dgdot_dtau ev_pl_vecd ev_pl_wvec ev_A_e ev_ee_wvec ev_ee_fac ev_disRate ev_shrateEff].
      change (pb_sg p') with (pb_sg p). change (pb_kin p') with (pb_kin p). change (pb_kin_vals p') with (pb_kin_vals p). change (pb_e_vecd_n p') with (pb_e_vecd_n p).
      rewrite X. reflexivity.
    Qed.
    Lemma jac0_re v t : jacobian0 p' (setT v t) = jacobian0 p v. Proof. reflexivity. Qed.
    Lemma RJ_re : computeRJ p' = computeRJ p.
    Proof.
      apply functional_extensionality. intros x. unfold computeRJ, residual, jacobian. rewrite ev_re. cbv zeta. rewrite jac0_re. reflexivity.
    Qed.
    Lemma state_re x : stateFromX p' x = stateFromX p x. Proof. reflexivity. Qed.
    Lemma lu_re lu x : (mtan_vecds lu p' x = None) <-> (mtan_vecds lu p x = None).
    Proof.
      unfold mtan_vecds. rewrite ev_re. cbv zeta. rewrite jac0_re. change (mtan_rhs_T (setT (evalEv p x) (ev_T (evalEv p' x)))) with (mtan_rhs_T (evalEv p x)).
      destruct (lu 8 _ _ 5); [|tauto]. change (dxi_parts p' (setT (evalEv p x) (ev_T (evalEv p' x)))) with (dxi_parts p (evalEv p x)).
      destruct (dxi_parts p (evalEv p x)) as [[? ?] ?]. split; discriminate.
    Qed.
    (** the stress: only the pressure differs *)
    Lemma stress_re q ef : firstn 6 (stress_out q (elastNEtoC p' ef)) = firstn 6 (stress_out q (elastNEtoC p ef)).
    Proof.
      destruct (T_shape ef) as (A & a & b & L & EA & EB). unfold elastNEtoC. rewrite EA, EB. unfold p'. cbn [rethermo pb_el pb_a_V pb_a_V_ri pb_detV_ri]. clear - L.
      destruct A as [|x0 [|x1 [|x2 [|x3 [|x4 [|]]]]]]; try discriminate L. reflexivity.
    Qed.
  End P.

  (** kinetics that do not read pressure and temperature *)
  Definition athermal (k : Kinetics T) : Prop := forall p t p' t' h, k_getVals k p t h = k_getVals k p' t' h /\ k_valsOk k p t h = k_valsOk k p' t' h.
  Definition tagree (p q : Pt T) : Prop := hagree (pt_hist p) (pt_hist q) /\ length (pt_stress p) = 7 /\ length (pt_stress q) = 7 /\ length (pt_sdd p) = 2 /\ length (pt_sdd q) = 2 /\
    match pt_mtan p, pt_mtan q with None, None => True | Some _, Some _ => True | _, _ => False end.
  (** deviatoric stress, history, shear modulus *)
  Definition tsame (p q : Pt T) : Prop := firstn 6 (pt_stress p) = firstn 6 (pt_stress q) /\ pt_hist p = pt_hist q /\ nth_error (pt_sdd p) 1 = nth_error (pt_sdd q) 1.

  Lemma updl7 (l v : list T) : length l = 7 -> length v = 7 -> updl l 0 v = v.
  Proof. intros L L'. destruct l as [|? [|? [|? [|? [|? [|? [|? [|]]]]]]]]; try discriminate L. destruct v as [|? [|? [|? [|? [|? [|? [|? [|]]]]]]]]; try discriminate L'. reflexivity. Qed.

  Lemma sngl_gen solver lu m m' dt tol d w vr (p q : Pt T) : m_sg m = m_sg m' -> m_kin m = m_kin m' -> m_el m = m_el m' ->
    (forall h, k_getVals (m_kin m) (u_press (snglUpd m vr (pt_eInt p) (pt_stress p))) (snglTkelv m vr (pt_eInt p)) h = k_getVals (m_kin m) (u_press (snglUpd m' vr (pt_eInt q) (pt_stress q))) (snglTkelv m' vr (pt_eInt q)) h /\
      k_valsOk (m_kin m) (u_press (snglUpd m vr (pt_eInt p) (pt_stress p))) (snglTkelv m vr (pt_eInt p)) h = k_valsOk (m_kin m) (u_press (snglUpd m' vr (pt_eInt q) (pt_stress q))) (snglTkelv m' vr (pt_eInt q)) h) ->
    el_hex (m_el m) = false \/ u_eNew (snglUpd m' vr (pt_eInt q) (pt_stress q)) = u_eNew (snglUpd m vr (pt_eInt p) (pt_stress p)) -> tagree p q ->
    fst (getResponseSngl solver lu m dt tol d w vr p) = fst (getResponseSngl solver lu m' dt tol d w vr q) /\
    (fst (getResponseSngl solver lu m dt tol d w vr p) = Done -> tsame (snd (getResponseSngl solver lu m dt tol d w vr p)) (snd (getResponseSngl solver lu m' dt tol d w vr q))).
  Proof.
    intros E1 E2 E3 HA HX (A3 & S1 & S2 & D1 & D2 & A6). unfold getResponseSngl. cbv zeta.
    assert (SP : forall hu, snglProb m' dt d w vr q hu = rethermo (snglProb m dt d w vr p hu)
      (u_eNew (snglUpd m' vr (pt_eInt q) (pt_stress q))) (u_press (snglUpd m' vr (pt_eInt q) (pt_stress q))) (snglTkelv m' vr (pt_eInt q))).
    { intros hu. unfold snglProb, snglQuatN, mkProb, rethermo. cbv zeta. rewrite <- E1, <- E2, <- E3.
      rewrite <- (proj1 (HA hu)).
      rewrite <- (hagree_sub _ _ iHistLbE 5 A3), <- (hagree_sub _ _ iHistLbQ 4 A3) by (unfold iHistLbE, iHistLbQ; lia). reflexivity. }
    assert (SQ : snglQuatN (pt_hist p) = snglQuatN (pt_hist q)) by (unfold snglQuatN; rewrite (hagree_sub _ _ _ _ A3) by (unfold iHistLbQ; lia); reflexivity).
    rewrite <- E1, <- E2, <- E3.
    rewrite <- SQ, <- (hagree_sub _ _ iHistLbH (k_nH (m_kin m)) A3), <- (hagree_sub _ _ (iHistLbGdot (k_nH (m_kin m))) (sg_nslip (m_sg m)) A3) by (unfold iHistLbH, iHistLbGdot, iHistLbH; lia).
    destruct (k_updateH (m_kin m) _ dt _) as [[h_u nh]|]; [|split; [reflexivity|discriminate]].
    rewrite <- (proj2 (HA h_u)).
    destruct (k_valsOk _ _ _ _); cbn [negb]; [|split; [reflexivity|discriminate]].
    rewrite SP. set (pr := snglProb m dt d w vr p h_u).
    assert (HC : el_hex (pb_el pr) = false \/ u_eNew (snglUpd m' vr (pt_eInt q) (pt_stress q)) = pb_eVref pr) by exact HX. clearbody pr.
    match goal with |- context [rethermo pr ?a ?b ?c] => set (pr' := rethermo pr a b c);
      pose proof (RJ_re pr a b c HC : computeRJ pr' = computeRJ pr) as R1; pose proof (lu_re pr a b c HC lu : forall x, mtan_vecds lu pr' x = None <-> mtan_vecds lu pr x = None) as R2;
      pose proof (stress_re pr a b c HC : forall u x, firstn 6 (stress_out u (elastNEtoC pr' x)) = firstn 6 (stress_out u (elastNEtoC pr x))) as R3;
      pose proof (ev_re pr a b c HC : forall x, evalEv pr' x = setT (evalEv pr x) (ev_T (evalEv pr' x))) as R4;
      assert (R5 : forall x, stateFromX pr' x = stateFromX pr x) by reflexivity; assert (R6 : pb_hdn_scale pr' = pb_hdn_scale pr) by reflexivity end.
    clearbody pr'. rewrite R1, R5, R6. set (r := solver _ _ _ _ _). clearbody r.
    destruct (so_converged r); cbn [negb]; [|split; [reflexivity|discriminate]].
    assert (L7 : forall u x, length (stress_out u x) = 7) by reflexivity.
    assert (HO : forall nH e u hu (v : Ev T) y t0 f k, hist_out nH (pt_hist p) e u hu v y f k = hist_out nH (pt_hist q) e u hu (setT v t0) y f k).
    { intros nH e u hu v y t0 f k. rewrite (hagree_out nH _ _ e u hu v y f k A3). reflexivity. }
    destruct (pt_mtan p) as [l|]; destruct (pt_mtan q) as [l'|]; try contradiction.
    - destruct (mtan_vecds lu pr (so_x r)) as [mv|] eqn:M1; destruct (mtan_vecds lu pr' (so_x r)) as [mv'|] eqn:M2.
      + destruct (stateFromX pr (so_x r)) as [e_u q_u]. rewrite R4.
        destruct (el_getGmod (m_el m)); [|split; [reflexivity|discriminate]]. cbn [fst snd pt_stress pt_mtan]. split; [reflexivity|]. intros _.
        unfold tsame. cbn [pt_stress pt_hist pt_sdd]. rewrite !updl7 by (assumption || apply L7). rewrite R3.
        rewrite !sdd_all by assumption. rewrite <- HO. split; [reflexivity|split; reflexivity].
      + rewrite (proj1 (R2 _) M2) in M1. discriminate M1.
      + rewrite (proj2 (R2 _) M1) in M2. discriminate M2.
      + split; [reflexivity|discriminate].
    - destruct (stateFromX pr (so_x r)) as [e_u q_u]. rewrite R4.
      destruct (el_getGmod (m_el m)); [|split; [reflexivity|discriminate]]. cbn [fst snd pt_stress pt_mtan]. split; [reflexivity|]. intros _.
      unfold tsame. cbn [pt_stress pt_hist pt_sdd]. rewrite !updl7 by (assumption || apply L7). rewrite R3.
      rewrite !sdd_all by assumption. rewrite <- HO. split; [reflexivity|split; reflexivity].
  Qed.
  Lemma sngl_thermo solver lu m m' dt tol d w vr (p q : Pt T) : m_sg m = m_sg m' -> m_kin m = m_kin m' -> m_el m = m_el m' -> athermal (m_kin m) -> el_hex (m_el m) = false ->
    tagree p q ->
    fst (getResponseSngl solver lu m dt tol d w vr p) = fst (getResponseSngl solver lu m' dt tol d w vr q) /\
    (fst (getResponseSngl solver lu m dt tol d w vr p) = Done -> tsame (snd (getResponseSngl solver lu m dt tol d w vr p)) (snd (getResponseSngl solver lu m' dt tol d w vr q))).
  Proof. intros E1 E2 E3 HA HX. apply sngl_gen; try assumption; [intros h; apply HA|now left]. Qed.
  (** kinetics that read the temperature but not the pressure *)
  Definition pressureless (k : Kinetics T) : Prop := forall p p' t h, k_getVals k p t h = k_getVals k p' t h /\ k_valsOk k p t h = k_valsOk k p' t h.
  Lemma sngl_temp solver lu m m' dt tol d w vr (p q : Pt T) : m_sg m = m_sg m' -> m_kin m = m_kin m' -> m_el m = m_el m' -> pressureless (m_kin m) ->
    el_hex (m_el m) = false \/ u_eNew (snglUpd m' vr (pt_eInt q) (pt_stress q)) = u_eNew (snglUpd m vr (pt_eInt p) (pt_stress p)) ->
    snglTkelv m vr (pt_eInt p) = snglTkelv m' vr (pt_eInt q) -> tagree p q ->
    fst (getResponseSngl solver lu m dt tol d w vr p) = fst (getResponseSngl solver lu m' dt tol d w vr q) /\
    (fst (getResponseSngl solver lu m dt tol d w vr p) = Done -> tsame (snd (getResponseSngl solver lu m dt tol d w vr p)) (snd (getResponseSngl solver lu m' dt tol d w vr q))).
  Proof. intros E1 E2 E3 HA HX ET. apply sngl_gen; try assumption. intros h. rewrite <- ET. apply HA. Qed.
End S.
