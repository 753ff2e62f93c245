(** One point: energy, temperature, bulk modulus, failing calls, sufficient conditions for success. *)
From Coq Require Import List ZArith Bool Lia Reals Lra.
From Verif Require Import Num Arr NumR Util SlipGeom Eos Hard KinVoce KinKMBalD Elast Evptn SpecTensor P_Tensor P_Eos P_Sngl P_Sngl2.
Import ListNotations.
Local Open Scope R_scope.

Lemma innerSvec (s d : list R) :
  vecsInnerSvecDev s d = inner (mk3 (get s 0) (get s 5) (get s 4) (get s 5) (get s 1) (get s 3) (get s 4) (get s 3) (get s 2))
                               (mk3 (get d 0) (get d 5) (get d 4) (get d 5) (get d 1) (get d 3) (get d 4) (get d 3) (get d 2)).
Proof. unfold vecsInnerSvecDev, inner. cbn [a00 a01 a02 a10 a11 a12 a20 a21 a22]. rops. ring. Qed.

Section One.
  Variables (solver : Solver R) (lu : LUSolver R) (m : Mat R) (dt tol : R) (d w vr : list R) (pt pt' : Pt R).
  Hypothesis HK : kin_shapes (m_kin m) (sg_nslip (m_sg m)).
  Hypothesis HS : pt_shapes m pt.

  Lemma sngl_energy : getResponseSngl solver lu m dt tol d w vr pt = (Done, pt') ->
    get (pt_eInt pt') 0 = get (pt_eInt pt) 0 - get vr 3 * get (pt_stress pt) 6 +
      dt * ((get vr 0 + get vr 1) / 2) * ((vecsInnerSvecDev (pt_stress pt) d + vecsInnerSvecDev (pt_stress pt') d) / 2).
  Proof.
    intros H. destruct (sngl_done _ _ _ _ _ _ _ _ _ _ HK HS H) as (h_u & v & nf & gm & Rs). cbv zeta in Rs.
    rewrite (r_eInt _ _ _ _ _ _ _ _ _ _ _ _ _ _ Rs), <- (r_stress _ _ _ _ _ _ _ _ _ _ _ _ _ _ Rs).
    rewrite oneqrtr_R. unfold snglUpd, updateSimple. cbn [u_eNew].
    change (@nsub R RNum) with Rminus. change (@nmul R RNum) with Rmult. field.
  Qed.

  Lemma sngl_tkelv : getResponseSngl solver lu m dt tol d w vr pt = (Done, pt') ->
    pt_tkelv pt' = snglTkelv m vr (pt_eInt pt).
  Proof.
    intros H. destruct (sngl_done _ _ _ _ _ _ _ _ _ _ HK HS H) as (h_u & v & nf & gm & Rs). cbv zeta in Rs.
    exact (r_tkelv _ _ _ _ _ _ _ _ _ _ _ _ _ _ Rs).
  Qed.

  Lemma sngl_sdd : getResponseSngl solver lu m dt tol d w vr pt = (Done, pt') ->
    get (pt_sdd pt') 0 = u_bulkNew (snglUpd m vr (pt_eInt pt) (pt_stress pt)) /\
    el_getGmod (m_el m) = Some (get (pt_sdd pt') 1).
  Proof.
    intros H. destruct (sngl_done _ _ _ _ _ _ _ _ _ _ HK HS H) as (h_u & v & nf & gm & Rs). cbv zeta in Rs.
    rewrite (r_sdd _ _ _ _ _ _ _ _ _ _ _ _ _ _ Rs). split; [reflexivity|].
    exact (r_gmod _ _ _ _ _ _ _ _ _ _ _ _ _ _ Rs).
  Qed.

  Lemma sngl_press : getResponseSngl solver lu m dt tol d w vr pt = (Done, pt') -> 0 < get vr 1 ->
    get (pt_stress pt') 6 = u_press (snglUpd m vr (pt_eInt pt) (pt_stress pt)) +
      pres_coupling (m_el m) (get vr 1) (get (pt_hist pt') 5).
  Proof.
    intros H Hv. destruct (sngl_done _ _ _ _ _ _ _ _ _ _ HK HS H) as (h_u & v & nf & gm & Rs). cbv zeta in Rs.
    rewrite (r_stress _ _ _ _ _ _ _ _ _ _ _ _ _ _ Rs).
    pose proof (r_E _ _ _ _ _ _ _ _ _ _ _ _ _ _ Rs) as EE.
    set (p := snglProb m dt d w vr pt h_u) in *. set (x := so_x _) in *.
    rewrite (pressure_formula p (snd (stateFromX p x)) (fst (stateFromX p x))); try reflexivity.
    - rewrite <- EE. rewrite get_sub by (cbn; lia). reflexivity.
    - exact Hv.
  Qed.

  Lemma sngl_trace : getResponseSngl solver lu m dt tol d w vr pt = (Done, pt') ->
    get (pt_stress pt') 0 + get (pt_stress pt') 1 + get (pt_stress pt') 2 = 0.
  Proof.
    intros H. destruct (sngl_done _ _ _ _ _ _ _ _ _ _ HK HS H) as (h_u & v & nf & gm & Rs). cbv zeta in Rs.
    rewrite (r_stress _ _ _ _ _ _ _ _ _ _ _ _ _ _ Rs). apply stress_out_trace.
  Qed.
End One.

(** A call that does not return normally leaves the point as it was, except that the temperature is
    already written - unless the shear modulus is not positive, which is only found out at the end. *)
Lemma sngl_failed {T} {N : Num T} (solver : Solver T) lu m dt tol d w vr pt o pt' :
  getResponseSngl solver lu m dt tol d w vr pt = (o, pt') -> o <> Done -> el_getGmod (m_el m) <> None ->
  pt' = {| pt_eInt := pt_eInt pt; pt_stress := pt_stress pt; pt_hist := pt_hist pt;
           pt_tkelv := snglTkelv m vr (pt_eInt pt); pt_sdd := pt_sdd pt; pt_mtan := pt_mtan pt |}.
Proof.
  intros H Ho HG. unfold getResponseSngl in H. cbv zeta in H.
  destruct k_updateH as [[h_u nh]|]; [|apply (f_equal snd) in H; symmetry; exact H].
  destruct k_valsOk; cbn [negb] in H; [|apply (f_equal snd) in H; symmetry; exact H].
  destruct so_converged; cbn [negb] in H; [|apply (f_equal snd) in H; symmetry; exact H].
  destruct (pt_mtan pt) as [old|] eqn:EM.
  - destruct mtan_vecds; [|apply (f_equal snd) in H; symmetry; exact H].
    destruct stateFromX. destruct el_getGmod; [|congruence].
    apply (f_equal fst) in H. cbn [fst] in H. congruence.
  - destruct stateFromX. destruct el_getGmod; [|congruence].
    apply (f_equal fst) in H. cbn [fst] in H. congruence.
Qed.

(** when a call without tangent succeeds *)
Lemma sngl_succeeds {T} {N : Num T} (solver : Solver T) lu m dt tol d w vr pt h_u nh gmod :
  k_updateH (m_kin m) (sub (pt_hist pt) iHistLbH (k_nH (m_kin m))) dt
     (sub (pt_hist pt) (iHistLbGdot (k_nH (m_kin m))) (sg_nslip (m_sg m))) = Some (h_u, nh) ->
  k_valsOk (m_kin m) (u_press (snglUpd m vr (pt_eInt pt) (pt_stress pt))) (snglTkelv m vr (pt_eInt pt)) h_u = true ->
  so_converged (solver 8%nat (computeRJ (snglProb m dt d w vr pt h_u)) tol 200%nat (tab 8 (fun _ => nZ 0))) = true ->
  pt_mtan pt = None -> el_getGmod (m_el m) = Some gmod ->
  exists pt', getResponseSngl solver lu m dt tol d w vr pt = (Done, pt').
Proof.
  intros H1 H2 H3 H4 H5. unfold getResponseSngl. cbv zeta.
  rewrite H1, H2, H4. cbn [negb]. rewrite H3. cbn [negb].
  destruct stateFromX. rewrite H5. eexists; reflexivity.
Qed.
