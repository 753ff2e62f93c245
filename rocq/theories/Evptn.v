(** Model of ECMech_evptn.h:405-1246: the crystal update problem and the single-point response. *)
From Coq Require Import List ZArith Bool.
From Verif Require Import Num Util SlipGeom Eos Hard Elast.
Import ListNotations.

(** [SNLS_LUP_SolveX<n>(a, x, nRHS)]: solves for nRHS right-hand sides stored as the rows of the
    second argument. Not in the repository, so an arbitrary function; None models err != 0. *)
Definition LUSolver (T : Type) := nat -> list T -> list T -> nat -> option (list T).

(* ECMech_evptn.h:19-28, 38-39 *)
Definition numHistAux := 4%nat.
Definition iHistA_shrateEff := 0%nat.
Definition iHistA_shrEff := 1%nat.
Definition iHistA_flowStr := 2%nat.
Definition iHistA_nFEval := 3%nat.
Definition iHistLbE := 4%nat.
Definition iHistLbQ := 9%nat.     (* numHistAux + ntvec *)
Definition iHistLbH := 13%nat.    (* numHistAux + ntvec + qdim *)
Definition iHistLbGdot (nH : nat) : nat := (iHistLbH + nH)%nat.
Definition numHist (nH nslip : nat) : nat := (iHistLbH + nH + nslip)%nat.

Section Evptn.
  Context {T : Type} {N : Num T}.
  Local Open Scope num_scope.

  (** members of EvptnUpdstProblem, ECMech_evptn.h:958-987 *)
  Record Prob := {
    pb_sg : SlipGeom T; pb_kin : Kinetics T; pb_el : Elast T;
    pb_dt : T; pb_detV : T; pb_eVref : T; pb_p_EOS : T; pb_tK : T;
    pb_a_V : T; pb_dt_ri : T; pb_a_V_ri : T; pb_detV_ri : T;
    pb_hdn_scale : T; pb_epsdot_scale_inv : T; pb_rotincr_scale_inv : T;
    pb_kin_vals : list T;
    pb_e_vecd_n : list T; pb_Cn_quat : list T; pb_d_vecd_sm : list T; pb_w_veccp_sm : list T
  }.

  (* ECMech_evptn.h:414-457 *)
  Definition mkProb (sg : SlipGeom T) (kin : Kinetics T) (el : Elast T)
      (dt detV eVref p_EOS tK : T) (h_state e_vecd_n Cn_quat d_vecd_sm w_veccp_sm : list T) : Prob :=
    let dt_ri := nZ 1 / dt in
    let a_V := npow detV onethird in
    let kv := k_getVals kin p_EOS tK h_state in
    let kin_vals := fst kv in
    let hdn_scale := snd kv in
    let adots_ref := k_getFixedRefRate kin kin_vals in
    let eff := vecNorm 5 d_vecd_sm in
    let epsdot_scale_inv :=
      if eff <? epsdot_scl_nzeff * adots_ref then one / adots_ref
      else nmin (one / eff) (nlit 1 6 * dt) in
    {| pb_sg := sg; pb_kin := kin; pb_el := el;
       pb_dt := dt; pb_detV := detV; pb_eVref := eVref; pb_p_EOS := p_EOS; pb_tK := tK;
       pb_a_V := a_V; pb_dt_ri := dt_ri; pb_a_V_ri := nZ 1 / a_V; pb_detV_ri := nZ 1 / detV;
       pb_hdn_scale := hdn_scale; pb_epsdot_scale_inv := epsdot_scale_inv;
       pb_rotincr_scale_inv := dt_ri * epsdot_scale_inv;
       pb_kin_vals := kin_vals;
       pb_e_vecd_n := e_vecd_n; pb_Cn_quat := Cn_quat;
       pb_d_vecd_sm := d_vecd_sm; pb_w_veccp_sm := w_veccp_sm |}.

  (** [&(x[_i_sub_e])] and [&(x[_i_sub_r])], ECMech_evptn.h:981-982 *)
  Definition x_e (x : list T) : list T := sub x 0 5.
  Definition x_r (x : list T) : list T := sub x 5 3.

  (* ECMech_evptn.h:494-510; (e_vecd, quat) *)
  Definition stateFromX (p : Prob) (x : list T) : list T * list T :=
    let e_vecd := vecsVapb 5 (vecsVxa 5 e_scale (x_e x)) (pb_e_vecd_n p) in
    let A_quat := emap_to_quat (vecsVxa 3 r_scale (x_r x)) in
    (e_vecd, get_c_quat A_quat (pb_Cn_quat p)).

  (* ECMech_evptn.h:514-533 *)
  Definition elastNEtoT (p : Prob) (e_vecd_f : list T) : list T :=
    let Ee_vecds := vecsVxa 5 (pb_a_V_ri p) e_vecd_f ++ [sqr3 * nlog (pb_a_V p)] in
    el_eval (pb_el p) Ee_vecds (pb_p_EOS p) (pb_eVref p).

  (* ECMech_evptn.h:537-543 *)
  Definition elastNEtoC (p : Prob) (e_vecd_f : list T) : list T :=
    el_getCauchy (elastNEtoT p e_vecd_f) (pb_detV_ri p).

  (** Local variables of computeRJ up to the residual, ECMech_evptn.h:565-640, 656-669.
      The arrays that the C++ guards with [nslip > 0] come out as zeros from empty sums. *)
  Record Ev := {
    ev_edot : list T; ev_e_f : list T; ev_xi : list T;
    ev_C_quat : list T; ev_C_matx : list T; ev_qr5x5 : list T;
    ev_d_lat : list T; ev_w_lat : list T; ev_T : list T;
    ev_taua : list T; ev_gdot : list T; ev_dgdot_dtau : list T;
    ev_pl_vecd : list T; ev_pl_wvec : list T;
    ev_A_e : list T; ev_ee_wvec : list T; ev_ee_fac : T;
    ev_disRate : T; ev_shrateEff : T
  }.

  (* computeRJ up to the residual, ECMech_evptn.h:565-640, 656-669 *)
  Definition evalEv (p : Prob) (x : list T) : Ev :=
    let nslip := sg_nslip (pb_sg p) in
    let edelta := vecsVxa 5 e_scale (x_e x) in
    let e_f := vecsVapb 5 edelta (pb_e_vecd_n p) in
    let edot := vecsVsa 5 edelta (pb_dt_ri p) in
    let xi := vecsVxa 3 r_scale (x_r x) in
    let C_quat := get_c_quat (emap_to_quat xi) (pb_Cn_quat p) in
    let C_matx := quat_to_tensor C_quat in
    let qr := get_rot_mat_vecd C_matx in
    let Tv := elastNEtoT p e_f in
    let taua := vecsVaTM 5 nslip Tv (sg_P (pb_sg p)) in
    let gd := k_evalGdots (pb_kin p) taua (pb_kin_vals p) in
    let gdot := fst (fst gd) in
    let dgdot_dtau := snd (fst gd) in
    let A_e := M35_d_AAoB_dA e_f in
    {| ev_edot := edot; ev_e_f := e_f; ev_xi := xi;
       ev_C_quat := C_quat; ev_C_matx := C_matx; ev_qr5x5 := qr;
       ev_d_lat := vecsVMTa 5 qr (pb_d_vecd_sm p);
       ev_w_lat := vecsVMTa 3 C_matx (pb_w_veccp_sm p);
       ev_T := Tv; ev_taua := taua; ev_gdot := gdot; ev_dgdot_dtau := dgdot_dtau;
       ev_pl_vecd := vecsVMa 5 nslip (sg_P (pb_sg p)) gdot;
       ev_pl_wvec := vecsVMa 3 nslip (sg_Q (pb_sg p)) gdot;
       ev_A_e := A_e;
       ev_ee_wvec := vecsVMa 3 5 A_e edot;
       ev_ee_fac := onehalf * pb_a_V_ri p * pb_a_V_ri p;
       ev_disRate := pb_detV_ri p * vecsyadotb nslip taua gdot;
       ev_shrateEff := vecsssumabs nslip gdot |}.

  (** residual, ECMech_evptn.h:642-654 *)
  Definition residual (p : Prob) (x : list T) : list T :=
    let v := evalEv p x in
    tab 5 (fun i => pb_epsdot_scale_inv p *
                    (pb_a_V_ri p * get (ev_edot v) i + get (ev_pl_vecd v) i - get (ev_d_lat v) i)) ++
    tab 3 (fun i => pb_rotincr_scale_inv p *
                    (get (ev_xi v) i - pb_dt p *
                       (get (ev_w_lat v) i - get (ev_pl_wvec v) i + ev_ee_fac v * get (ev_ee_wvec v) i))).

  (** dpl_deps_symm and dpl_deps_skew, ECMech_evptn.h:682-714 *)
  Definition dgdot_deps (p : Prob) (v : Ev) : list T :=
    let nslip := sg_nslip (pb_sg p) in
    let dtaua_deps := el_multDTDepsT (pb_el p) (sg_P (pb_sg p)) (pb_a_V_ri p) nslip in
    tab2 5 nslip (fun iT iS => get (ev_dgdot_dtau v) iS * get2 nslip dtaua_deps iT iS).
  (* ECMech_evptn.h:682-714 *)
  Definition dpl_deps_symm (p : Prob) (v : Ev) : list T :=
    vecsMABT 5 5 (sg_nslip (pb_sg p)) (sg_P (pb_sg p)) (dgdot_deps p v).
  Definition dpl_deps_skew (p : Prob) (v : Ev) : list T :=
    vecsMABT 3 5 (sg_nslip (pb_sg p)) (sg_Q (pb_sg p)) (dgdot_deps p v).

  (** (dC_quat_dxi_T, dDsm_dxi, dWsm_dxi), ECMech_evptn.h:718-723 *)
  Definition dxi_parts (p : Prob) (v : Ev) : list T * list T * list T :=
    eval_d_dxi_impl_quat (pb_d_vecd_sm p) (pb_w_veccp_sm p) (ev_xi v) (pb_Cn_quat p)
                         (ev_C_matx v) (ev_C_quat v).

  (** Jacobian before scaling, ECMech_evptn.h:725-794 *)
  Definition jacobian0 (p : Prob) (v : Ev) : list T :=
    let '(_, dDsm_dxi, dWsm_dxi) := dxi_parts p v in
    let symm := dpl_deps_symm p v in
    let skew := dpl_deps_skew p v in
    let A_edot := M35_d_AAoB_dA (ev_edot v) in
    let adti := pb_a_V_ri p * pb_dt_ri p in
    let dt_ee_fac := pb_dt p * ev_ee_fac v in
    tab2 8 8 (fun i j =>
      if Nat.ltb i 5 then
        if Nat.ltb j 5 then
          (if Nat.eqb i j then get2 5 symm i j + adti else get2 5 symm i j)
        else - get2 3 dDsm_dxi i (j - 5)
      else
        let iW := (i - 5)%nat in
        if Nat.ltb j 5 then
          pb_dt p * get2 5 skew iW j
            - dt_ee_fac * (get2 5 (ev_A_e v) iW j * pb_dt_ri p - get2 5 A_edot iW j)
        else
          let a := - pb_dt p * get2 3 dWsm_dxi iW (j - 5) in
          if Nat.eqb i j then a + one else a).

  (** Jacobian after scaling, ECMech_evptn.h:914-948 *)
  Definition jacobian (p : Prob) (x : list T) : list T :=
    let J0 := jacobian0 p (evalEv p x) in
    tab2 8 8 (fun i j =>
      get2 8 J0 i j *
      ((if Nat.ltb i 5 then pb_epsdot_scale_inv p else pb_rotincr_scale_inv p) *
       (if Nat.ltb j 5 then e_scale else r_scale))).

  (* ECMech_evptn.h:547-952, the part the nonlinear solver sees *)
  Definition computeRJ (p : Prob) (x : list T) : list T * list T := (residual p x, jacobian p x).

  (** Right-hand sides of the tangent systems, ECMech_evptn.h:806-822 *)
  Definition mtan_rhs_T (v : Ev) : list T :=
    tab2 5 8 (fun jE iE => if Nat.ltb iE 5 then get2 5 (ev_qr5x5 v) jE iE else nZ 0).

  (** Material tangent in vecds form, ECMech_evptn.h:796-912; None models ECMECH_FAIL at line 834 *)
  Definition mtan_vecds (lu : LUSolver T) (p : Prob) (x : list T) : option (list T) :=
    let v := evalEv p x in
    match lu 8%nat (jacobian0 p v) (mtan_rhs_T v) 5%nat with
    | None => None
    | Some sol =>
      let '(dCqT, _, _) := dxi_parts p v in
      let dC_quat_dI := tab2 4 5 (fun iQ iI => sum 3 (fun iW => get2 4 dCqT iW iQ * get2 8 sol iI (5 + iW))) in
      let de_dI := tab2 5 5 (fun i j => get2 8 sol j i) in
      let temp_M6 := el_multCauchyDif (pb_el p) de_dI (pb_detV_ri p) (pb_a_V_ri p) in
      let m0 := qr6x6_pre_mul 6 temp_M6 (ev_qr5x5 v) in
      let sigC := el_getCauchy (ev_T v) (pb_detV_ri p) in
      let dsig_dCquat := vecsMAB 5 4 9 (d_rot_mat_vecd_smop (ev_C_matx v) sigC) (d_quat_to_tensor (ev_C_quat v)) in
      let dsig_dI := vecsMAB 5 5 4 dsig_dCquat dC_quat_dI in
      Some (tab2 6 6 (fun i j =>
              if Nat.ltb i 5 && Nat.ltb j 5 then get2 6 m0 i j + get2 5 dsig_dI i j else get2 6 m0 i j))
    end.

  (** ** The single-point response *)

  (** The in/out arrays of one point, the arguments of getResponseSngl, ECMech_evptn.h:998-1014; [pt_mtan] is None when the caller passes a null pointer. *)
  Record Pt := {
    pt_eInt : list T; pt_stress : list T; pt_hist : list T; pt_tkelv : T;
    pt_sdd : list T; pt_mtan : option (list T)
  }.

  Record Mat := { m_sg : SlipGeom T; m_kin : Kinetics T; m_el : Elast T; m_eos : Eos T }.

  (** ECMech_evptn.h:1137-1166 *)
  Definition mtanSD_of (p : Prob) (bulkNew : T) (mt : list T) : list T :=
    let m1 := tab 36 (fun i => get mt i * pb_dt_ri p) in
    mtan_conv_sd_svec true (upd m1 (iSvecS * 6 + iSvecS) (three * bulkNew)).

  (** Sample-frame stress from lattice-frame Cauchy stress, ECMech_evptn.h:1202-1213 *)
  Definition stress_out (quat_u Cstr_lat : list T) : list T :=
    let qr := get_rot_mat_vecd (quat_to_tensor quat_u) in
    vecdsToSvecP (vecsVMa 5 5 qr Cstr_lat ++ [get Cstr_lat iSvecS]).

  (** The problem set up by getResponseSngl given the updated hardness, ECMech_evptn.h:1022-1095 *)
  Definition snglUpd (m : Mat) (volRatio eInt stress : list T) : Upd T :=
    updateSimple (m_eos m) (get volRatio 1) (get volRatio 3) (get eInt 0) (get stress 6).
  (* ECMech_evptn.h:1063-1068: the temperature at the beginning of the step *)
  Definition snglTkelv (m : Mat) (volRatio eInt : list T) : T :=
    snd (evalPT (m_eos m) (get volRatio 0) (get eInt 0)).
  (* ECMech_evptn.h:1040-1047 *)
  Definition snglQuatN (hist : list T) : list T := vecsVNormalize 4 (sub hist iHistLbQ 4).
  Definition snglProb (m : Mat) (dt : T) (d w volRatio : list T) (pt : Pt) (h_u : list T) : Prob :=
    let u := snglUpd m volRatio (pt_eInt pt) (pt_stress pt) in
    mkProb (m_sg m) (m_kin m) (m_el m) dt (get volRatio 1) (u_eNew u) (u_press u)
           (snglTkelv m volRatio (pt_eInt pt)) h_u
           (sub (pt_hist pt) iHistLbE 5) (snglQuatN (pt_hist pt)) (svecToVecd d) w.

  (** The history entries stored before the stress is computed, ECMech_evptn.h:1168-1198:
      elastic strain, orientation and hardness are written in place, then the slip rates and the
      auxiliary entries. *)
  Definition hist_out (nH : nat) (hist e_u quat_u h_u : list T) (v : Ev) (dt flow : T) (nfev : nat) : list T :=
    let h1 := updl hist iHistLbE e_u in
    let h2 := updl h1 iHistLbQ quat_u in
    let h3 := updl h2 iHistLbH h_u in
    let h4 := updl h3 (iHistLbGdot nH) (ev_gdot v) in
    let h5 := upd h4 iHistA_shrateEff (ev_shrateEff v) in
    let h6 := upd h5 iHistA_shrEff (get h5 iHistA_shrEff + ev_shrateEff v * dt) in
    let h7 := upd h6 iHistA_flowStr flow in
    upd h7 iHistA_nFEval (nZ (Z.of_nat nfev)).

  (* ECMech_evptn.h:998-1246.  The debug re-solve at lines 1121-1130 has no other effect than output.
     Memory is returned also when the call fails: an exception leaves what was already stored. *)
  Definition getResponseSngl (solver : Solver T) (lu : LUSolver T) (m : Mat) (dt tolerance : T)
      (d w volRatio : list T) (pt : Pt) : outcome * Pt :=
    let nH := k_nH (m_kin m) in
    let nslip := sg_nslip (m_sg m) in
    let hist := pt_hist pt in
    let d_vecd := svecToVecd d in
    let quat_n := snglQuatN hist in
    let halfVMidDt := oneqrtr * (get volRatio 0 + get volRatio 1) * dt in
    let eDevTot0 := halfVMidDt * vecsInnerSvecDev (pt_stress pt) d in
    let tkelv := snglTkelv m volRatio (pt_eInt pt) in
    let pt1 := {| pt_eInt := pt_eInt pt; pt_stress := pt_stress pt; pt_hist := hist; pt_tkelv := tkelv;
                  pt_sdd := pt_sdd pt; pt_mtan := pt_mtan pt |} in
    let u := snglUpd m volRatio (pt_eInt pt) (pt_stress pt) in
    match k_updateH (m_kin m) (sub hist iHistLbH nH) dt (sub hist (iHistLbGdot nH) nslip) with
    | None => (Failed, pt1)
    | Some (h_u, _) =>
      if negb (k_valsOk (m_kin m) (u_press u) tkelv h_u) then (AssertFailed, pt1) else
      let p := snglProb m dt d w volRatio pt h_u in
      let r := solver 8%nat (computeRJ p) tolerance 200%nat (tab 8 (fun _ => nZ 0)) in
      if negb (so_converged r) then (Failed, pt1) else
      (* tangent: Some None = LU failure *)
      let mt := match pt_mtan pt with
                | None => Some None
                | Some _ => match mtan_vecds lu p (so_x r) with
                            | None => None
                            | Some mv => Some (Some (mtanSD_of p (u_bulkNew u) mv))
                            end
                end in
      match mt with
      | None => (Failed, pt1)
      | Some mtan' =>
        (* by-products of the last computeRJ call: the tangent evaluation if there was one *)
        let '(v, nfev) := match pt_mtan pt with
                          | None => (evalEv p (so_xlast r), so_nfev r)
                          | Some _ => (evalEv p (so_x r), so_nfev_rj r)
                          end in
        let '(e_u, quat_u) := stateFromX p (so_x r) in
        let dEff := vecd_Deff d_vecd in
        let flow := if idp_tiny_sqrt <? dEff then ev_disRate v / dEff else pb_hdn_scale p in
        let h8 := hist_out nH hist e_u quat_u h_u v dt flow nfev in
        let stress' := stress_out quat_u (elastNEtoC p e_u) in
        let eDevTot := eDevTot0 + halfVMidDt * vecsInnerSvecDev stress' d in
        let h9 := if vecsyadotb 4 quat_u quat_n <? zero
                  then updl h8 iHistLbQ (tab 4 (fun i => - get quat_u i)) else h8 in
        let pt2 := {| pt_eInt := pt_eInt pt; pt_stress := updl (pt_stress pt) 0 stress'; pt_hist := h9;
                      pt_tkelv := tkelv; pt_sdd := pt_sdd pt;
                      pt_mtan := match mtan', pt_mtan pt with
                                 | Some mv, Some old => Some (updl old 0 mv)
                                 | _, _ => None
                                 end |} in
        match el_getGmod (m_el m) with
        | None => (Failed, pt2)
        | Some gmod =>
          (Done, {| pt_eInt := upd (pt_eInt pt) 0 (u_eNew u + eDevTot);
                    pt_stress := pt_stress pt2; pt_hist := h9; pt_tkelv := tkelv;
                    pt_sdd := upd (upd (pt_sdd pt) i_sdd_bulk (u_bulkNew u)) i_sdd_gmod gmod;
                    pt_mtan := pt_mtan pt2 |})
        end
      end
    end.
End Evptn.
Arguments Prob T : clear implicits.
Arguments Ev T : clear implicits.
Arguments Pt T : clear implicits.
Arguments Mat T : clear implicits.
