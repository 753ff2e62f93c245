(** The library built with the CMake option USE_DPEFF (cmake/ECMechOptions.cmake:4, cmake/CMakeBasics.cmake:27-29,
    src/ecmech/ECMech_config.h.in:6): "Output effective D^p rather than effective shearing rates".  ECMECH_USE_DPEFF is read in two
    places: ECMech_evptn.h:665-669 and ECMech_evptnWrap.h:230-236.  The functions on the way from the first place to the interface are
    repeated here with the other branch. *)
From Coq Require Import List ZArith Bool String.
From Verif Require Import Num Arr Util SlipGeom Eos Hard Elast Evptn MatModel.
Import ListNotations.

Section Dp.
  Context {T : Type} {N : Num T}.
  Local Open Scope num_scope.

  (** ECMech_evptn.h:565-640, 656-669 with line 666 instead of line 668 *)
  Definition evalEv_dp (p : Prob T) (x : list T) : Ev T :=
    let v := evalEv p x in
    {| ev_edot := ev_edot v; ev_e_f := ev_e_f v; ev_xi := ev_xi v;
       ev_C_quat := ev_C_quat v; ev_C_matx := ev_C_matx v; ev_qr5x5 := ev_qr5x5 v;
       ev_d_lat := ev_d_lat v; ev_w_lat := ev_w_lat v; ev_T := ev_T v;
       ev_taua := ev_taua v; ev_gdot := ev_gdot v; ev_dgdot_dtau := ev_dgdot_dtau v;
       ev_pl_vecd := ev_pl_vecd v; ev_pl_wvec := ev_pl_wvec v;
       ev_A_e := ev_A_e v; ev_ee_wvec := ev_ee_wvec v; ev_ee_fac := ev_ee_fac v;
       ev_disRate := ev_disRate v;
       ev_shrateEff := vecd_Deff (ev_pl_vecd v) |}.

  (* ECMech_evptn.h:998-1246, as getResponseSngl; the by-products come from the other branch of the switch.  The debug re-solve at lines 1121-1130 has no other effect than output.
     Memory is returned also when the call fails: an exception leaves what was already stored. *)
  Definition getResponseSngl_dp (solver : Solver T) (lu : LUSolver T) (m : Mat T) (dt tolerance : T)
      (d w volRatio : list T) (pt : Pt T) : outcome * Pt T :=
    let nH := k_nH (m_kin m) in
    let nslip := sg_nslip (m_sg m) in
    let hist := pt_hist pt in
    let d_vecd := svecToVecd d in
    let quat_n := snglQuatN hist in
    let halfVMidDt := oneqrtr * (get volRatio 0 + get volRatio 1) * dt in
    let eDevTot0 := halfVMidDt * vecsInnerSvecDev (pt_stress pt) d in
    let tkelv := snglTkelv m volRatio (pt_eInt pt) in
    let pt1 := {| pt_eInt := pt_eInt pt; pt_stress := pt_stress pt; pt_hist := hist; pt_tkelv := tkelv;
                  pt_sdd := pt_sdd pt; pt_mtan := pt_mtan pt |} in
    let u := snglUpd m volRatio (pt_eInt pt) (pt_stress pt) in
    match k_updateH (m_kin m) (sub hist iHistLbH nH) dt (sub hist (iHistLbGdot nH) nslip) with
    | None => (Failed, pt1)
    | Some (h_u, _) =>
      if negb (k_valsOk (m_kin m) (u_press u) tkelv h_u) then (AssertFailed, pt1) else
      let p := snglProb m dt d w volRatio pt h_u in
      let r := solver 8%nat (computeRJ p) tolerance 200%nat (tab 8 (fun _ => nZ 0)) in
      if negb (so_converged r) then (Failed, pt1) else
      (* tangent: Some None = LU failure *)
      let mt := match pt_mtan pt with
                | None => Some None
                | Some _ => match mtan_vecds lu p (so_x r) with
                            | None => None
                            | Some mv => Some (Some (mtanSD_of p (u_bulkNew u) mv))
                            end
                end in
      match mt with
      | None => (Failed, pt1)
      | Some mtan' =>
        (* by-products of the last computeRJ call: the tangent evaluation if there was one *)
        let '(v, nfev) := match pt_mtan pt with
                          | None => (evalEv_dp p (so_xlast r), so_nfev r)
                          | Some _ => (evalEv_dp p (so_x r), so_nfev_rj r)
                          end in
        let '(e_u, quat_u) := stateFromX p (so_x r) in
        let dEff := vecd_Deff d_vecd in
        let flow := if idp_tiny_sqrt <? dEff then ev_disRate v / dEff else pb_hdn_scale p in
        let h8 := hist_out nH hist e_u quat_u h_u v dt flow nfev in
        let stress' := stress_out quat_u (elastNEtoC p e_u) in
        let eDevTot := eDevTot0 + halfVMidDt * vecsInnerSvecDev stress' d in
        let h9 := if vecsyadotb 4 quat_u quat_n <? zero
                  then updl h8 iHistLbQ (tab 4 (fun i => - get quat_u i)) else h8 in
        let pt2 := {| pt_eInt := pt_eInt pt; pt_stress := updl (pt_stress pt) 0 stress'; pt_hist := h9;
                      pt_tkelv := tkelv; pt_sdd := pt_sdd pt;
                      pt_mtan := match mtan', pt_mtan pt with
                                 | Some mv, Some old => Some (updl old 0 mv)
                                 | _, _ => None
                                 end |} in
        match el_getGmod (m_el m) with
        | None => (Failed, pt2)
        | Some gmod =>
          (Done, {| pt_eInt := upd (pt_eInt pt) 0 (u_eNew u + eDevTot);
                    pt_stress := pt_stress pt2; pt_hist := h9; pt_tkelv := tkelv;
                    pt_sdd := upd (upd (pt_sdd pt) i_sdd_bulk (u_bulkNew u)) i_sdd_gmod gmod;
                    pt_mtan := pt_mtan pt2 |})
        end
      end
    end.

  (** The work for one point: the body of the RAJA loops, ECMech_evptnWrap.h:315-334, as pointProg.  The order of the
      loads and stores inside the body is fixed here (inputs, then outputs); the proofs about
      interleavings only use which cells it touches. *)
  Definition pointProg_dp (solver : Solver T) (lu : LUSolver T) (mat : Mat T) (dt tol : T)
      (strides : list nat) (nH nslip : nat) (mtan : bool) (i : nat) : prog T :=
    let oD := addr (gstride strides st_def_rate) i in
    let oW := addr (gstride strides st_spin) i in
    let oV := addr (gstride strides st_vol_ratio) i in
    let oE := addr (gstride strides st_int_eng) i in
    let oS := addr (gstride strides st_stress) i in
    let oH := addr (gstride strides st_history) i in
    let oT := addr (gstride strides st_tkelv) i in
    let oB := addr (gstride strides st_sdd) i in
    let body (oM : nat) (mt0 : option (list T)) : prog T :=
      readL AD oD 7 (fun d => readL AW oW 3 (fun w => readL AV oV 4 (fun vr =>
      readL AE oE 1 (fun e => readL AS oS 7 (fun s => readL AH oH (numHist nH nslip) (fun h =>
      readL AT oT 1 (fun t => readL AB oB 2 (fun b =>
        let '(o, pt) := getResponseSngl_dp solver lu mat dt tol d w vr
            {| pt_eInt := e; pt_stress := s; pt_hist := h; pt_tkelv := get t 0; pt_sdd := b; pt_mtan := mt0 |} in
        writeL AT oT [pt_tkelv pt] (writeL AM oM (match pt_mtan pt with Some l => l | None => [] end)
          (writeL AH oH (pt_hist pt) (writeL AS oS (pt_stress pt) (writeL AE oE (pt_eInt pt)
            (writeL AB oB (pt_sdd pt) (Ret (BRet o))))))))))))))) in
    if mtan then
      match mtan_addr i with
      | None => Ret BUndef
      | Some oM => readL AM oM 36 (fun mt => body oM (Some mt))
      end
    else body 0%nat None.


  (* ECMech_evptnWrap.h:286-388 with the sequential strategy; nPassed <= 0 gives an empty range *)
  Definition mm_getResponse_dp (solver : Solver T) (lu : LUSolver T) (c : MClass T) (s : MM T) (dt : T)
      (mtan : bool) (n : Z) (m : Mem T) : bout * Mem T :=
    if negb (mm_complete s) then (BRet Failed, m) else
    match seq 0 (Z.to_nat n) with
    | [] => (BRet Done, m)
    | is =>
      match mm_ready s with
      | None => (BUndef, m)
      | Some (mat, tol) =>
          runSeq (pointProg_dp solver lu mat dt tol (mm_strides s) (c_nH c) (c_nslip c) mtan) is m
      end
    end.


  (* ECMech_evptnWrap.h:216-262 (with ECMECH_USE_DPEFF, lines 230-232) *)
  Definition mm_histInfo_dp (c : MClass T) (kinH : list (HistEntry T)) : list (HistEntry T) :=
    ([ ("dplas_eff", nZ 0, true, true); ("eps", nZ 0, true, true);
       ("flow_str", nZ 0, true, false); ("n_feval", nZ 0, true, false) ]%string
     ++ map (fun i => (("t" ++ dec (i + 1))%string, nZ 0, true, true)) (seq 0 5)
     ++ map (fun i => (("quat_" ++ dec (i + 1))%string, (if Nat.eqb i 0 then nZ 1 else nZ 0), true, true)) (seq 0 4)
     ++ kinH
     ++ map (fun i => (("shrate_" ++ dec (i + 1))%string, nZ 0, true, true)) (seq 0 (c_nslip c)))%list.

End Dp.
