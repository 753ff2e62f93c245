(** Model of the mini-app: miniapp/setup_kernels.cxx, miniapp/retrieve_kernels.cxx,
    miniapp/material_kernels.cxx and the parts of miniapp/orientation_evolution.cxx that choose the model, set up the
    arrays and run the steps.

    Simplifications: the strings and numbers read from the option, orientation and property files are arguments (reading
    them is modelled in MiniFiles.v); array indices are exact integers (the code computes them as int); an index outside an array has no effect
    (the proofs show that none occurs); memory of a device is the memory of the host. *)
From Coq Require Import List ZArith Bool String.
From Verif Require Import Num Util SlipGeom Eos Hard Elast Evptn MatModel Cases.
Import ListNotations.

Section App.
  Context {T : Type} {N : Num T}.
  Local Open Scope num_scope.

  (** The arrays of main, orientation_evolution.cxx:38-43, 119-130.  Those handed to the library are a [Mem]:
      AD d_svec_p, AW w_vec, AV vol_ratio, AE eng_int, AS stress_svec_p, AH state_vars, AT temp, AB sdd, AM ddsdde;
      material_kernels.cxx:12-14 *)
  Record App := { ap_vgrad : list T; ap_stress : list T; ap_m : Mem T }.

  Definition put (m : Mem T) (a : arr) (j : nat) (l : list T) : Mem T := mset m a (updl (m a) j l).

  (** RAJA view with the permuted layout {2,1,0} of extents (3,3,nqpts): the first index has stride 1;
      setup_kernels.cxx:79-82 *)
  Definition vgrad_view (v : list T) (i j q : nat) : T := get v (i + 3 * j + 9 * q).

  (** ** One point of setup_data_cpu (setup_kernels.cxx:87-146); setup_data_openmp (232-291) and setup_data_gpu
      (326-387) have the same body *)
  (* setup_kernels.cxx:118-120 *)
  Definition setup_w (v : list T) (q : nat) : list T :=
    [onehalf * (vgrad_view v 2 1 q - vgrad_view v 1 2 q); onehalf * (vgrad_view v 0 2 q - vgrad_view v 2 0 q);
     onehalf * (vgrad_view v 1 0 q - vgrad_view v 0 1 q)].
  (* setup_kernels.cxx:123-132 *)
  Definition setup_d (v : list T) (q : nat) : list T :=
    let d_mean := - onethird * (vgrad_view v 0 0 q + vgrad_view v 1 1 q + vgrad_view v 2 2 q) in
    [vgrad_view v 0 0 q + d_mean; vgrad_view v 1 1 q + d_mean; vgrad_view v 2 2 q + d_mean;
     onehalf * (vgrad_view v 2 1 q + vgrad_view v 1 2 q); onehalf * (vgrad_view v 2 0 q + vgrad_view v 0 2 q);
     onehalf * (vgrad_view v 1 0 q + vgrad_view v 0 1 q); nZ (-3) * d_mean].
  (* setup_kernels.cxx:134-137; the entries in the order of the array *)
  Definition setup_vol (vols dkk dt : T) : list T :=
    let v1 := vols * nexp (dkk * dt) in
    let v3 := v1 - vols in
    [vols; v1; v3 / (dt * onehalf * (vols + v1)); v3].
  (* setup_kernels.cxx:139-145 *)
  Definition setup_stress (s : list T) : list T :=
    let mean := - onethird * (get s 0 + get s 1 + get s 2) in
    [get s 0 + mean; get s 1 + mean; get s 2 + mean; get s 3; get s 4; get s 5; mean].
  (* setup_kernels.cxx:76-77, 90-146 *)
  Definition setup_point (nst : nat) (dt : T) (a : App) (q : nat) : App :=
    let ind_int_eng := (nst - ne)%nat in
    let ind_vols := (ind_int_eng - 1)%nat in
    let m := ap_m a in
    let st k := get (m AH) (q * nst + k) in
    let d := setup_d (ap_vgrad a) q in
    let m1 := put m AT q [nZ 300] in
    let m2 := put m1 AM (q * nsvec * nsvec) (tab (nsvec * nsvec) (fun _ => nZ 0)) in
    let m3 := put m2 AE (q * ne) (tab ne (fun i => st (ind_int_eng + i)%nat)) in
    let m4 := put m3 AW (q * nwvec) (setup_w (ap_vgrad a) q) in
    let m5 := put m4 AD (q * nsvp) d in
    let m6 := put m5 AV (q * nvr) (setup_vol (st ind_vols) (get d iSvecP) dt) in
    let m7 := put m6 AS (q * nsvp) (setup_stress (sub (ap_stress a) (q * nsvec) nsvec)) in
    {| ap_vgrad := ap_vgrad a; ap_stress := ap_stress a; ap_m := m7 |}.

  (** ** One point of retrieve_data_cpu (retrieve_kernels.cxx:16-41); the same body in retrieve_data_openmp (54-79) and
      retrieve_data_gpu (100-125) *)
  (* retrieve_kernels.cxx:36-40 *)
  Definition retrieve_stress (s : list T) : list T :=
    let mean := - get s iSvecP in
    [get s 0 + mean; get s 1 + mean; get s 2 + mean; get s 3; get s 4; get s 5].
  (* retrieve_kernels.cxx:16-41 *)
  Definition retrieve_point (nst : nat) (a : App) (q : nat) : App :=
    let ind_int_eng := (nst - ne)%nat in
    let ind_vols := (ind_int_eng - 1)%nat in
    let m := ap_m a in
    let m1 := put m AH (q * nst + ind_vols) [get (m AV) (q * nvr + 1)] in
    let m2 := put m1 AH (q * nst + ind_int_eng) (tab ne (fun i => get (m AE) (q * ne + i))) in
    {| ap_vgrad := ap_vgrad a;
       ap_stress := updl (ap_stress a) (q * nsvec) (retrieve_stress (sub (m AS) (q * nsvp) nsvp)); ap_m := m2 |}.

  (** The loops over the points, in the order [qs] (RAJA::loop_exec: increasing; the other policies: any order).
      setup_kernels.cxx:87, 232; retrieve_kernels.cxx:16, 54, 100 *)
  Definition setup_data (nst : nat) (dt : T) (qs : list nat) (a : App) : App := fold_left (setup_point nst dt) qs a.
  Definition retrieve_data (nst : nat) (qs : list nat) (a : App) : App := fold_left (retrieve_point nst) qs a.

  (** ** One time step, orientation_evolution.cxx:436-449; the tangent stiffness is always requested *)
  Definition app_step (solver : Solver T) (lu : LUSolver T) (c : MClass T) (s : MM T) (nst : nat) (dt : T) (n : nat)
      (qs qs' : list nat) (a : App) : bout * App :=
    let a1 := setup_data nst dt qs a in
    let '(o, m) := mm_getResponse solver lu c s dt true (Z.of_nat n) (ap_m a1) in
    let a2 := {| ap_vgrad := ap_vgrad a1; ap_stress := ap_stress a1; ap_m := m |} in
    match o with
    | BRet Done => (o, retrieve_data nst qs' a2)
    | _ => (o, a2)
    end.

  (** average stress printed after a step, orientation_evolution.cxx:428, 468-474 *)
  Definition stress_avg (n : nat) (a : App) (j : nat) : T :=
    let wts := nZ 1 / nZ (Z.of_nat n) in
    sum n (fun i => wts * get (ap_stress a) (i * nsvec + j)).

  (** ** Initial state of one point, setup_kernels.cxx:8-62 (and 150-207) *)
  Definition init_point (ori hist : list T) (num_hardness ind_gdot num_slip vdim : nat) (st : list T) (i : nat) : list T :=
    let ind_vols := (ind_gdot + num_slip)%nat in
    let ind_int_eng := (ind_vols + 1)%nat in
    let ind := (i * vdim)%nat in
    let s1 := upd st (ind + iHistA_shrateEff) (get hist iHistA_shrateEff) in
    let s2 := upd s1 (ind + iHistA_shrEff) (get hist iHistA_shrEff) in
    let s3 := upd s2 (ind + iHistA_nFEval) (get hist iHistA_nFEval) in
    let s4 := upd s3 (ind + ind_vols) (nZ 1) in
    let s5 := updl s4 (ind + iHistLbQ) (tab qdim (fun j => get ori (i * qdim + j))) in
    let s6 := updl s5 (ind + iHistLbE) (tab ntvec (fun j => get hist (iHistLbE + j))) in
    let s7 := updl s6 (ind + ind_gdot) (tab num_slip (fun j => get hist (ind_gdot + j))) in
    (* line 53: the index on the left does not contain j *)
    let s8 := fold_left (fun s j => upd s (ind + iHistLbH) (get hist (iHistLbH + j))) (seq 0 num_hardness) s7 in
    updl s8 (ind + ind_int_eng) (tab ne (fun _ => nZ 0)).
  Definition init_data (ori hist : list T) (num_hardness ind_gdot num_slip vdim : nat) (qs : list nat) (st : list T) : list T :=
    fold_left (init_point ori hist num_hardness ind_gdot num_slip vdim) qs st.

  (** setup_vgrad, setup_kernels.cxx:446-458 *)
  Definition vgrad_point (v : list T) (q : nat) : list T :=
    let at_ i j := (i + 3 * j + 9 * q)%nat in
    let put (v : list T) i j x := upd v (at_ i j) x in
    let v := put v 0%nat 0%nat (nlit (-5) (-1)) in let v := put v 0%nat 1%nat (nZ 0) in let v := put v 0%nat 2%nat (nZ 0) in
    let v := put v 1%nat 0%nat (nZ 0) in let v := put v 1%nat 1%nat (nlit (-5) (-1)) in let v := put v 1%nat 2%nat (nZ 0) in
    let v := put v 2%nat 0%nat (nZ 0) in let v := put v 2%nat 1%nat (nZ 0) in put v 2%nat 2%nat (nZ 1).
  Definition setup_vgrad (qs : list nat) (v : list T) : list T := fold_left vgrad_point qs v.

  (** ** Arrays before the first step, orientation_evolution.cxx:356-375: [a] is the memory as allocated; getHistInfo is
      called in init_data, setup_kernels.cxx:401-425 *)
  Definition app_start (c : MClass T) (s : MM T) (ori : list T) (n : nat) (qs : list nat) (nst : nat) (a : App) : option App :=
    match mm_getHistInfo c s with
    | None => None
    | Some h =>
      Some {| ap_vgrad := setup_vgrad (seq 0 n) (ap_vgrad a); ap_stress := tab (n * nsvec) (fun _ => nZ 0);
              ap_m := mset (ap_m a) AH (init_data ori (map (fun e => snd (fst (fst e))) h) (c_nH c) (iHistLbGdot (c_nH c)) (c_nslip c) nst qs (ap_m a AH)) |}
    end.

  (** ** Choice of model and device, orientation_evolution.cxx:55-115, 268-352 *)
  (* orientation_evolution.cxx:55-56 *)
  Definition app_nst (c : MClass T) : nat := mm_numHist c + ne + 1.
  (* orientation_evolution.cxx:62-78, 113 *)
  Definition app_strides (c : MClass T) : list nat := [nsvp; ndim; nvr; ne; nsvp; app_nst c; 1; nsdd]%nat.

  (* orientation_evolution.cxx:274-291; [openmp] and [gpu] tell what RAJA was built with *)
  Definition app_device (openmp gpu : bool) (device_type : string) : option Exec :=
    if String.eqb device_type "CPU" then Some CPU
    else if andb openmp (String.eqb device_type "OpenMP") then Some OPENMP
    else if andb gpu (String.eqb device_type "GPU") then Some GPU
    else None.

  (** How the set-up ends: refused with a message (return 1), an exception of the library, or ready to run: class and
      object behind mat_model_base, num_state_vars, class_device. *)
  Inductive AppEnd := Refused | Thrown | Ready (c : MClass T) (s : MM T) (nst : nat) (dev : Exec).

  (* initFromParams, complete; orientation_evolution.cxx:322-323 and 344-345 *)
  Definition app_init (c : MClass T) (s : MM T) (params : list T) : option (MM T) :=
    match mm_init c s [] params [] with
    | (Done, s') => Some (mm_doComplete s')
    | _ => None
    end.

  Variable hsolver : Solver T.
  (* orientation_evolution.cxx:94, 115, 268-352 *)
  Definition app_main (openmp gpu : bool) (mat_model_str device_type : string) (params : list T) : AppEnd :=
    let ca := cls_FCC_A hsolver in
    let cb := cls_FCC_B hsolver in
    match mm_newStrides ca (app_strides ca) 8, mm_newStrides cb (app_strides cb) 8 with
    | Some a, Some b =>
      match app_device openmp gpu device_type with
      | None => Refused
      | Some dev =>
        if String.eqb mat_model_str "voce" then
          if negb (Nat.eqb (List.length params) (mm_nParams ca)) then Refused else
          match app_init ca a params with
          | None => Thrown
          | Some a' => let a'' := mm_setExec a' dev in Ready ca a'' (app_nst ca) dev
          end
        else if String.eqb mat_model_str "mts" then
          if negb (Nat.eqb (List.length params) (mm_nParams cb)) then Refused else
          match app_init cb b params with
          | None => Thrown
          | Some b' => let a' := mm_setExec a dev in (* line 346 names mat_modela *)
                       let _ := a' in Ready cb b' (app_nst cb) dev
          end
        else Refused
      end
    | _, _ => Thrown
    end.

  (** the steps, orientation_evolution.cxx:436-549; each step runs its two loops over the points in some order *)
  Fixpoint app_run (solver : Solver T) (lu : LUSolver T) (c : MClass T) (s : MM T) (nst : nat) (dt : T) (n : nat)
      (orders : list (list nat * list nat)) (a : App) : bout * App :=
    match orders with
    | [] => (BRet Done, a)
    | (qs, qs') :: r => match app_step solver lu c s nst dt n qs qs' a with
                        | (BRet Done, a') => app_run solver lu c s nst dt n r a'
                        | x => x
                        end
    end.
End App.
Arguments App T : clear implicits.
Arguments AppEnd T : clear implicits.
