(** Model of ECMech_util.h (tensor notation, rotations, their derivatives). *)
From Coq Require Import List ZArith Bool.
From Verif Require Import Num.
Import ListNotations.

Section Util.
  Context {T : Type} {N : Num T}.
  Local Open Scope num_scope.

  (** ** Small vector kernels *)

  (* ECMech_util.h:32-40 *)
  Definition vecsVapb (n : nat) (a b : list T) : list T := tab n (fun i => get a i + get b i).
  (* ECMech_util.h:42-50 *)
  Definition vecsVAdiagB (n : nat) (a b : list T) : list T := tab n (fun i => get a i * get b i).
  (* ECMech_util.h:53-63 *)
  Definition vecsyadotb (n : nat) (a b : list T) : T := sum n (fun i => get a i * get b i).
  (* ECMech_util.h:65-74 and 87-95 *)
  Definition vecsssumabs (n : nat) (a : list T) : T := sum n (fun i => nabs (get a i)).
  (* ECMech_util.h:76-85 *)
  Definition vecsssum (n : nat) (a : list T) : T := sum n (fun i => get a i).
  (* ECMech_util.h:97-107 *)
  Definition vecNorm (n : nat) (v : list T) : T := nsqrt (sum n (fun i => get v i * get v i)).
  (* ECMech_util.h:109-117 *)
  Definition vecsVxa (n : nat) (x : T) (a : list T) : list T := tab n (fun i => x * get a i).
  (* ECMech_util.h:122-129; the updated array is returned *)
  Definition vecsVsa (n : nat) (a : list T) (s : T) : list T := tab n (fun i => get a i * s).
  (* ECMech_util.h:131-136; the updated array is returned *)
  Definition vecsVNormalize (n : nat) (v : list T) : list T :=
    let s := nZ 1 / vecNorm n v in vecsVsa n v s.
  (* ECMech_util.h:143-154 *)
  Definition vecsVMTa (n : nat) (M v : list T) : list T :=
    tab n (fun i => sum n (fun j => get2 n M j i * get v j)).
  (* ECMech_util.h:159-170 *)
  Definition vecsVaTM (n q : nat) (a M : list T) : list T :=
    tab q (fun iQ => sum n (fun iN => get a iN * get2 q M iN iQ)).
  (* ECMech_util.h:175-186 (n by q), and 191-202 with q = n *)
  Definition vecsVMa (n q : nat) (M a : list T) : list T :=
    tab n (fun iN => sum q (fun iQ => get2 q M iN iQ * get a iQ)).
  (* ECMech_util.h:229-245, and 207-224 with m = n *)
  Definition vecsMABT (n m q : nat) (A B : list T) : list T :=
    tab2 n m (fun iN jM => sum q (fun iQ => get2 q A iN iQ * get2 q B jM iQ)).
  (* ECMech_util.h:250-266; the loop order iN,iQ,jM accumulates each entry over iQ in order *)
  Definition vecsMAB (n m q : nat) (A B : list T) : list T :=
    tab2 n m (fun iN jM => sum q (fun iQ => get2 q A iN iQ * get2 m B iQ jM)).
  (* ECMech_util.h:271-282 *)
  Definition vecsMaTb (n : nat) (a b : list T) : list T := tab2 n n (fun i j => get a i * get b j).
  (* ECMech_util.h:284-294 *)
  Definition vecsMsymm (n : nat) (A : list T) : list T :=
    tab2 n n (fun i j => nlit 5 (-1) * (get2 n A i j + get2 n A j i)).
  (* ECMech_util.h:296-306 *)
  Definition vecsMskew (n : nat) (A : list T) : list T :=
    tab2 n n (fun i j => nlit 5 (-1) * (get2 n A i j - get2 n A j i)).

  (** ** Tensor notations *)

  (* ECMech_util.h:312-320 *)
  Definition skewToVeccp (W : list T) : list T := [get2 3 W 2 1; get2 3 W 0 2; get2 3 W 1 0].
  (* ECMech_util.h:322-331 *)
  Definition trace3 (A : list T) : T := get2 3 A 0 0 + get2 3 A 1 1 + get2 3 A 2 2.
  (* ECMech_util.h:334-338 *)
  Definition traceToVecdsS (dkk : T) : T := sqr3i * dkk.
  (* ECMech_util.h:341-346 *)
  Definition vecd_Deff (vecd : list T) : T := sqr2b3 * vecNorm ntvec vecd.
  (* ECMech_util.h:348-361 *)
  Definition symmToVecd (A : list T) : list T :=
    [ sqr2i * (get2 3 A 0 0 - get2 3 A 1 1);
      sqr6i * (two * get2 3 A 2 2 - get2 3 A 0 0 - get2 3 A 1 1);
      sqr2 * get2 3 A 1 0;
      sqr2 * get2 3 A 2 0;
      sqr2 * get2 3 A 2 1 ].
  (* ECMech_util.h:368-379 *)
  Definition svecToVecd (svec_kk : list T) : list T :=
    [ sqr2i * (get svec_kk 0 - get svec_kk 1);
      sqr3b2 * get svec_kk 2;
      sqr2 * get svec_kk 5;
      sqr2 * get svec_kk 4;
      sqr2 * get svec_kk 3 ].
  (* ECMech_util.h:385-393 *)
  Definition symmToVecds (A : list T) : list T :=
    symmToVecd A ++ [traceToVecdsS (trace3 A)].
  (* ECMech_util.h:395-407 *)
  Definition vecsInnerSvecDev (s d : list T) : T :=
    get s 0 * get d 0 + get s 1 * get d 1 + get s 2 * get d 2 +
    two * (get s 3 * get d 3 + get s 4 * get d 4 + get s 5 * get d 5).
  (* ECMech_util.h:410-426 *)
  Definition vecdsToSvecP (vecds : list T) : list T :=
    let t1 := sqr2i * get vecds 0 in
    let t2 := sqr6i * get vecds 1 in
    [ t1 - t2;
      - t1 - t2;
      sqr2b3 * get vecds 1;
      sqr2i * get vecds 4;
      sqr2i * get vecds 3;
      sqr2i * get vecds 2;
      - sqr3i * get vecds iSvecS ].
  (* ECMech_util.h:429-443 *)
  Definition svecpToSvec (a_svec_p : list T) : list T :=
    let a_mean := - get a_svec_p iSvecP in
    [ get a_svec_p 0 + a_mean; get a_svec_p 1 + a_mean; get a_svec_p 2 + a_mean;
      get a_svec_p 3; get a_svec_p 4; get a_svec_p 5 ].
  (* ECMech_util.h:445-465 *)
  Definition matToPQ (Tm : list T) : list T * list T :=
    (symmToVecd (vecsMsymm 3 Tm), skewToVeccp (vecsMskew 3 Tm)).

  (** ** Rotations *)

  (* ECMech_util.h:467-474 *)
  Definition inv_to_quat (inv : list T) : list T :=
    let a := get inv 0 * nlit 5 (-1) in
    ncos a :: vecsVxa nwvec (nsin a) (sub inv 1 3).
  (* ECMech_util.h:476-486 *)
  Definition emap_to_quat (emap : list T) : list T :=
    let inv0 := vecNorm emapdim emap in
    let ax := if idp_tiny_sqrt <? inv0
              then vecsVxa emapdim (nZ 1 / inv0) emap
              else [nZ 1; nZ 0; nZ 0] in
    inv_to_quat (inv0 :: ax).
  (* ECMech_util.h:491-500 *)
  Definition quat_prod (a b : list T) : list T :=
    let a0 := get a 0 in let a1 := get a 1 in let a2 := get a 2 in let a3 := get a 3 in
    let b0 := get b 0 in let b1 := get b 1 in let b2 := get b 2 in let b3 := get b 3 in
    [ a0 * b0 - a1 * b1 - a2 * b2 - a3 * b3;
      a0 * b1 + a1 * b0 + a2 * b3 - a3 * b2;
      a0 * b2 - a1 * b3 + a2 * b0 + a3 * b1;
      a0 * b3 + a1 * b2 - a2 * b1 + a3 * b0 ].
  (* ECMech_util.h:502-508 *)
  Definition get_c_quat (dr_quat cn_quat : list T) : list T := quat_prod cn_quat dr_quat.
  (* ECMech_util.h:513-540 *)
  Definition quat_to_tensor (quat : list T) : list T :=
    let x0sq := get quat 0 * get quat 0 in
    let x1sq := get quat 1 * get quat 1 in
    let x2sq := get quat 2 * get quat 2 in
    let x3sq := get quat 3 * get quat 3 in
    let x0x1 := get quat 0 * get quat 1 in
    let x0x2 := get quat 0 * get quat 2 in
    let x0x3 := get quat 0 * get quat 3 in
    let x1x2 := get quat 1 * get quat 2 in
    let x1x3 := get quat 1 * get quat 3 in
    let x2x3 := get quat 2 * get quat 3 in
    [ x0sq + x1sq - x2sq - x3sq; two * (x1x2 - x0x3); two * (x1x3 + x0x2);
      two * (x1x2 + x0x3); x0sq - x1sq + x2sq - x3sq; two * (x2x3 - x0x1);
      two * (x1x3 - x0x2); two * (x2x3 + x0x1); x0sq - x1sq - x2sq + x3sq ].

  (* ECMech_util.h:551-595, with mc_vars_set.h:1-9 *)
  Definition get_rot_mat_vecd (c : list T) : list T :=
    let c11 := get2 3 c 0 0 in let c21 := get2 3 c 1 0 in let c31 := get2 3 c 2 0 in
    let c12 := get2 3 c 0 1 in let c22 := get2 3 c 1 1 in let c32 := get2 3 c 2 1 in
    let c13 := get2 3 c 0 2 in let c23 := get2 3 c 1 2 in let c33 := get2 3 c 2 2 in
    [ onehalf * (c11 * c11 - c12 * c12 - c21 * c21 + c22 * c22);
      sqr3 * onehalf * (c13 * c13 - c23 * c23);
      c11 * c12 - c21 * c22;
      c11 * c13 - c21 * c23;
      c12 * c13 - c22 * c23;

      sqr3 * onehalf * (c31 * c31 - c32 * c32);
      thrhalf * c33 * c33 - onehalf;
      sqr3 * c31 * c32;
      sqr3 * c31 * c33;
      sqr3 * c32 * c33;

      c11 * c21 - c12 * c22;
      sqr3 * c13 * c23;
      c11 * c22 + c12 * c21;
      c11 * c23 + c13 * c21;
      c12 * c23 + c13 * c22;

      c11 * c31 - c12 * c32;
      sqr3 * c13 * c33;
      c11 * c32 + c12 * c31;
      c11 * c33 + c13 * c31;
      c12 * c33 + c13 * c32;

      c21 * c31 - c22 * c32;
      sqr3 * c23 * c33;
      c21 * c32 + c22 * c31;
      c21 * c33 + c23 * c31;
      c22 * c33 + c23 * c32 ].

  (* ECMech_util.h:610-635, with vb_d_vars_set.h:1-5; written out by rows *)
  Definition M35_d_AAoB_dA (b : list T) : list T :=
    let vb1 := get b 0 in let vb2 := get b 1 in let vb3 := get b 2 in
    let vb4 := get b 3 in let vb5 := get b 4 in
    [ vb5 * onehalf; vb5 * halfsqr3; - vb4 * onehalf; vb3 * onehalf;
      - vb1 * onehalf - halfsqr3 * vb2;
      vb4 * onehalf; - vb4 * halfsqr3; vb5 * onehalf; halfsqr3 * vb2 - vb1 * onehalf;
      - vb3 * onehalf;
      - vb3; zero; vb1; - vb5 * onehalf; vb4 * onehalf ].

  (* ECMech_util.h:673-738, rows are the emap index, columns the quaternion index *)
  Definition dquat_demap_T (emap : list T) : list T :=
    let theta_sm_a := nlit 1 (-9) in
    let oo48 := nZ 1 / nZ 48 in
    let theta := vecNorm emapdim emap in
    let '(halfsthh, sthhbyth, na, nb, nc) :=
      if nabs theta <? theta_sm_a then
        let sthhbyth := onehalf - theta * theta * oo48 in
        let halfsthh := theta * oneqrtr in
        if nabs theta <? idp_tiny_sqrt then (halfsthh, sthhbyth, one, zero, zero)
        else
          let theta_inv := one / theta in
          (halfsthh, sthhbyth, get emap 0 * theta_inv, get emap 1 * theta_inv, get emap 2 * theta_inv)
      else
        let h := nsin (theta * onehalf) in
        let sthhbyth := h / theta in
        let theta_inv := one / theta in
        (h * onehalf, sthhbyth, get emap 0 * theta_inv, get emap 1 * theta_inv, get emap 2 * theta_inv) in
    let halfcthh := ncos (theta * onehalf) * onehalf in
    let ta := na * na in
    let tb := nb * nb in
    let tc := nc * nc in
    let temp := halfcthh - sthhbyth in
    let ab := temp * na * nb in
    let ac := temp * na * nc in
    let bc := temp * nb * nc in
    [ - halfsthh * na; halfcthh * ta + sthhbyth * (one - ta); ab; ac;
      - halfsthh * nb; ab; halfcthh * tb + sthhbyth * (one - tb); bc;
      - halfsthh * nc; ac; bc; halfcthh * tc + sthhbyth * (one - tc) ].

  (* ECMech_util.h:740-805, layout (ndim, ndim, qdim) *)
  Definition d_quat_to_tensor (quat : list T) : list T :=
    let tqa := two * get quat 0 in
    let tqb := two * get quat 1 in
    let tqc := two * get quat 2 in
    let tqd := two * get quat 3 in
    [ tqa; tqb; - tqc; - tqd;
      - tqd; tqc; tqb; - tqa;
      tqc; tqd; tqa; tqb;
      tqd; tqc; tqb; tqa;
      tqa; - tqb; tqc; - tqd;
      - tqb; - tqa; tqd; tqc;
      - tqc; tqd; - tqa; tqb;
      tqb; tqa; tqd; tqc;
      tqa; - tqb; - tqc; tqd ].

  (* ECMech_util.h:815-871, with mc_vars_set.h and vad_vars_set.h:1-5; layout (ntvec, ndim, ndim).
     The C++ assigns in column-major index order; here the entries are listed in memory order. *)
  Definition d_rot_mat_vecd_latop (c vec_sm : list T) : list T :=
    let c11 := get2 3 c 0 0 in let c21 := get2 3 c 1 0 in let c31 := get2 3 c 2 0 in
    let c12 := get2 3 c 0 1 in let c22 := get2 3 c 1 1 in let c32 := get2 3 c 2 1 in
    let c13 := get2 3 c 0 2 in let c23 := get2 3 c 1 2 in let c33 := get2 3 c 2 2 in
    let va1 := get vec_sm 0 in let va2 := get vec_sm 1 in let va3 := get vec_sm 2 in
    let va4 := get vec_sm 3 in let va5 := get vec_sm 4 in
    let n3 := nZ 3 in
    [ (* 0 0 0 *) c11 * va1 - c11 * sqr3 * va2 * onethird + c21 * va3 + c31 * va4;
      (* 0 0 1 *) - c12 * va1 + c12 * sqr3 * va2 * onethird - c22 * va3 - c32 * va4;
      (* 0 0 2 *) zero;
      (* 0 1 0 *) c11 * va3 - c21 * va1 - c21 * sqr3 * va2 * onethird + c31 * va5;
      (* 0 1 1 *) - c12 * va3 + c22 * va1 + c22 * sqr3 * va2 * onethird - c32 * va5;
      (* 0 1 2 *) zero;
      (* 0 2 0 *) c11 * va4 + c21 * va5 + twothird * c31 * sqr3 * va2;
      (* 0 2 1 *) - c12 * va4 - c22 * va5 - twothird * c32 * sqr3 * va2;
      (* 0 2 2 *) zero;

      (* 1 0 0 *) - sqr3 * (n3 * c11 * va1 - c11 * sqr3 * va2 + n3 * c21 * va3 + n3 * c31 * va4) * oneninth;
      (* 1 0 1 *) sqr3 * (- n3 * c12 * va1 + c12 * sqr3 * va2 - n3 * c22 * va3 - n3 * c32 * va4) * oneninth;
      (* 1 0 2 *) - twothird * sqr3i * (- n3 * c13 * va1 + sqr3 * c13 * va2 - n3 * c23 * va3 - n3 * c33 * va4);
      (* 1 1 0 *) sqr3 * (- n3 * c11 * va3 + n3 * c21 * va1 + c21 * sqr3 * va2 - n3 * c31 * va5) * oneninth;
      (* 1 1 1 *) sqr3 * (- n3 * c12 * va3 + n3 * c22 * va1 + c22 * sqr3 * va2 - n3 * c32 * va5) * oneninth;
      (* 1 1 2 *) - twothird * sqr3i * (- n3 * va3 * c13 + n3 * va1 * c23 + sqr3 * c23 * va2 - n3 * va5 * c33);
      (* 1 2 0 *) - sqr3 * c11 * va4 * onethird - sqr3 * c21 * va5 * onethird - twothird * c31 * va2;
      (* 1 2 1 *) - sqr3 * c12 * va4 * onethird - sqr3 * c22 * va5 * onethird - twothird * c32 * va2;
      (* 1 2 2 *) twothird * sqr3 * c13 * va4 + twothird * sqr3 * c23 * va5 + fourthirds * c33 * va2;

      (* 2 0 0 *) c12 * va1 - c12 * sqr3 * va2 * onethird + c22 * va3 + c32 * va4;
      (* 2 0 1 *) c11 * va1 - c11 * sqr3 * va2 * onethird + c21 * va3 + c31 * va4;
      (* 2 0 2 *) zero;
      (* 2 1 0 *) c12 * va3 - c22 * va1 - c22 * sqr3 * va2 * onethird + c32 * va5;
      (* 2 1 1 *) c11 * va3 - c21 * va1 - c21 * sqr3 * va2 * onethird + c31 * va5;
      (* 2 1 2 *) zero;
      (* 2 2 0 *) c12 * va4 + c22 * va5 + twothird * c32 * sqr3 * va2;
      (* 2 2 1 *) c11 * va4 + c21 * va5 + twothird * c31 * sqr3 * va2;
      (* 2 2 2 *) zero;

      (* 3 0 0 *) c13 * va1 - c13 * sqr3 * va2 * onethird + c23 * va3 + c33 * va4;
      (* 3 0 1 *) zero;
      (* 3 0 2 *) c11 * va1 - c11 * sqr3 * va2 * onethird + c21 * va3 + c31 * va4;
      (* 3 1 0 *) c13 * va3 - c23 * va1 - c23 * sqr3 * va2 * onethird + c33 * va5;
      (* 3 1 1 *) zero;
      (* 3 1 2 *) c11 * va3 - c21 * va1 - c21 * sqr3 * va2 * onethird + c31 * va5;
      (* 3 2 0 *) c13 * va4 + c23 * va5 + twothird * c33 * sqr3 * va2;
      (* 3 2 1 *) zero;
      (* 3 2 2 *) c11 * va4 + c21 * va5 + twothird * c31 * sqr3 * va2;

      (* 4 0 0 *) zero;
      (* 4 0 1 *) c13 * va1 - c13 * sqr3 * va2 * onethird + c23 * va3 + c33 * va4;
      (* 4 0 2 *) c12 * va1 - c12 * sqr3 * va2 * onethird + c22 * va3 + c32 * va4;
      (* 4 1 0 *) zero;
      (* 4 1 1 *) c13 * va3 - c23 * va1 - c23 * sqr3 * va2 * onethird + c33 * va5;
      (* 4 1 2 *) c12 * va3 - c22 * va1 - c22 * sqr3 * va2 * onethird + c32 * va5;
      (* 4 2 0 *) zero;
      (* 4 2 1 *) c13 * va4 + c23 * va5 + twothird * c33 * sqr3 * va2;
      (* 4 2 2 *) c12 * va4 + c22 * va5 + twothird * c32 * sqr3 * va2 ].

  (* ECMech_util.h:883-921, with vw_vars_set.h:1-3; layout (nwvec, ndim, ndim) *)
  Definition d_rot_mat_wveccp_latop (w : list T) : list T :=
    let vw1 := get w 0 in let vw2 := get w 1 in let vw3 := get w 2 in
    [ vw1; zero; zero;  vw2; zero; zero;  vw3; zero; zero;
      zero; vw1; zero;  zero; vw2; zero;  zero; vw3; zero;
      zero; zero; vw1;  zero; zero; vw2;  zero; zero; vw3 ].

  (* ECMech_util.h:930-981; returns (dC_quat_dxi_T, dDapp_dxi, dWapp_dxi) *)
  Definition eval_d_dxi_impl_quat (d_vecd_sm w_vec_sm xi Cn_quat C_matx C_quat : list T)
    : list T * list T * list T :=
    let dA_quat_dxi_T := dquat_demap_T xi in
    let dC_quat_dxi_T :=
      quat_prod Cn_quat (sub dA_quat_dxi_T 0 4) ++
      quat_prod Cn_quat (sub dA_quat_dxi_T 4 4) ++
      quat_prod Cn_quat (sub dA_quat_dxi_T 8 4) in
    let dC_matx_dxi := vecsMABT 9 3 4 (d_quat_to_tensor C_quat) dC_quat_dxi_T in
    let dDapp_dxi := vecsMAB 5 3 9 (d_rot_mat_vecd_latop C_matx d_vecd_sm) dC_matx_dxi in
    let dWapp_dxi := vecsMAB 3 3 9 (d_rot_mat_wveccp_latop w_vec_sm) dC_matx_dxi in
    (dC_quat_dxi_T, dDapp_dxi, dWapp_dxi).

  (* ECMech_util.h:983-1047, with mc_vars_set.h and vadl_vars_set.h:1-5; layout (ntvec, ndim, ndim) *)
  Definition d_rot_mat_vecd_smop (c vec_lat : list T) : list T :=
    let c11 := get2 3 c 0 0 in let c21 := get2 3 c 1 0 in let c31 := get2 3 c 2 0 in
    let c12 := get2 3 c 0 1 in let c22 := get2 3 c 1 1 in let c32 := get2 3 c 2 1 in
    let c13 := get2 3 c 0 2 in let c23 := get2 3 c 1 2 in let c33 := get2 3 c 2 2 in
    let va1 := get vec_lat 0 in let va2 := get vec_lat 1 in let va3 := get vec_lat 2 in
    let va4 := get vec_lat 3 in let va5 := get vec_lat 4 in
    let n3 := nZ 3 in
    [ (* 0 0 0 *) c11 * va1 - c11 * sqr3 * va2 * onethird + c12 * va3 + c13 * va4;
      (* 0 0 1 *) c11 * va3 - c12 * va1 - c12 * sqr3 * va2 * onethird + c13 * va5;
      (* 0 0 2 *) c11 * va4 + c12 * va5 + twothird * c13 * sqr3 * va2;
      (* 0 1 0 *) - c21 * va1 + c21 * sqr3 * va2 * onethird - c22 * va3 - c23 * va4;
      (* 0 1 1 *) - c21 * va3 + c22 * va1 + c22 * sqr3 * va2 * onethird - c23 * va5;
      (* 0 1 2 *) - c21 * va4 - c22 * va5 - twothird * c23 * sqr3 * va2;
      (* 0 2 0 *) zero;
      (* 0 2 1 *) zero;
      (* 0 2 2 *) zero;

      (* 1 0 0 *) sqr3 * (- n3 * c11 * va1 + sqr3 * c11 * va2 - n3 * c12 * va3 - n3 * c13 * va4) * oneninth;
      (* 1 0 1 *) sqr3 * (- n3 * c11 * va3 + n3 * c12 * va1 + c12 * sqr3 * va2 - n3 * c13 * va5) * oneninth;
      (* 1 0 2 *) - sqr3 * c11 * va4 * onethird - sqr3 * c12 * va5 * onethird - twothird * c13 * va2;
      (* 1 1 0 *) - sqr3 * (n3 * c21 * va1 - c21 * sqr3 * va2 + n3 * c22 * va3 + n3 * c23 * va4) * oneninth;
      (* 1 1 1 *) sqr3 * (- n3 * c21 * va3 + n3 * c22 * va1 + sqr3 * va2 * c22 - n3 * c23 * va5) * oneninth;
      (* 1 1 2 *) - sqr3 * c21 * va4 * onethird - sqr3 * c22 * va5 * onethird - twothird * c23 * va2;
      (* 1 2 0 *) - twothird * sqr3i * (- n3 * c31 * va1 + c31 * sqr3 * va2 - n3 * c32 * va3 - n3 * c33 * va4);
      (* 1 2 1 *) - twothird * sqr3i * (- n3 * c31 * va3 + n3 * c32 * va1 + sqr3 * va2 * c32 - n3 * c33 * va5);
      (* 1 2 2 *) twothird * sqr3 * c31 * va4 + twothird * sqr3 * c32 * va5 + fourthirds * c33 * va2;

      (* 2 0 0 *) c21 * va1 - c21 * sqr3 * va2 * onethird + c22 * va3 + c23 * va4;
      (* 2 0 1 *) c21 * va3 - c22 * va1 - c22 * sqr3 * va2 * onethird + c23 * va5;
      (* 2 0 2 *) c21 * va4 + c22 * va5 + twothird * c23 * sqr3 * va2;
      (* 2 1 0 *) c11 * va1 - c11 * sqr3 * va2 * onethird + c12 * va3 + c13 * va4;
      (* 2 1 1 *) c11 * va3 - c12 * va1 - c12 * sqr3 * va2 * onethird + c13 * va5;
      (* 2 1 2 *) c11 * va4 + c12 * va5 + twothird * c13 * sqr3 * va2;
      (* 2 2 0 *) zero;
      (* 2 2 1 *) zero;
      (* 2 2 2 *) zero;

      (* 3 0 0 *) c31 * va1 - c31 * sqr3 * va2 * onethird + c32 * va3 + c33 * va4;
      (* 3 0 1 *) c31 * va3 - c32 * va1 - c32 * sqr3 * va2 * onethird + c33 * va5;
      (* 3 0 2 *) c31 * va4 + c32 * va5 + twothird * c33 * sqr3 * va2;
      (* 3 1 0 *) zero;
      (* 3 1 1 *) zero;
      (* 3 1 2 *) zero;
      (* 3 2 0 *) c11 * va1 - c11 * sqr3 * va2 * onethird + c12 * va3 + c13 * va4;
      (* 3 2 1 *) c11 * va3 - c12 * va1 - c12 * sqr3 * va2 * onethird + c13 * va5;
      (* 3 2 2 *) c11 * va4 + c12 * va5 + twothird * c13 * sqr3 * va2;

      (* 4 0 0 *) zero;
      (* 4 0 1 *) zero;
      (* 4 0 2 *) zero;
      (* 4 1 0 *) c31 * va1 - c31 * sqr3 * va2 * onethird + c32 * va3 + c33 * va4;
      (* 4 1 1 *) c31 * va3 - c32 * va1 - c32 * sqr3 * va2 * onethird + c33 * va5;
      (* 4 1 2 *) c31 * va4 + c32 * va5 + twothird * c33 * sqr3 * va2;
      (* 4 2 0 *) c21 * va1 - c21 * sqr3 * va2 * onethird + c22 * va3 + c23 * va4;
      (* 4 2 1 *) c21 * va3 - c22 * va1 - c22 * sqr3 * va2 * onethird + c23 * va5;
      (* 4 2 2 *) c21 * va4 + c22 * va5 + twothird * c23 * sqr3 * va2 ].

  (* ECMech_util.h:1054-1081 with l_T = false *)
  Definition qr6x6_pre_mul (n : nat) (M_in qr5x5 : list T) : list T :=
    tab2 5 n (fun iM jM => sum 5 (fun p => get2 5 qr5x5 iM p * get2 n M_in p jM)) ++
    tab n (fun jM => get2 n M_in 5 jM).

  (* ECMech_util.h:1083-1193; the work arrays t1_vec, t2_vec, t3_vec are inlined *)
  Definition mtan_conv_sd_svec (l_ddsdde_gamma : bool) (M : list T) : list T :=
    let C :=
      tab2 6 6 (fun i j =>
        let t3 := sqr3i * get2 6 M 5 j in
        let t1 := sqr2i * get2 6 M 0 j in
        let t2 := sqr6i * get2 6 M 1 j in
        match i with
        | 0 => t1 - t2 + t3
        | 1 => - t1 - t2 + t3
        | 2 => sqr2b3 * get2 6 M 1 j + t3
        | 3 => sqr2i * get2 6 M 4 j
        | 4 => sqr2i * get2 6 M 3 j
        | _ => sqr2i * get2 6 M 2 j
        end) in
    let sh := if l_ddsdde_gamma then sqr2i else sqr2 in
    tab2 6 6 (fun i j =>
      let t3 := get2 6 C i 5 * sqr3i in
      let t1 := get2 6 C i 0 * sqr2i in
      let t2 := get2 6 C i 1 * sqr6i in
      match j with
      | 0 => t1 - t2 + t3
      | 1 => - t1 - t2 + t3
      | 2 => sqr2b3 * get2 6 C i 1 + t3
      | 3 => get2 6 C i 4 * sh
      | 4 => get2 6 C i 3 * sh
      | _ => get2 6 C i 2 * sh
      end).

  (** ** Miller indices *)

  (* ECMech_util.h:1195-1205 *)
  Definition vecCrossProd (v1 v2 : list T) : list T :=
    [ get v1 1 * get v2 2 - get v1 2 * get v2 1;
      - get v1 0 * get v2 2 + get v1 2 * get v2 0;
      get v1 0 * get v2 1 - get v1 1 * get v2 0 ].
  (* ECMech_util.h:1210-1221 *)
  Definition m_to_o_dir (dir_m : list T) (cOverA : T) : list T :=
    [ get dir_m 0 - onehalf * (get dir_m 1 + get dir_m 2);
      sqr3 * onehalf * (get dir_m 1 - get dir_m 2);
      get dir_m 3 * cOverA ].
  (* ECMech_util.h:1227-1323; None models ECMECH_FAIL ("bad ann", "bad abb", "internal error").
     Returns (vecm, vecs). *)
  Definition miller_to_orthog_sngl (ann abb : list T) (cOverA : T) : option (list T * list T) :=
    if idp_eps_sqrt <? nabs (vecsssum 3 ann) then None else
    if idp_eps_sqrt <? nabs (vecsssum 3 abb) then None else
    let vecs := vecsVNormalize 3 (m_to_o_dir abb cOverA) in
    let vecm0 :=
      if vecsssumabs 3 ann <? idp_eps_sqrt then [nZ 0; nZ 0; nZ 1]
      else
        let '(m_a, m_b) :=
          if nabs (get ann 0) <? idp_eps_sqrt then
            ([nZ 0; one / get ann 1; nZ 0; nZ 0], [nZ 0; nZ 0; one / get ann 2; nZ 0])
          else if nabs (get ann 1) <? idp_eps_sqrt then
            ([one / get ann 0; nZ 0; nZ 0; nZ 0], [nZ 0; nZ 0; one / get ann 2; nZ 0])
          else
            ([one / get ann 0; nZ 0; nZ 0; nZ 0], [nZ 0; one / get ann 1; nZ 0; nZ 0]) in
        let pnt_a := m_to_o_dir m_a cOverA in
        let pnt_b := m_to_o_dir m_b cOverA in
        let vec_basal := tab 3 (fun i => get pnt_a i - get pnt_b i) in
        if nabs (get ann 3) <? idp_eps_sqrt then
          vecCrossProd vec_basal [nZ 0; nZ 0; nZ 1]
        else
          let m_c := [nZ 0; nZ 0; nZ 0; one / get ann 3] in
          let pnt_c := m_to_o_dir m_c cOverA in
          let vec_nb := tab 3 (fun i => get pnt_c i - get pnt_b i) in
          vecCrossProd vec_basal vec_nb in
    let vecm1 := vecsVNormalize 3 vecm0 in
    let vecm := if get vecm1 2 * get ann 3 <? nZ 0 then tab 3 (fun i => - get vecm1 i) else vecm1 in
    if idp_eps_sqrt <? nabs (vecsyadotb 3 vecm vecs) then None else Some (vecm, vecs).
End Util.
