(** Running the model on the inputs of the repository's own tests, in binary64, with a trust-region dogleg solver in the
    place of SNLS, and comparing with the expected values of those tests, within the tolerances of those tests, together
    with the expected numbers of function evaluations.
    These are checks that the definitions were transcribed correctly, not theorems about the code. *)
From Coq Require Import List ZArith Bool Floats.
From Verif Require Import Num NumF Util SlipGeom Eos Hard KinVoce KinKMBalD Elast Evptn MatModel Cases.
Import ListNotations.
Local Open Scope float_scope.

(** ** Solvers *)
Definition nrm2 (l : list float) : float := fold_left (fun s x => s + x * x) l 0.
(** Gaussian elimination with partial pivoting; rows carry their right-hand sides *)
Fixpoint pick (rows : list (list float)) : option (list float * list (list float)) :=
  match rows with
  | [] => None
  | r :: rs =>
    match pick rs with
    | None => Some (r, [])
    | Some (p, others) => if abs (hd 0 p) <? abs (hd 0 r) then Some (r, p :: others) else Some (p, r :: others)
    end
  end.
Fixpoint zipW (f : float -> float -> float) (a b : list float) : list float :=
  match a, b with x :: a', y :: b' => f x y :: zipW f a' b' | _, _ => [] end.
(** unknowns of the rows, each row: n coefficients, then m right-hand sides; result: n rows of m values *)
Fixpoint gauss (n : nat) (rows : list (list float)) : option (list (list float)) :=
  match n with
  | O => Some []
  | S n' =>
    match pick rows with
    | None => None
    | Some (p, rs) =>
      let a := hd 0 p in
      if a =? 0 then None else
      let rs' := map (fun r => let q := hd 0 r / a in zipW (fun x y => x - q * y) (tl r) (tl p)) rs in
      match gauss n' rs' with
      | None => None
      | Some xs =>
        let rhs := skipn n' (tl p) in
        let s := fold_left (fun acc cx => zipW (fun u v => u - fst cx * v) acc (snd cx)) (combine (firstn n' (tl p)) xs) rhs in
        Some (map (fun u => u / a) s :: xs)
      end
    end
  end.
Fixpoint rows_of (n : nat) (m : nat) (l : list float) : list (list float) :=
  match n with O => [] | S n' => firstn m l :: rows_of n' m (skipn m l) end.
Definition join (rows : list (list float)) (f : list float) : list (list float) := map (fun rx => fst rx ++ [snd rx]) (combine rows f).
(** decimal literals *)
Definition L (m e : Z) : float := F_lit m e.
Definition newton_dir (n : nat) (f J : list float) : option (list float) :=
  match gauss n (join (rows_of n n J) f) with Some xs => Some (map (fun r => - hd 0 r) xs) | None => None end.

(** ** A trust-region dogleg solver, in the manner of SNLS
    [snls::SNLSTrDlDenseG] with the default [snls::TrDeltaControl] (growth limits 0.75 and 1.4, growth
    factor 1.5, decrease outside 0.35 and 5, decrease factor 0.25, forced growth 1.2, bounds 1e-12 and 1e4,
    initial radius 1). SNLS is not in /repo; this is a reconstruction, and the evaluation counts and the
    numbers below are the evidence for it. *)
Definition matv (rows : list (list float)) (x : list float) : list float := map (fun r => fold_left add (zipW mul r x) 0) rows.
Definition matTv (n : nat) (rows : list (list float)) (x : list float) : list float :=
  fold_left (fun acc rx => zipW (fun u v => u + snd rx * v) acc (fst rx)) (combine rows x) (repeat 0 n).
Definition fmx (a b : float) : float := if a <? b then b else a.
Definition fmn (a b : float) : float := if a <? b then a else b.
(** the step, the residual it predicts, and whether it is the full Newton step *)
Definition dogleg (delta res0 nrn Jg2 : float) (grad nr : list float) : list float * float * bool :=
  if nrn <=? delta then (nr, 0, true) else
  let g2 := nrm2 grad in
  let g := PrimFloat.sqrt g2 in
  let alpha := if 0 <? Jg2 then g2 / Jg2 else 1 in
  let gi := if 0 <? g then 1 / g else 1 in
  let sd := alpha * g in
  if delta <=? sd then
    let v := 0.5 * (delta * delta) * Jg2 * (gi * gi) - delta * g in
    (map (fun u => - (delta * gi) * u) grad, PrimFloat.sqrt (fmx (2 * v + res0 * res0) 0), false)
  else
    let p := zipW (fun a b => a + alpha * b) nr grad in
    let qa := nrm2 p in
    let qb := alpha * fold_left add (zipW mul p grad) 0 in
    let qc := sd * sd - delta * delta in
    let beta := fmx 0 (fmn 1 ((qb + PrimFloat.sqrt (qb * qb - qa * qc)) / qa)) in
    let omb := 1 - beta in
    let rc := if 0 <? Jg2 then PrimFloat.sqrt (fmx (res0 * res0 - alpha * g2) 0) else res0 in
    (zipW (fun a b => beta * a - omb * alpha * b) nr grad, omb * rc, false).
(** the next radius, None when it falls below the smallest *)
Definition next_delta (delta res res0 pred nrn : float) (full : bool) : option float :=
  let act := res - res0 in
  let prd := pred - res0 in
  if prd =? 0 then (if L 1 4 <=? delta then None else Some (fmn (delta * L 12 (-1)) (L 1 4))) else
  let rho := act / prd in
  if (L 75 (-2) <? rho) && (act <? 0) && (rho <? L 14 (-1)) then Some (fmn (delta * 1.5) (L 1 4))
  else if (rho <? L 35 (-2)) || (L 5 0 <? rho) then
    let d := if full then PrimFloat.sqrt ((delta * 0.25) * (nrn * 0.25)) else delta * 0.25 in
    if d <? L 1 (-12) then None else Some d
  else Some delta.
(** the Newton step, the gradient and |J grad|^2 at a point; kept when a step is refused *)
Definition plan (n : nat) (fj : list float * list float) : option (list float * list float * float) :=
  let rows := rows_of n n (snd fj) in
  let grad := matTv n rows (fst fj) in
  match newton_dir n (fst fj) (snd fj) with Some nr => Some (nr, grad, nrm2 (matv rows grad)) | None => None end.
Fixpoint snls (it n nf : nat) (rj : list float -> list float * list float) (tol : float) (x : list float)
  (pl : option (list float * list float * float)) (res0 delta : float) : bool * list float * nat :=
  match it with
  | O => (false, x, nf)
  | S it' =>
    match pl with
    | None => (false, x, nf)
    | Some (nr, grad, Jg2) =>
      let nrn := PrimFloat.sqrt (nrm2 nr) in
      let '(dx, pred, full) := dogleg delta res0 nrn Jg2 grad nr in
      let x' := zipW add x dx in
      let fj := rj x' in
      let res := PrimFloat.sqrt (nrm2 (fst fj)) in
      if res <? tol then (true, x', S nf) else
      match next_delta delta res res0 pred nrn full with
      | None => (false, x', S nf)
      | Some delta' =>
        if 0 <? res - res0 then snls it' n (S nf) rj tol x pl res0 delta'
        else snls it' n (S nf) rj tol x' (plan n fj) res delta'
      end
    end
  end.
Definition solverF : Solver float := fun n rj tol it x0 =>
  let fj := rj x0 in
  let '(ok, x, nf) := snls it n 1 rj tol x0 (plan n fj) (PrimFloat.sqrt (nrm2 (fst fj))) 1 in
  {| so_converged := ok; so_x := x; so_xlast := x; so_nfev := nf; so_nfev_rj := S nf |}.
(** the right-hand sides are rows *)
Definition luF : LUSolver float := fun n a b m =>
  match gauss n (map (fun i => nth i (rows_of n n a) [] ++ map (fun r => nth i r 0) (rows_of m n b)) (seq 0 n)) with
  | None => None
  | Some xs => Some (flat_map (fun r => map (fun row => nth r row 0) xs) (seq 0 m))
  end.

Definition close (x y tol : float) : bool := abs (x - y) <? tol.

(** ** Parameters: test/setup_*.h *)
Definition v_base : list float := [L 3 0; L 2 (-5); L 1 (-10)].
Definition v_elastn : list float := [L 3 0; L 1 0; L 1 0].
Definition v_elastn_hcp : list float := [L 1624 (-3); L 92 (-2); L 69 (-2); L 1807 (-3); L 467 (-3); L 0 0].
Definition v_voce (xm : float) : list float := [L 1 0; xm; L 1 0; L 200 (-5); L 100 (-5); L 400 (-5); L 5 (-2); L 1 (-6); L 100 (-5)].
Definition v_voce_nl (xm : float) : list float := [L 1 0; xm; L 1 0; L 200 (-5); L 100 (-5); L 400 (-5); L 2 0; L 5 (-2); L 1 (-6); L 100 (-5)].
Definition v_km (n : nat) (p q : float) : list float :=
  [L 1 0; L 300 0] ++ repeat (L 20000 0) n ++ [L 4 (-3); p; q; L 20 0; L 1 3; L 2 (-2)] ++ repeat (L 1 (-4)) n ++ repeat (L 5 (-5)) n ++
  [L 100 0; L 10 0; L 5 (-2); L 1 (-6); L 25 (-2)].
Definition v_eos : list float := [L 17 (-1); - (L 2 (-5) * 300)].


Definition near (x : option float) (y tol : float) : bool := match x with Some v => close v y tol | None => false end.
(** ** test_hardening.cxx: one hardness update over 0.1 at a slip rate of 1/12 on the first system, and its number of evaluations *)
Definition v_gdot : list float := (1 / 12) :: repeat 0 11.
Definition hard_ok (x : option (float * nat)) (y tol : float) (nf : nat) : bool :=
  match x with Some (v, n) => close v y tol && Nat.eqb n nf | None => false end.
Definition v_voce_ns : list float := [L 1 0; L 1 (-2); L 1 0; L 200 (-5); L 100 (-5); L 100 (-5); L 0 0; L 1 (-6); L 100 (-5)].
Definition v_voce_ns_nl : list float := [L 1 0; L 1 (-2); L 1 0; L 200 (-5); L 100 (-5); L 100 (-5); L 2 0; L 0 0; L 1 (-6); L 100 (-5)].
(* hist entries of the kinetics: the initial hardness *)
Definition h0_of (h : list (HistEntry float)) : list float := map (fun e => snd (fst (fst e))) h.
Definition hard_run (c : MClass float) (l : list float) : option (float * nat) :=
  match c_kinSet c l with
  | Some (k, h) => option_map (fun r => (nth 0 (fst r) 0, snd r)) (k_updateH k (h0_of h) (L 1 (-1)) v_gdot)
  | None => None
  end.
Definition xm1 : float := L 1 (-2).
Definition km_fff : list float := v_km 1 (L 28 (-2)) (L 134 (-2)).
(* test_hardening.cxx:9-53, without and with KIN_NONLINEAR *)
Example hard_voce : hard_ok (hard_run (cls_FCC_A solverF) (v_voce xm1)) (L 1016620868315 (-15)) (L 1 (-11)) 2 = true.
Proof. vm_compute. reflexivity. Qed.
Example hard_voce_nl : hard_ok (hard_run (cls_FCC_AH solverF) (v_voce_nl xm1)) (L 1016575445448 (-15)) (L 1 (-11)) 3 = true.
Proof. vm_compute. reflexivity. Qed.
(* test_hardening.cxx:55-90 *)
Example hard_voce_ns : hard_ok (hard_run (cls_FCC_A solverF) v_voce_ns) (L 1 (-3)) (L 1 (-15)) 2 = true.
Proof. vm_compute. reflexivity. Qed.
Example hard_voce_ns_nl : hard_ok (hard_run (cls_FCC_AH solverF) v_voce_ns_nl) (L 1 (-3)) (L 1 (-15)) 2 = true.
Proof. vm_compute. reflexivity. Qed.
(* test_hardening.cxx:92-124 *)
Example hard_km : hard_ok (hard_run (cls_FCC_B solverF) km_fff) (L 6633659171982 (-13)) (L 1 (-8)) 5 = true.
Proof. vm_compute. reflexivity. Qed.

(** ** test_evptn.cxx, test_updst.cxx updst_a: one step *)
(** an object with its initial history *)
Definition v_obj (c : MClass float) (pars : list float) : option (MM float * list float) :=
  match mm_init c (mm_new c) [] pars [] with
  | (Done, s) => let s := mm_doComplete s in
                 option_map (fun h => (s, map (fun e : HistEntry float => snd (fst (fst e))) h)) (mm_getHistInfo c s)
  | _ => None
  end.
Definition v_mem (d w vr h : list float) (mtan : bool) : Mem float := fun a =>
  match a with AD => d | AW => w | AV => vr | AE => [0] | AS => repeat 0 7 | AH => h | AT => [0] | AB => [0; 0] | AM => if mtan then repeat 0 36 else [] end.
Definition v_d : list float := map (fun x => x * PrimFloat.sqrt (2 / 3)) [-0.5; -0.5; 1; 0; 0; 0; 0].
(** the orientation of NON_I_QUAT, test_updst.cxx:79-88 *)
Definition v_q : list float :=
  let th := 0.5 * L 2 (-1) in let et := L 7 (-1) in [F_cos th; F_sin th * F_cos et; F_sin th * F_sin et; 0].
Definition with_q (o : option (list float)) (h : list float) : list float :=
  match o with Some q => firstn 9 h ++ q ++ skipn 13 h | None => h end.
Definition v_step (c : MClass float) (pars : list float) (q : option (list float)) (mtan : bool) : option (list float) :=
  match v_obj c pars with
  | None => None
  | Some (s, h) =>
    match mm_getResponse solverF luF c s (L 1 (-1)) mtan 1 (v_mem v_d [0; 0; 0.5] [1; 1; 0; 0] (with_q q h) mtan) with
    | (BRet Done, m) => Some (m AH)
    | _ => None
    end
  end.
(** the comparisons of updst_a: evaluations, lattice strain, quaternion, one slip rate *)
Definition step_ok (o : option (list float)) (nf : nat) (e2 q1 g : float) (k : nat) : bool :=
  match o with
  | Some h => (nth 3 h nan =? F_Z (Z.of_nat nf)) && close (nth 5 h nan) e2 (L 1 (-10)) && close (nth 9 h nan) q1 (L 1 (-8)) &&
              close (nth k h nan) g (L 1 (-8))
  | None => false
  end.
Definition p_fccA (xm : float) : list float := v_base ++ v_elastn ++ v_voce xm ++ v_eos.
Definition p_fccB : list float := v_base ++ v_elastn ++ km_fff ++ v_eos.
Definition p_hcpA : list float := v_base ++ [L 159773226818 (-11)] ++ v_elastn_hcp ++ v_km 24 (L 1 0) (L 1 0) ++ v_eos.
(* KIN_TYPE 0, without and with the tangent: one evaluation more with it *)
Example step_fccA : step_ok (v_step (cls_FCC_A solverF) (p_fccA xm1) None false) 18 (L 9861349707681 (-16)) (L 999687516276 (-12)) (L 2475346625929 (-13)) 15 = true.
Proof. vm_compute. reflexivity. Qed.
Example step_fccA_mtan : step_ok (v_step (cls_FCC_A solverF) (p_fccA xm1) None true) 19 (L 9861349707681 (-16)) (L 999687516276 (-12)) (L 2475346625929 (-13)) 15 = true.
Proof. vm_compute. reflexivity. Qed.
(* KIN_TYPE 0 with XM_MUSHY and NON_I_QUAT *)
Example step_mushy : step_ok (v_step (cls_FCC_A solverF) (p_fccA (L 1 (-1))) (Some v_q) false) 13 (L 82808734102797 (-17)) (L 9956165282270 (-13)) (L 4607285834886 (-13)) 15 = true.
Proof. vm_compute. reflexivity. Qed.
(* KIN_TYPE 1 *)
Example step_fccB : step_ok (v_step (cls_FCC_B solverF) p_fccB None false) 23 (L 407276458021 (-14)) (L 999687516276 (-12)) (L 2398180885495 (-13)) 15 = true.
Proof. vm_compute. reflexivity. Qed.
(* KIN_TYPE 2: test_evptn.cxx looks at the slip rate of system 12 *)
Example step_hcpA : step_ok (v_step (cls_HCP_A solverF) p_hcpA None false) 16 (L 67661223196391 (-16)) (L 9996875162757 (-13)) (L 15704792600045 (-14)) 26 = true.
Proof. vm_compute. reflexivity. Qed.
(* KIN_TYPE 3 *)
Example step_bccA : step_ok (v_step (cls_BCC_A solverF) p_fccB None false) 9 (L 23952767304669 (-16)) (L 9996875162757 (-13)) (L 24401180817524 (-14)) 15 = true.
Proof. vm_compute. reflexivity. Qed.

(** ** test_updst.cxx driver_a: 100 steps, carrying energy, stress and history forward *)
Definition v_rate : float := L 1 (-6).
Definition v_dt : float := L 2 (-3) / v_rate.
Definition v_dr : list float := [-0.5 * v_rate; -0.5 * v_rate; 1 * v_rate; 0; 0; 0; 0].
Fixpoint v_drive (k : nat) (n : Z) (c : MClass float) (s : MM float) (m : Mem float) : option (Mem float) :=
  match k with
  | O => Some m
  | S k' =>
    match mm_getResponse solverF luF c s v_dt false n m with
    | (BRet Done, m') => v_drive k' n c s m'
    | _ => None
    end
  end.
Definition v_driver (c : MClass float) (pars : list float) (q : option (list float)) (k : nat) : option (MM float * Mem float) :=
  match v_obj c pars with
  | None => None
  | Some (s, h) => option_map (fun m => (s, m)) (v_drive k 1 c s (v_mem v_dr [0; 0; 0] [1; 1; 0; 0] (with_q q h) false))
  end.
Example driver_a :
  match v_driver (cls_FCC_B solverF) p_fccB None 100 with
  | Some (_, m) => close (nth 2 (m AS) nan) (L 6664661118275 (-15)) (L 1 (-10)) && close (nth 13 (m AH) nan) (L 8861845050083 (-11)) (L 1 (-8)) &&
                   close (nth 6 (m AS) nan) (L 332602112947 (-14)) (L 1 (-10))
  | None => false
  end = true.
Proof. vm_compute. reflexivity. Qed.

(** ** DO_FD_CHECK_MTAN: the tangent against finite differences, after 100 steps, test_updst.cxx:268-353 *)
Definition svec6 (s : list float) : list float := let p := nth 6 s nan in map (fun i => nth i s nan - p) [0; 1; 2]%nat ++ map (fun i => nth i s nan) [3; 4; 5]%nat.
Definition v_pert : float := L 1 (-8) * v_rate.
Definition third : float := 1 / 3.
Definition d_pert (j : nat) : list float :=
  let d := v_dr in
  let bump i x := nth i d 0 + x in
  if Nat.ltb j 3 then
    let d' := map (fun i => if Nat.eqb i j then bump i v_pert else bump i 0) (seq 0 7) in
    let kk := nth 0 d' 0 + nth 1 d' 0 + nth 2 d' 0 in
    map (fun i => if Nat.ltb i 3 then nth i d' 0 - third * kk else if Nat.eqb i 6 then nth i d' 0 + kk else nth i d' 0) (seq 0 7)
  else map (fun i => if Nat.eqb i j then bump i (0.5 * v_pert) else bump i 0) (seq 0 7).
Definition vr_of (d : list float) : list float :=
  let v1 := F_exp (nth 6 d 0 * v_dt) in [1; v1; (v1 - 1) / (v_dt * 0.5 * (1 + v1)); v1 - 1].

Definition fd_ok (c : MClass float) (pars : list float) (q : option (list float)) : bool :=
  match v_driver c pars q 100 with
  | None => false
  | Some (s, m) =>
    match mm_getResponse solverF luF c s v_dt true 1 (mset m AM (repeat 0 36)) with
    | (BRet Done, mt) =>
      let base := svec6 (mt AS) in
      forallb (fun j =>
        let d := d_pert j in
        match mm_getResponse solverF luF c s v_dt false 1 (mset (mset m AD d) AV (vr_of d)) with
        | (BRet Done, mp) =>
          forallb (fun i => close ((nth i (svec6 (mp AS)) nan - nth i base nan) / v_pert / v_dt) (nth (i * 6 + j) (mt AM) nan) (L 1 (-3))) (seq 0 6)
        | _ => false
        end) (seq 0 6)
    | _ => false
    end
  end.
Example fd_mtan : fd_ok (cls_FCC_A solverF) (p_fccA (L 1 (-1))) (Some v_q) = true.
Proof. vm_compute. reflexivity. Qed.
