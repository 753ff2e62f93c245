(** test_px.cxx: sixteen randomly oriented points in one batch, 100 steps, in binary64, against the expected average stress
    of that test. The generator and the normal distribution are those of libstdc++ (std::default_random_engine is
    minstd_rand0, std::normal_distribution is the polar method), which are not part of /repo. *)
From Coq Require Import List ZArith Bool Floats.
From Verif Require Import Num NumF Util SlipGeom Eos Hard KinVoce KinKMBalD Elast Evptn MatModel Cases Validate.
Import ListNotations.
Local Open Scope float_scope.

Definition lcg (x : Z) : Z := (16807 * x mod 2147483647)%Z.
Definition rng_r : float := F_Z 2147483646.
(** std::generate_canonical: two draws *)
Definition canon (x : Z) : float * Z :=
  let a := lcg x in let b := lcg a in
  ((F_Z (a - 1) + F_Z (b - 1) * rng_r) / (rng_r * rng_r), b).
Fixpoint polar (k : nat) (x : Z) : float * float * Z :=
  match k with
  | O => (0, 0, x)
  | S k' =>
    let '(u, x1) := canon x in let '(v, x2) := canon x1 in
    let a := 2 * u - 1 in let b := 2 * v - 1 in
    let r := a * a + b * b in
    if (1 <? r) || (r =? 0) then polar k' x2
    else let m := PrimFloat.sqrt (-2 * F_log r / r) in (b * m, a * m, x2)
  end.
Fixpoint normals (n : nat) (x : Z) : list float :=
  match n with O => [] | S n' => let '(a, b, x') := polar 50 x in a :: b :: normals n' x' end.
Definition unit4 (q : list float) : list float := let s := 1 / PrimFloat.sqrt (nrm2 q) in map (fun u => u * s) q.
Definition px_quats : list (list float) := map unit4 (rows_of 16 4 (normals 32 1%Z)).
Definition rep16 (l : list float) : list float := concat (repeat l 16).
Definition px_mem (h : list float) : Mem float := fun a =>
  match a with
  | AD => rep16 v_dr | AW => rep16 [0; 0; 0] | AV => rep16 [1; 1; 0; 0] | AE => rep16 [0] | AS => rep16 (repeat 0 7)
  | AH => concat (map (fun q => with_q (Some q) h) px_quats) | AT => rep16 [0] | AB => rep16 [0; 0] | AM => []
  end.
Definition px_avg (c : MClass float) (pars : list float) (k : nat) : option float :=
  match v_obj c pars with
  | None => None
  | Some (s, h) => option_map (fun m => fold_left (fun acc i => acc + 0.0625 * nth (i * 7 + 2) (m AS) nan) (seq 0 16) 0) (v_drive k 16 c s (px_mem h))
  end.
(** The two runs take minutes, so they are evaluated while this file is compiled and only the comparison of the result is
    left to the kernel; nothing else depends on them. *)
Definition px_fccB : option float := Eval vm_compute in px_avg (cls_FCC_B solverF) p_fccB 100.
Example px_a_fccB : near px_fccB (L 816346240674 (-14)) (L 1 (-10)) = true.
Proof. vm_compute. reflexivity. Qed.
Definition px_fccA : option float := Eval vm_compute in px_avg (cls_FCC_A solverF) (p_fccA xm1) 100.
Example px_a_fccA : near px_fccA (L 344825801180 (-14)) (L 1 (-10)) = true.
Proof. vm_compute. reflexivity. Qed.
