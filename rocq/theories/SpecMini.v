(** What the mini-app is for, written with tensors: the velocity gradient and the Voigt stress of every point, the volume
    ratio and the energy kept behind the history variables, and what a step hands to the library and takes back. *)
From Coq Require Import List ZArith Bool Reals Permutation String.
From Verif Require Import Num NumR Hard MatModel Miniapp SpecTensor SpecApi SpecStep.
Import ListNotations.
Local Open Scope R_scope.

(** velocity gradient of point [q], stored column by column *)
Definition velGrad (a : App R) (q : nat) : M3 :=
  let L i j := nth (i + 3 * j + 9 * q) (ap_vgrad a) 0 in
  mk3 (L 0 0)%nat (L 0 1)%nat (L 0 2)%nat (L 1 0)%nat (L 1 1)%nat (L 1 2)%nat (L 2 0)%nat (L 2 1)%nat (L 2 2)%nat.
(** Cauchy stress of point [q], stored as xx yy zz yz xz xy *)
Definition cauchy (a : App R) (q : nat) : M3 := sym6 (fun k => nth (6 * q + k) (ap_stress a) 0).
(** state variable [k] of point [q]; the last two are the volume ratio and the internal energy *)
Definition stored (nst : nat) (a : App R) (q k : nat) : R := nth (nst * q + k) (ap_m a AH) 0.
Definition volume nst a q := stored nst a q (nst - 2).
Definition energy nst a q := stored nst a q (nst - 1).

(** arrays with the allocated sizes, orientation_evolution.cxx:358-385 *)
Definition sized {T} (nst n : nat) (a : App T) : Prop :=
  List.length (ap_vgrad a) = (9 * n)%nat /\ List.length (ap_stress a) = (6 * n)%nat /\
  forall x, List.length (ap_m a x) = (n * match x with AD => 7 | AW => 3 | AV => 4 | AE => 1 | AS => 7 | AH => nst | AT => 1
                                              | AB => 2 | AM => 36 end)%nat.
(** the loop over the points visits each of them once *)
Definition visits (n : nat) (qs : list nat) : Prop := Permutation qs (seq 0 n).
(** both loops of every step do *)
Definition orders_ok (n : nat) (orders : list (list nat * list nat)) : Prop :=
  forall o, In o orders -> visits n (fst o) /\ visits n (snd o).

(** The inputs of point [q] in the buffers [m] say the same as the arrays of the mini-app: deviatoric rate, volumetric rate
    and spin are the three parts of the velocity gradient; deviatoric stress and pressure are the two parts of the stress;
    the new volume is the old one grown at the constant rate trace(L). *)
Definition given (nst : nat) (dt : R) (a : App R) (s : MM R) (m : Mem R) (q : nat) : Prop :=
  velGrad a q = add3 (add3 (devRate s m q) (scal3 (val s m AD q 6 / 3) I3)) (axial (spin s m q)) /\
  trace (devRate s m q) = 0 /\
  cauchy a q = add3 (devStress s m q) (scal3 (- pres s m q) I3) /\ trace (devStress s m q) = 0 /\
  vOld s m q = volume nst a q /\ vNew s m q = volume nst a q * exp (dt * trace (velGrad a q)) /\
  delv s m q = vNew s m q - vOld s m q /\
  val s m AV q 2 = delv s m q / (dt * ((vOld s m q + vNew s m q) / 2)) /\
  eInt s m q = energy nst a q /\ tKel s m q = 300 /\
  (forall k, (k < nst - 2)%nat -> val s m AH q k = stored nst a q k).

(** The arrays of the mini-app say the same as the outputs of point [q] in the buffers [m]. *)
Definition taken (nst : nat) (a : App R) (s : MM R) (m : Mem R) (q : nat) : Prop :=
  cauchy a q = add3 (devStress s m q) (scal3 (- pres s m q) I3) /\
  volume nst a q = vNew s m q /\ energy nst a q = eInt s m q /\
  (forall k, (k < nst - 2)%nat -> stored nst a q k = val s m AH q k).

(** One step is one successful library call between two states of the mini-app. *)
Definition step_of (hs : Solver R) (c : MClass R) (s : MM R) (nst n : nat) (dt : R) (a a' : App R) (b : BCall) : Prop :=
  good hs c b /\ b_s b = s /\ b_dt b = dt /\ b_n b = n /\ ap_vgrad a' = ap_vgrad a /\
  forall q, (q < n)%nat -> given nst dt a s (b_m b) q /\ taken nst a' s (b_m1 b) q.
Fixpoint run_of (hs : Solver R) (c : MClass R) (s : MM R) (nst n : nat) (dt : R) (a : App R) (l : list BCall) (a' : App R) : Prop :=
  match l with
  | [] => a' = a
  | b :: r => exists a1, step_of hs c s nst n dt a a1 b /\ run_of hs c s nst n dt a1 r a'
  end.
(** every call reads the history variables the one before has written *)
Fixpoint linked (n nh : nat) (l : list BCall) : Prop :=
  match l with
  | b :: r => match r with [] => True
              | b' :: _ => forall q k, (q < n)%nat -> (k < nh)%nat -> val (b_s b') (b_m b') AH q k = val (b_s b) (b_m1 b) AH q k
              end /\ linked n nh r
  | [] => True
  end.

(** State before the first step: the library's initial values [h0] of the history variables except the flow strength
    (entry 2), the orientation read for the point, volume ratio 1, no energy, no stress; extension along z at unit rate. *)
Definition started (nst n : nat) (h0 ori : list R) (a : App R) : Prop :=
  sized nst n a /\ forall q, (q < n)%nat ->
  velGrad a q = mk3 (- / 2) 0 0 0 (- / 2) 0 0 0 1 /\ cauchy a q = mk3 0 0 0 0 0 0 0 0 0 /\
  volume nst a q = 1 /\ energy nst a q = 0 /\
  (forall k, (k < 4)%nat -> stored nst a q (9 + k) = nth (4 * q + k) ori 0) /\
  (forall k, (k < nst - 2)%nat -> k <> 2%nat -> (k < 9 \/ 12 < k)%nat -> stored nst a q k = nth k h0 0).

(** what the device line of the option file asks for *)
Inductive names_device : String.string -> Exec -> Prop :=
| names_cpu : names_device "CPU" CPU
| names_omp : names_device "OpenMP" OPENMP
| names_gpu : names_device "GPU" GPU.
