(** What a Python user sees: array elements, documented model names and widths. *)
From Coq Require Import List ZArith Bool Lia Reals String.
From Verif Require Import Num NumR Hard Evptn MatModel Cases Py SpecTensor SpecApi SpecBatch.
Import ListNotations.
Local Open Scope string_scope.
Local Open Scope list_scope.

(** where numpy finds element [i, j] and what it reads there *)
Definition where2 (a : PyArr R) (i j : nat) : Z :=
  (Z.of_nat (py_off a) + Z.of_nat i * nth 0 (py_strides a) 0 + Z.of_nat j * nth 1 (py_strides a) 0)%Z.
Definition elem (a : PyArr R) (i j : nat) : R := nth (Z.to_nat (where2 a i j)) (py_base a) 0%R.
(** an array of [n] rows and [w] columns that numpy can hand out: every element lies in the allocated memory *)
Definition table2 (n w : nat) (a : PyArr R) : Prop :=
  py_shape a = [Z.of_nat n; Z.of_nat w] /\ List.length (py_strides a) = 2%nat /\
  forall i j, (i < n)%nat -> (j < w)%nat -> (0 <= where2 a i j < Z.of_nat (List.length (py_base a)))%Z.
(** row after row without gaps (numpy's C order) *)
Definition row_major (w : nat) (a : PyArr R) : Prop := py_strides a = [Z.of_nat w; 1%Z].
(** the same shape and elements *)
Definition same_elems (n w : nat) (a b : PyArr R) : Prop :=
  py_shape a = py_shape b /\ forall i j, (i < n)%nat -> (j < w)%nat -> elem a i j = elem b i j.

(** a contiguous vector *)
Definition vector (n : nat) (a : PyArr R) : Prop :=
  py_shape a = [Z.of_nat n] /\ py_strides a = [1%Z] /\ (py_off a + n <= List.length (py_base a))%nat.
Definition entry1 (a : PyArr R) (k : nat) : R := nth (Z.to_nat (Z.of_nat (py_off a) + Z.of_nat k * nth 0 (py_strides a) 0%Z)) (py_base a) 0%R.

(** documented names (ecmech_pybind11.cpp:28-49), library class, number of parameters, number of history variables *)
Definition py_table (hs : Solver R) : list (string * MClass R * nat * nat) :=
  [ ("voce_fcc_norm", cls_FCC_A hs, 17%nat, 26%nat); ("voce_nl_fcc_norm", cls_FCC_AH hs, 18%nat, 26%nat);
    ("voce_bcc_norm", cls_BCC_B hs, 17%nat, 26%nat); ("voce_nl_bcc_norm", cls_BCC_BH hs, 18%nat, 26%nat);
    ("km_bal_dd_fcc_norm", cls_FCC_B hs, 24%nat, 26%nat); ("km_bal_dd_bcc_norm", cls_BCC_A hs, 24%nat, 26%nat);
    ("km_bal_dd_hcp_norm", cls_HCP_A hs, 97%nat, 38%nat) ].
(** for six of them there is a developer object; with the name of the hardness variable (ecmech_pybind11.cpp:75-95) *)
Definition dev_table {T} {N : Num T} (hs : Solver T) : list (string * MClass T * nat * nat * string) :=
  [ ("voce_fcc_norm", cls_FCC_A hs, 17%nat, 26%nat, "h"); ("voce_nl_fcc_norm", cls_FCC_AH hs, 18%nat, 26%nat, "h");
    ("voce_bcc_norm", cls_BCC_B hs, 17%nat, 26%nat, "h"); ("voce_nl_bcc_norm", cls_BCC_BH hs, 18%nat, 26%nat, "h");
    ("km_bal_dd_fcc_norm", cls_FCC_B hs, 24%nat, 26%nat, "rho_dd"); ("km_bal_dd_bcc_norm", cls_BCC_A hs, 24%nat, 26%nat, "rho_dd") ].
(** names the developer object gives to the history variables *)
Definition dev_names (hardness : string) : list string :=
  ["effective_shearing_rate"; "effective_shearing"; "flow_strength"; "n_function_evals";
   "deviatoric_elastic_strain_1"; "deviatoric_elastic_strain_2"; "deviatoric_elastic_strain_3"; "deviatoric_elastic_strain_4";
   "deviatoric_elastic_strain_5"; "quat_1"; "quat_2"; "quat_3"; "quat_4"; hardness;
   "shearing_rate_1"; "shearing_rate_2"; "shearing_rate_3"; "shearing_rate_4"; "shearing_rate_5"; "shearing_rate_6";
   "shearing_rate_7"; "shearing_rate_8"; "shearing_rate_9"; "shearing_rate_10"; "shearing_rate_11"; "shearing_rate_12"].
(** columns of each array of solve *)
Definition columns (nh : nat) (x : arr) : nat :=
  match x with AD => 7 | AW => 3 | AV => 4 | AE => 1 | AS => 7 | AH => nh | AT => 1 | AB => 2 | AM => 0 end%nat.
Definition solve_args : list arr := [AD; AW; AV; AE; AS; AH; AT; AB].

(** ** The developer interface *)
(** residual and Jacobian the object reports *)
Definition dev_rj (v : Dev R) (x : list R) : list R * list R :=
  match dev_computeRJ v x with Some (f, J, _) => (f, J) | None => ([], []) end.
(** the object after computeRJ at each of [xs] *)
Definition dev_evals (v : Dev R) (xs : list (list R)) : option (Dev R) := dev_run v (map DRJ xs).
(** Point [i] of a library call done by hand: setup with the values of the point before the call, the solver of the call
    applied to what computeRJ reports, computeRJ at any points the last of which is the one the solver evaluated last, and
    getState at the solution, on the values before the call. *)
Definition by_hand (c : MClass R) (b : BCall) (tol : R) (i : nat) (v : Dev R) (xs : list (list R)) (v1 v2 v3 : Dev R) (q : Pt R) : Prop :=
  let P := point c (b_s b) false (b_m b) i in
  dev_setup v (b_dt b) (P AD) (P AW) (P AV) (P AE) (P AS) (P AH) = (Done, v1) /\
  let r := b_solver b 8%nat (dev_rj v1) tol 200%nat (repeat 0%R 8) in
  so_converged r = true /\ xs <> [] /\ last xs [] = so_xlast r /\ dev_evals v1 xs = Some v2 /\
  dev_getState v2 (so_x r) {| pt_eInt := P AE; pt_stress := P AS; pt_hist := P AH; pt_tkelv := tKel (b_s b) (b_m b) i;
                              pt_sdd := P AB; pt_mtan := None |} = Some (Done, v3, q).
(** [q] holds what the library call left for point [i]: stress, temperature, bulk and shear modulus, and the history except
    the evaluation counter *)
Definition same_state (c : MClass R) (b : BCall) (i : nat) (q : Pt R) : Prop :=
  pt_stress q = point c (b_s b) false (b_m1 b) i AS /\ pt_tkelv q = tKel (b_s b) (b_m1 b) i /\
  pt_sdd q = point c (b_s b) false (b_m1 b) i AB /\ List.length (pt_hist q) = mm_numHist c /\
  forall k, (k < mm_numHist c)%nat -> k <> 3%nat -> nth k (pt_hist q) 0%R = val (b_s b) (b_m1 b) AH i k.
