(** C56: the mini-app runs what its input files say. *)
From Coq Require Import List ZArith Bool Lia PeanoNat Reals Lra String Ascii.
From Verif Require Import Num NumR Hard MatModel Cases Miniapp MiniFiles SpecFiles SpecApi SpecObj SpecMini P_Files P_Files2 P_Demo P_Demo8 P_Demo13.
Import ListNotations.
Local Open Scope string_scope.

(** Any scalars, any reader of numbers.  With orientations listed in the file, the program gets past its input exactly if
    every line after the first begins with four numbers and every line of the property file with one; the input is these
    numbers in this order. *)
Theorem C56_read {T} {N : Num T} rd_dbl rd_uint (draw : nat -> T) fs args o m p d w k ql pl n q m' d' props :
  opened fs args o m p d -> file_text fs o ql -> file_text fs p pl -> header rd_uint (hd "" ql) w k -> w <> "#random" ->
  app_input rd_dbl rd_uint draw fs args = Input n q m' d' props <->
  m' = m /\ d' = d /\ n = Z.of_nat (List.length (tl ql)) /\ rows rd_dbl 4 (tl ql) q /\ rows rd_dbl 1 pl props.
Proof. exact (input_data rd_dbl rd_uint draw fs args o m p d w k ql pl n q m' d' props). Qed.
(** Otherwise the message names the first line (the one after the header is line 1) that does not begin with four numbers; *)
Theorem C56_bad_orientation {T} {N : Num T} rd_dbl rd_uint (draw : nat -> T) fs args o m p d w k ql j :
  opened fs args o m p d -> file_text fs o ql -> header rd_uint (hd "" ql) w k -> w <> "#random" ->
  app_input rd_dbl rd_uint draw fs args = BadQuat j <-> first_bad rd_dbl 4 (tl ql) j.
Proof. exact (input_bad_ori rd_dbl rd_uint draw fs args o m p d w k ql j). Qed.
(** or the first line of the property file that does not begin with a number; *)
Theorem C56_bad_property {T} {N : Num T} rd_dbl rd_uint (draw : nat -> T) fs args o m p d w k ql pl j :
  opened fs args o m p d -> file_text fs o ql -> file_text fs p pl -> header rd_uint (hd "" ql) w k ->
  (w = "#random" \/ exists q, rows rd_dbl 4 (tl ql) q) ->
  app_input rd_dbl rd_uint draw fs args = BadProp j <-> first_bad rd_dbl 1 pl j.
Proof. exact (input_bad_prop rd_dbl rd_uint draw fs args o m p d w k ql pl j). Qed.
(** or says that there is not exactly one argument, that the option file has fewer than four lines (or is missing), or that
    the first line of the orientation file is not a word and a number (or the file is missing). *)
Theorem C56_other_messages {T} {N : Num T} rd_dbl rd_uint (draw : nat -> T) fs args :
  (app_input rd_dbl rd_uint draw fs args = BadUsage <-> List.length args <> 1%nat) /\
  (app_input rd_dbl rd_uint draw fs args = BadOptions <-> List.length args = 1%nat /\ forall o m p d, ~ opened fs args o m p d) /\
  (app_input rd_dbl rd_uint draw fs args = BadHeader <->
     exists o m p d ql, opened fs args o m p d /\ file_text fs o ql /\ forall w k, ~ header rd_uint (hd "" ql) w k).
Proof. exact (input_others rd_dbl rd_uint draw fs args). Qed.

Local Open Scope R_scope.
(** The state before the first step: one point for each orientation line, with the four numbers of its line as orientation;
    the model and the device are those named in the option file, and the model has the numbers of the property file as its
    parameters, one on each line. *)
Theorem C56_points rd_dbl rd_uint draw fs hs openmp gpu mem order args n c s nst dev a o m p d ql pl w k :
  (forall n nst, sized nst n (mem n nst)) -> (forall n, visits n (order n)) ->
  app_setup rd_dbl rd_uint draw fs hs openmp gpu mem order args = Started n c s nst dev a ->
  opened fs args o m p d -> file_text fs o ql -> file_text fs p pl -> header rd_uint (hd ""%string ql) w k -> w <> "#random"%string ->
  n = List.length (tl ql) /\
  (forall q, (q < n)%nat -> numbers rd_dbl (nth q (tl ql) ""%string) [stored nst a q 9; stored nst a q 10; stored nst a q 11; stored nst a q 12]) /\
  ((m = "voce"%string /\ c = cls_FCC_A hs) \/ (m = "mts"%string /\ c = cls_FCC_B hs)) /\ names_device d dev /\
  exists props, in_use c s props /\ List.length pl = mm_nParams c /\ List.length props = mm_nParams c /\
    forall i, (i < mm_nParams c)%nat -> numbers rd_dbl (nth i pl ""%string) [nth i props 0].
Proof. exact (fun H1 H2 => setup_data_file rd_dbl rd_uint draw fs hs openmp gpu mem order H1 H2 args n c s nst dev a o m p d ql pl w k). Qed.
(** With "#random k" there are k points, with unit quaternions along the numbers drawn. *)
Theorem C56_random rd_dbl rd_uint draw fs hs openmp gpu mem order args n c s nst dev a o m p d ql k :
  (forall n nst, sized nst n (mem n nst)) -> (forall n, visits n (order n)) ->
  app_setup rd_dbl rd_uint draw fs hs openmp gpu mem order args = Started n c s nst dev a ->
  opened fs args o m p d -> file_text fs o ql -> header rd_uint (hd ""%string ql) "#random" k -> (0 <= k < 2147483648)%Z ->
  Z.of_nat n = k /\
  forall q, (q < n)%nat -> let dr j := draw (4 * q + j)%nat in let norm2 v := v 0%nat ^ 2 + v 1%nat ^ 2 + v 2%nat ^ 2 + v 3%nat ^ 2 in
    norm2 dr <> 0 -> norm2 (fun j => stored nst a q (9 + j)) = 1 /\ exists r, 0 < r /\ forall j, (j < 4)%nat -> dr j = r * stored nst a q (9 + j).
Proof. exact (fun H1 H2 => setup_random rd_dbl rd_uint draw fs hs openmp gpu mem order H1 H2 args n c s nst dev a o m p d ql k). Qed.

(** ** What is not noticed *)
Local Open Scope string_scope.
(** A line with five numbers is taken for the orientation of its first four. *)
Theorem C56_extra_refuted : exists fs args ql s a, opened fs args "quats" "voce" "props" "OpenMP" /\ file_text fs "quats" ql /\
  numbers rdR (nth 1 ql "") [1; 0; 0; 0; 7]%R /\
  app_setup rdR rdU drawI fs echo true true d13_mem d13_order args = Started 1 demo_c s 28 OPENMP a.
Proof.
  pose (ori := ["#data 0"; "1 0 0 0 7"]).
  assert (HF : Forall (fun l => ~ has "010"%char l) ori) by (unfold ori; plain).
  assert (HN : numbers rdR "1 0 0 0 7" [1; 0; 0; 0; 7]%R).
  { repeat (eapply numbers_cons; [unfold rdR; vm_compute rd_word; vm_compute decimal; cbv iota beta; f_equal; f_equal; cbn; lra|]). constructor. }
  destruct (d13_data ori "#data" 0 [1; 0; 0; 0]%R HF) as (s & a & HS).
  - apply header_iff. eexists _, _. split; vm_compute; reflexivity.
  - discriminate.
  - apply rows_cons. exists [1; 0; 0; 0]%R, []. split; [reflexivity|]. split; [reflexivity|]. split; [|apply rows_nil].
    repeat (match goal with H : numbers _ _ (_ :: _) |- _ => inversion H; subst; clear H end). repeat (eapply numbers_cons; [eassumption|]). constructor.
  - exists (disk ori), ["options"], ori, s, a. refine (conj (d13_opened ori) (conj (cat_text ori HF) (conj HN HS))).
Qed.
(** A misspelt keyword is taken for data, and no orientation at all is accepted. *)
Theorem C56_keyword_refuted : exists fs args ql s a, opened fs args "quats" "voce" "props" "OpenMP" /\ file_text fs "quats" ql /\
  ql = ["random 500"] /\ app_setup rdR rdU drawI fs echo true true d13_mem d13_order args = Started 0 demo_c s 28 OPENMP a.
Proof.
  pose (ori := ["random 500"]).
  assert (HF : Forall (fun l => ~ has "010"%char l) ori) by (unfold ori; plain).
  destruct (d13_data ori "random" 500 [] HF) as (s & a & HS).
  - apply header_iff. eexists _, _. split; vm_compute; reflexivity.
  - discriminate.
  - apply rows_nil.
  - exists (disk ori), ["options"], ori, s, a. refine (conj (d13_opened ori) (conj (cat_text ori HF) (conj eq_refl HS))).
Qed.
(** From 2^31 random orientations on the number of points is negative. *)
Theorem C56_many_refuted : exists fs args ql q, opened fs args "quats" "voce" "props" "OpenMP" /\ file_text fs "quats" ql /\
  header rdU (hd "" ql) "#random" 3000000000 /\ app_input rdR rdU drawI fs args = Input (-1294967296) q "voce" "OpenMP" demo_pars.
Proof.
  pose (ori := ["#random 3000000000"]).
  assert (HF : Forall (fun l => ~ has "010"%char l) ori) by (unfold ori; plain).
  assert (HH : header rdU (hd "" ori) "#random" 3000000000) by (apply header_iff; eexists _, _; split; vm_compute; reflexivity).
  exists (disk ori), ["options"], ori, (rand_quats drawI (Z.to_nat 3000000000)).
  exact (conj (d13_opened ori) (conj (cat_text ori HF) (conj HH (d13_random ori _ HF HH)))).
Qed.

(** ** Cases *)
Example C56_case : let ori := ["#data 0"; "1 0 0 0"; " 0.5 -0.5 0.5 0.5"; "0 0 3 4"] in
  exists s a, d13_setup ori = Started 3 demo_c s 28 OPENMP a /\ opened (disk ori) ["options"] "quats" "voce" "props" "OpenMP" /\
  file_text (disk ori) "quats" ori /\ file_text (disk ori) "props" d13_props /\ header rdU (hd "" ori) "#data" 0.
Proof.
  intros ori. assert (HF : Forall (fun l => ~ has "010"%char l) ori) by (unfold ori; plain).
  assert (HH : header rdU (hd "" ori) "#data" 0) by (apply header_iff; eexists _, _; split; vm_compute; reflexivity).
  assert (HR : exists q, rows rdR 4 (tl ori) q).
  { eexists. unfold ori, tl. repeat (apply rows_cons; eexists [_; _; _; _], _; split; [reflexivity|]; split; [reflexivity|]; split;
      [repeat (eapply numbers_cons; [unfold rdR; vm_compute rd_word; vm_compute decimal; reflexivity|]); constructor|]). apply rows_nil. }
  destruct HR as [q HR]. destruct (d13_data ori "#data" 0 q HF HH ltac:(discriminate) HR) as (s & a & HS).
  exists s, a. exact (conj HS (conj (d13_opened ori) (conj (cat_text ori HF) (conj (d13_ptext ori) HH)))).
Qed.
Example C56_random_case : let ori := ["#random 4"] in
  exists s a, d13_setup ori = Started 4 demo_c s 28 OPENMP a /\ opened (disk ori) ["options"] "quats" "voce" "props" "OpenMP" /\
  file_text (disk ori) "quats" ori /\ header rdU (hd "" ori) "#random" 4.
Proof.
  intros ori. assert (HF : Forall (fun l => ~ has "010"%char l) ori) by (unfold ori; plain).
  assert (HH : header rdU (hd "" ori) "#random" 4) by (apply header_iff; eexists _, _; split; vm_compute; reflexivity).
  destruct (d13_started ori 4 _ ltac:(lia) (d13_random ori 4 HF HH)) as (s & a & HS).
  exists s, a. exact (conj HS (conj (d13_opened ori) (conj (cat_text ori HF) HH))).
Qed.
(** the third orientation line has a word in it *)
Example C56_bad_case : let ori := ["#data 0"; "1 0 0 0"; "0 1 0 0"; "0 1 o 0"; "1 1"] in
  d13_input ori = BadQuat 3 /\ first_bad rdR 4 (tl ori) 3.
Proof.
  intros ori. assert (HF : Forall (fun l => ~ has "010"%char l) ori) by (unfold ori; plain).
  assert (HH : header rdU (hd "" ori) "#data" 0) by (apply header_iff; eexists _, _; split; vm_compute; reflexivity).
  assert (HB : d13_input ori = BadQuat 3).
  { rewrite (input_opened rdR rdU drawI (disk ori) _ _ _ _ _ (d13_opened ori)).
    assert (E : file_lines (disk ori) "quats" = ori) by (symmetry; apply file_text_iff; exact (cat_text ori HF)). rewrite E.
    unfold rd_ori. replace (rd_word (hd "" ori)) with (Some ("#data", " 0")) by (vm_compute; reflexivity).
    replace (rdU " 0") with (Some (0%Z, "")) by (vm_compute; reflexivity). reflexivity. }
  split; [exact HB|].
  exact (proj1 (C56_bad_orientation rdR rdU drawI (disk ori) ["options"] "quats" "voce" "props" "OpenMP" "#data" 0 ori 3 (d13_opened ori) (cat_text ori HF) HH ltac:(discriminate)) HB).
Qed.

Print Assumptions C56_read.
Print Assumptions C56_bad_orientation.
Print Assumptions C56_bad_property.
Print Assumptions C56_other_messages.
Print Assumptions C56_points.
Print Assumptions C56_random.
Print Assumptions C56_extra_refuted.
Print Assumptions C56_keyword_refuted.
Print Assumptions C56_many_refuted.
