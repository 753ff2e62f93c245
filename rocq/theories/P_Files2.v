(** From the input files of the mini-app to its first step, real numbers (C56). *)
From Coq Require Import List ZArith Bool Lia PeanoNat Reals Lra Permutation String Ascii.
From Verif Require Import Num NumR Arr Util SlipGeom Hard MatModel Cases Miniapp MiniFiles SpecFiles SpecTensor SpecApi SpecStep SpecObj SpecMini P_Api P_Api2 P_Builtin P_Mini P_Mini2 P_Mini3 P_Step2 P_Files.
Import ListNotations.
Local Open Scope R_scope.

(** ** Random orientations *)
Lemma rand_length (draw : nat -> R) k : List.length (rand_quats draw k) = (4 * k)%nat.
Proof. induction k; [reflexivity|]. cbn [rand_quats]. rewrite app_length, IHk. unfold vecsVNormalize, vecsVsa. rewrite tab_length. lia. Qed.
Lemma rand_nth (draw : nat -> R) k i j : (i < k)%nat -> (j < 4)%nat ->
  nth (4 * i + j) (rand_quats draw k) 0 =
  nth j (vecsVNormalize 4 [draw (4 * i)%nat; draw (4 * i + 1)%nat; draw (4 * i + 2)%nat; draw (4 * i + 3)%nat]) 0.
Proof.
  induction k as [|k IH]; intros Hi Hj; [lia|]. cbn [rand_quats].
  destruct (Nat.eq_dec i k) as [->|NE].
  - rewrite app_nth2 by (rewrite rand_length; lia). rewrite rand_length. f_equal. lia.
  - rewrite app_nth1 by (rewrite rand_length; lia). apply IH; lia.
Qed.
Lemma norm_entry a b c e j : (j < 4)%nat ->
  nth j (vecsVNormalize 4 [a; b; c; e]) 0 = nth j [a; b; c; e] 0 * (1 / sqrt (a ^ 2 + b ^ 2 + c ^ 2 + e ^ 2)).
Proof.
  intros Hj. assert (EN : vecNorm 4 [a; b; c; e] = sqrt (a ^ 2 + b ^ 2 + c ^ 2 + e ^ 2)).
  { unfold vecNorm, vecsyadotb. rarr. f_equal. ring. }
  unfold vecsVNormalize, vecsVsa. cbv zeta. rewrite EN. destruct j as [|[|[|[|j]]]]; [| | | |lia]; rarr; reflexivity.
Qed.
Lemma rand_drawn (draw : nat -> R) k : drawn draw k (rand_quats draw k).
Proof.
  split; [apply rand_length|]. intros i Hi d q n2 NZ.
  set (s := n2 d) in *. assert (S0 : 0 < s).
  { assert (0 <= s) by (unfold s, n2; nra). lra. }
  set (r := sqrt s). assert (R0 : 0 < r) by (apply sqrt_lt_R0; exact S0).
  assert (RR : r * r = s) by (apply sqrt_sqrt; lra).
  assert (EQ : forall j, (j < 4)%nat -> q j = d j * (1 / r)).
  { intros j Hj. unfold q. rewrite rand_nth by assumption.
    rewrite norm_entry by exact Hj. unfold r, s, n2, d. replace (4 * i + 0)%nat with (4 * i)%nat by lia.
    f_equal. destruct j as [|[|[|[|j]]]]; [| | | |lia]; cbn [nth]; try reflexivity. f_equal. lia. }
  split.
  - unfold n2. rewrite !EQ by lia. replace _ with (n2 d * (1 / r) ^ 2) by (unfold n2; ring). fold s. rewrite <- RR. field. lra.
  - exists r. split; [exact R0|]. intros j Hj. rewrite EQ by exact Hj. field. lra.
Qed.

(** ** Orientation of a line *)
Lemma rows_nth4 rd ls xs i : rows rd 4 ls xs -> (i < List.length ls)%nat ->
  numbers rd (nth i ls ""%string) [nth (4 * i) xs 0; nth (4 * i + 1) xs 0; nth (4 * i + 2) xs 0; nth (4 * i + 3) xs 0].
Proof.
  revert xs i. induction ls as [|l ls IH]; intros xs i H Hi; [cbn in Hi; lia|].
  apply rows_cons in H. destruct H as (q & ys & -> & A & B & H).
  do 4 (destruct q as [|? q]; [discriminate|]). destruct q; [|discriminate]. destruct i as [|i]; [exact B|].
  replace (4 * S i)%nat with (S (S (S (S (4 * i))))) by lia. cbn [nth app Nat.add]. apply IH; [exact H|cbn in Hi; lia].
Qed.
Lemma rows_nth1 rd ls xs i : rows rd 1 ls xs -> (i < List.length ls)%nat -> numbers rd (nth i ls ""%string) [nth i xs 0].
Proof.
  revert xs i. induction ls as [|l ls IH]; intros xs i H Hi; [cbn in Hi; lia|].
  apply rows_cons in H. destruct H as (q & ys & -> & A & B & H).
  destruct q as [|x q]; [discriminate|]. destruct q; [|discriminate]. destruct i as [|i]; [exact B|].
  cbn [nth app]. apply IH; [exact H|cbn in Hi; lia].
Qed.

(** ** The class *)
Lemma main_class hs openmp gpu model device params c s nst d :
  app_main hs openmp gpu model device params = Ready c s nst d ->
  ((model = "voce"%string /\ c = cls_FCC_A hs) \/ (model = "mts"%string /\ c = cls_FCC_B hs)) /\ List.length params = mm_nParams c.
Proof.
  unfold app_main.
  destruct (mm_newStrides (cls_FCC_A hs) (app_strides (cls_FCC_A hs)) 8) as [a|] eqn:Ea; [|discriminate].
  destruct (mm_newStrides (cls_FCC_B hs) (app_strides (cls_FCC_B hs)) 8) as [b|] eqn:Eb; [|discriminate].
  destruct (app_device openmp gpu device) as [dev|]; [|discriminate].
  assert (RI : forall c s n d c' s' n' d', @Ready R c s n d = Ready c' s' n' d' -> c = c').
  { intros c1 s1 n1 d1 c2 s2 n2 d2 E. exact (f_equal (fun e => match e with Ready x _ _ _ => x | _ => c1 end) E). }
  destruct (String.eqb_spec model "voce") as [->|NV].
  - destruct (Nat.eqb_spec (List.length params) (mm_nParams (cls_FCC_A hs))) as [EL|]; cbn [negb]; [|discriminate].
    destruct (app_init (cls_FCC_A hs) a params) as [a'|]; [|discriminate]. intros E. apply RI in E. subst c. auto.
  - destruct (String.eqb_spec model "mts") as [->|NM]; [|discriminate].
    destruct (Nat.eqb_spec (List.length params) (mm_nParams (cls_FCC_B hs))) as [EL|]; cbn [negb]; [|discriminate].
    destruct (app_init (cls_FCC_B hs) b params) as [b'|]; [|discriminate]. intros E. apply RI in E. subst c. auto.
Qed.

Section Setup.
  Variables (rd_dbl : string -> option (R * string)) (rd_uint : string -> option (Z * string)) (draw : nat -> R).
  Variables (fs : string -> option string) (hs : Solver R) (openmp gpu : bool) (mem : nat -> nat -> App R) (order : nat -> list nat).
  Hypothesis HMem : forall n nst, sized nst n (mem n nst).
  Hypothesis HOrd : forall n, visits n (order n).

  Lemma setup_started args n c s nst dev a :
    app_setup rd_dbl rd_uint draw fs hs openmp gpu mem order args = Started n c s nst dev a ->
    exists o m p d quats props h, opened fs args o m p d /\ app_input rd_dbl rd_uint draw fs args = Input (Z.of_nat n) quats m d props /\
      app_main hs openmp gpu m d props = Ready c s nst dev /\
      mm_getHistInfo c s = Some h /\ started nst n (map entry_init h) quats a.
  Proof.
    unfold app_setup. pose proof (app_input_spec rd_dbl rd_uint draw fs args) as HS.
    destruct (app_input rd_dbl rd_uint draw fs args) as [| | | | |z q m d props]; try discriminate.
    destruct HS as (o & p & HO & _ & _).
    destruct (app_main hs openmp gpu m d props) as [| |c' s' nst' dev'] eqn:EM; try discriminate.
    destruct (Z.ltb_spec z 0) as [L|L]; [discriminate|].
    destruct (main_start hs openmp gpu m d props c' s' nst' dev' (Z.to_nat z) q (order (Z.to_nat z)) _ EM (HMem _ _) (HOrd _))
      as (h & a1 & E1 & E2 & E3 & _).
    rewrite E2. intros E.
    assert (En : Z.to_nat z = n) by exact (f_equal (fun e => match e with Started x _ _ _ _ _ => x | _ => n end) E).
    assert (Ec : c' = c) by exact (f_equal (fun e => match e with Started _ x _ _ _ _ => x | _ => c end) E).
    assert (Es : s' = s) by exact (f_equal (fun e => match e with Started _ _ x _ _ _ => x | _ => s end) E).
    assert (Et : nst' = nst) by exact (f_equal (fun e => match e with Started _ _ _ x _ _ => x | _ => nst end) E).
    assert (Ed : dev' = dev) by exact (f_equal (fun e => match e with Started _ _ _ _ x _ => x | _ => dev end) E).
    assert (Ea : a1 = a) by exact (f_equal (fun e => match e with Started _ _ _ _ _ x => x | _ => a end) E).
    clear E. subst n c s nst dev a. exists o, m, p, d, q, props, h. rewrite Z2Nat.id by exact L. auto 10.
  Qed.

  (** Orientations listed in the file. *)
  Lemma setup_data_file args n c s nst dev a o m p d ql pl w k :
    app_setup rd_dbl rd_uint draw fs hs openmp gpu mem order args = Started n c s nst dev a ->
    opened fs args o m p d -> file_text fs o ql -> file_text fs p pl -> header rd_uint (hd ""%string ql) w k -> w <> "#random"%string ->
    n = List.length (tl ql) /\
    (forall q, (q < n)%nat -> numbers rd_dbl (nth q (tl ql) ""%string) [stored nst a q 9; stored nst a q 10; stored nst a q 11; stored nst a q 12]) /\
    ((m = "voce"%string /\ c = cls_FCC_A hs) \/ (m = "mts"%string /\ c = cls_FCC_B hs)) /\ names_device d dev /\
    exists props, in_use c s props /\ List.length pl = mm_nParams c /\ List.length props = mm_nParams c /\
      forall i, (i < mm_nParams c)%nat -> numbers rd_dbl (nth i pl ""%string) [nth i props 0].
  Proof.
    intros HS HO HQ HP HH NE. destruct (setup_started _ _ _ _ _ _ _ HS) as (o' & m' & p' & d' & quats & props & h & HO' & EI & EM & EH & HST).
    destruct (opened_fun _ _ _ _ _ _ _ _ _ _ HO HO') as (<- & <- & <- & <-).
    apply (input_data rd_dbl rd_uint draw fs args o m p d w k ql pl) in EI; try assumption. destruct EI as (_ & _ & EN & HR & HP1).
    apply Nat2Z.inj in EN. destruct (main_class _ _ _ _ _ _ _ _ _ _ EM) as [HC HL]. destruct (main_device _ _ _ _ _ _ _ _ _ _ EM) as (HD & _).
    destruct (app_ready _ _ _ _ _ _ _ _ _ _ EM) as (_ & _ & HU & _).
    refine (conj EN (conj _ (conj HC (conj HD _)))).
    - intros q Hq. destruct HST as [_ HST]. destruct (HST q Hq) as (_ & _ & _ & _ & HQQ & _).
      pose proof (HQQ 0%nat ltac:(lia)) as Q0. pose proof (HQQ 1%nat ltac:(lia)) as Q1. pose proof (HQQ 2%nat ltac:(lia)) as Q2. pose proof (HQQ 3%nat ltac:(lia)) as Q3.
      change (9 + 0)%nat with 9%nat in Q0. rewrite Nat.add_0_r in Q0. cbn [Nat.add] in Q0, Q1, Q2, Q3. rewrite Q0, Q1, Q2, Q3. apply rows_nth4; [exact HR|lia].
    - exists props. pose proof (rows_length _ _ _ _ HP1) as L1. refine (conj HU (conj _ (conj HL _))); [lia|].
      intros i Hi. apply rows_nth1; [exact HP1|lia].
  Qed.
  (** Orientations drawn at random. *)
  Lemma setup_random args n c s nst dev a o m p d ql k :
    app_setup rd_dbl rd_uint draw fs hs openmp gpu mem order args = Started n c s nst dev a ->
    opened fs args o m p d -> file_text fs o ql -> header rd_uint (hd ""%string ql) "#random" k -> (0 <= k < 2147483648)%Z ->
    Z.of_nat n = k /\
    forall q, (q < n)%nat -> let dr j := draw (4 * q + j)%nat in let norm2 v := v 0%nat ^ 2 + v 1%nat ^ 2 + v 2%nat ^ 2 + v 3%nat ^ 2 in
      norm2 dr <> 0 -> norm2 (fun j => stored nst a q (9 + j)) = 1 /\ exists r, 0 < r /\ forall j, (j < 4)%nat -> dr j = r * stored nst a q (9 + j).
  Proof.
    intros HS HO HQ HH Hk. destruct (setup_started _ _ _ _ _ _ _ HS) as (o' & m' & p' & d' & quats & props & h & HO' & EI & EM & EH & HST).
    destruct (opened_fun _ _ _ _ _ _ _ _ _ _ HO HO') as (<- & <- & <- & <-).
    apply (input_random rd_dbl rd_uint draw fs args o m p d k ql (file_lines fs p)) in EI; try assumption; [|now apply file_text_iff].
    destruct EI as (_ & _ & EN & EQ & _). unfold to_int in EN. destruct (Z.ltb_spec k 2147483648); [|lia].
    split; [exact EN|]. intros q Hq dr norm2 NZ. destruct HST as [_ HST]. destruct (HST q Hq) as (_ & _ & _ & _ & HQQ & _).
    destruct (rand_drawn draw (Z.to_nat k)) as [_ HDr]. specialize (HDr q ltac:(lia)). cbv zeta in HDr. rewrite <- EQ in HDr.
    destruct (HDr NZ) as (A & r & B & C). split.
    - unfold norm2. rewrite !HQQ by lia. exact A.
    - exists r. split; [exact B|]. intros j Hj. rewrite HQQ by exact Hj. exact (C j Hj).
  Qed.
End Setup.
