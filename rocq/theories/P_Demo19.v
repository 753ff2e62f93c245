(** A history of calls of the USE_DPEFF build. *)
From Coq Require Import List ZArith Bool Lia PeanoNat Reals Lra.
From Verif Require Import Num Arr NumR Hard Evptn MatModel EvptnDp Cases SpecApi SpecDp P_Batch P_Batch3 P_Api P_Builtin P_Hist P_Demo P_Dp5.
Import ListNotations.
Local Open Scope R_scope.

Lemma same_val (s : MM R) n (m m' : Mem R) i k : same_but s n m m' -> (i < n)%nat -> (2 <= k < stride_of (mm_strides s) AH)%nat ->
  val s m AH i k = val s m' AH i k.
Proof.
  intros [_ S] Hi Hk. unfold val. set (st := stride_of (mm_strides s) AH) in *. set (j := (st * i + k)%nat).
  assert (Q : nth_error (m AH) j = nth_error (m' AH) j).
  { apply S. intros [_ (i' & k' & Hi' & Hk' & EJ)]. unfold j in EJ. fold st in EJ. clearbody st.
    destruct (Nat.lt_trichotomy i i') as [Q|[Q|Q]]; [| subst i'; lia |].
    - assert (st * i + st <= st * i')%nat by nia. lia.
    - assert (st * i' + st <= st * i)%nat by nia. lia. }
  destruct (nth_error (m AH) j) eqn:E1.
  - rewrite (nth_error_nth _ _ 0 E1). symmetry in Q. now rewrite (nth_error_nth _ _ 0 Q).
  - symmetry in Q. apply nth_error_None in E1, Q. now rewrite !nth_overflow.
Qed.

Definition dp_call (dt : R) (m : Mem R) : BCall :=
  {| b_s := demo_s; b_solver := echo; b_lu := noLU; b_dt := dt; b_mtan := false; b_n := 2; b_m := m;
     b_m1 := snd (mm_getResponse_dp echo noLU demo_c demo_s dt false (Z.of_nat 2) m) |}.
Lemma dp_good dt m : demo_pos m -> good_dp echo demo_c (dp_call dt m).
Proof.
  intros HP. destruct (demo_good dt m HP) as (HB & HR & HO & H).
  destruct (call_same demo_c demo_s echo noLU dt false 2 m m HR HO (same_refl _ _ _)) as [E _].
  change (mm_getResponse echo noLU demo_c demo_s dt false (Z.of_nat 2) m = (BRet Done, b_m1 (demo_call dt m))) in H.
  rewrite H in E. cbn [fst] in E.
  cbn [demo_call b_s b_mtan b_n b_m] in HR, HO.
  unfold good_dp. cbn [dp_call b_s b_solver b_lu b_dt b_mtan b_n b_m b_m1]. split; [exact HB|]. split; [exact HR|]. split; [exact HO|].
  apply pair_eq; [exact E|reflexivity].
Qed.
Lemma dp_next dt m : demo_pos m -> demo_pos (b_m1 (dp_call dt m)).
Proof.
  intros HP. destruct (demo_good dt m HP) as (_ & HR & HO & H).
  destruct (call_same demo_c demo_s echo noLU dt false 2 m m HR HO (same_refl _ _ _)) as [_ S].
  change (mm_getResponse echo noLU demo_c demo_s dt false (Z.of_nat 2) m = (BRet Done, b_m1 (demo_call dt m))) in H.
  rewrite H in S. cbn [snd] in S. change (same_but demo_s 2 (b_m1 (demo_call dt m)) (b_m1 (dp_call dt m))) in S.
  destruct (demo_next dt m HP) as [N1 N2]. split.
  - intros a. rewrite <- (proj1 S a). apply N1.
  - intros i Hi. rewrite <- (same_val demo_s 2 _ _ i 13 S Hi); [now apply N2|]. cbn [stride_of]. rewrite demo_strides. cbn. lia.
Qed.
Fixpoint dp_hist (dts : list R) (m : Mem R) : list BCall :=
  match dts with
  | [] => []
  | dt :: r => dp_call dt m :: dp_hist r (b_m1 (dp_call dt m))
  end.
Lemma dp_chain bufs dts : forall m, demo_pos m -> chain_dp echo demo_c bufs (dp_hist dts m).
Proof.
  induction dts as [|dt r IH]; intros m H; cbn [dp_hist chain_dp]; [exact I|].
  split; [now apply dp_good|]. split; [|apply IH; now apply dp_next].
  destruct r; cbn [dp_hist]; [exact I|]. split; [reflexivity|]. split; [reflexivity|]. reflexivity.
Qed.
