(** Two journeys of the second of two points: kept in the batch, and restarted alone with other contents of the result buffers (C66). *)
From Coq Require Import List ZArith Bool Lia PeanoNat Reals Lra String.
From Verif Require Import Num Arr NumR Util SlipGeom Eos Hard KinVoce Elast Evptn MatModel Cases P_Sngl P_Batch P_Batch3 P_Api P_Builtin SpecApi P_Hist SpecBatch P_Batch4 P_Demo SpecState P_State2.
Import ListNotations.
Local Open Scope R_scope.

Definition st_c0 : BCall := demo_call (/10) demo_m.
Definition st_m1 : Mem R := b_m1 st_c0.
Definition st_c1 : BCall := demo_call (/5) st_m1.
Definition st_cell (a : arr) : list R := cell_of demo_c demo_s false st_m1 a 1.
(** the buffers of the restarted calculation: one point *)
Definition st_r : Mem R := fun a => match a with
  | AH => [nth 0 (st_cell AH) 0 + 1; nth 1 (st_cell AH) 0; nth 2 (st_cell AH) 0 + 1; nth 3 (st_cell AH) 0 + 1] ++ skipn 4 (st_cell AH)
  | AT => [-5] | AB => [3; 4] | _ => st_cell a
  end.
Definition st_r1 : Mem R := snd (mm_getResponse echo noLU demo_c demo_s (/5) false 1 st_r).
Definition st_v0 : Visit R := {| v_s := demo_s; v_dt := /10; v_mtan := false; v_n := 2; v_i := 1; v_m := demo_m; v_m1 := st_m1 |}.
Definition st_v1 : Visit R := {| v_s := demo_s; v_dt := /5; v_mtan := false; v_n := 2; v_i := 1; v_m := st_m1; v_m1 := b_m1 st_c1 |}.
Definition st_w1 : Visit R := {| v_s := demo_s; v_dt := /5; v_mtan := false; v_n := 1; v_i := 0; v_m := st_r; v_m1 := st_r1 |}.

Lemma st_pos1 : demo_pos st_m1.
Proof. exact (demo_next (/10) demo_m demo_m_pos). Qed.
Lemma st_b1 : batch_ok demo_c demo_s false 2 st_m1.
Proof. exact (demo_batch st_m1 (proj1 st_pos1)). Qed.
Lemma st_len a : List.length (st_cell a) = per_point 1 12 false a.
Proof. exact (cell_len demo_c false demo_s 2 st_m1 a 1 st_b1 (le_n 2)). Qed.
Lemma st_r_len a : List.length (st_r a) = per_point 1 12 false a.
Proof.
  destruct a; try exact (st_len _); try reflexivity. change (List.length (st_r AH)) with (4 + List.length (skipn 4 (st_cell AH)))%nat.
  rewrite skipn_length, st_len. reflexivity.
Qed.
Lemma st_r_batch : batch_ok demo_c demo_s false 1 st_r.
Proof.
  split.
  - rewrite demo_strides. split; [|discriminate]. intros a Ha. destruct a; reflexivity.
  - rewrite demo_strides. intros a i Hi Hp. rewrite st_r_len. destruct i as [|i]; [|lia]. destruct a; cbn in *; lia.
Qed.
Lemma st_entry a k : (k < per_point 1 12 false a)%nat -> nth_error (st_cell a) k = entry demo_s st_m1 a 1 k.
Proof. intros Hk. exact (cell_entry demo_c demo_s false 2 st_m1 a 1 k st_b1 (le_n 2) Hk). Qed.
Lemma st_r_entry a k : entry demo_s st_r a 0 k = nth_error (st_r a) k.
Proof. unfold entry. now rewrite Nat.mul_0_r. Qed.
Lemma st_r_hist k : (k < 26)%nat -> ~ In k [0; 2; 3]%nat -> nth_error (st_r AH) k = nth_error (st_cell AH) k.
Proof.
  intros Hk Hn. destruct (Nat.lt_ge_cases k 4) as [H4|H4].
  - assert (k = 1%nat) by (cbn in Hn; lia). subst k. change (Some (nth 1 (st_cell AH) 0) = nth_error (st_cell AH) 1). symmetry. apply nth_error_nth'. rewrite st_len. cbn. lia.
  - destruct k as [|[|[|[|k]]]]; try lia. change (nth_error (skipn 4 (st_cell AH)) k = nth_error (st_cell AH) (4 + k)). apply ne_skipn.
Qed.
Lemma st_r_state : same_state demo_c demo_s st_m1 1 demo_s st_r 0.
Proof.
  intros a k Ha Hk Hn. rewrite st_r_entry, <- st_entry by exact Hk. cbn [In] in Ha. destruct Ha as [<-|[<-|[<-|[]]]]; [reflexivity|reflexivity|].
  symmetry. apply st_r_hist; [exact Hk|exact (Hn eq_refl)].
Qed.
Lemma st_r_drive : same_drive demo_c st_v1 st_w1.
Proof.
  split; [reflexivity|]. split; [reflexivity|]. intros a k Ha Hk. cbn [st_v1 st_w1 v_s v_m v_i]. rewrite st_r_entry, <- st_entry by exact Hk.
  cbn [In] in Ha. destruct Ha as [<-|[<-|[<-|[]]]]; reflexivity.
Qed.
Lemma st_visit0 : visit demo_c demo_pars echo noLU st_v0.
Proof. refine (conj demo_in_use (conj (demo_batch demo_m (fun _ => eq_refl)) (conj (le_n 2) _))). exact (proj2 (proj2 (proj2 (demo_good (/10) demo_m demo_m_pos)))). Qed.
Lemma st_visit1 : visit demo_c demo_pars echo noLU st_v1.
Proof. refine (conj demo_in_use (conj st_b1 (conj (le_n 2) _))). exact (proj2 (proj2 (proj2 (demo_good (/5) st_m1 st_pos1)))). Qed.
Lemma st_w_done : exists m1, mm_getResponse echo noLU demo_c demo_s (/5) false (Z.of_nat 1) st_r = (BRet Done, m1).
Proof.
  apply (batch_succeeds demo_c demo_pars echo noLU demo_s 1 st_r (/5) false demo_in_use demo_complete st_r_batch).
  intros i Hi. assert (i = 0%nat) by lia. subst i. exists st_v1. exact (conj st_visit1 (conj eq_refl (conj eq_refl (conj (proj2 (proj2 st_r_drive)) st_r_state)))).
Qed.
Lemma st_visit_w : visit demo_c demo_pars echo noLU st_w1.
Proof.
  refine (conj demo_in_use (conj st_r_batch (conj (le_n 1) _))). cbn [st_w1 v_s v_dt v_mtan v_n v_m v_m1].
  destruct st_w_done as [m1 E]. unfold st_r1. change (Z.of_nat 1) with 1%Z in *. rewrite E. reflexivity.
Qed.
Lemma st_restart : journey demo_c demo_pars echo noLU [st_v0; st_v1] /\ journey demo_c demo_pars echo noLU [st_v0; st_w1] /\
  Forall2 (same_drive demo_c) [st_v0; st_v1] [st_v0; st_w1] /\ same_start demo_c [st_v0; st_v1] [st_v0; st_w1] /\
  (forall k, In k [0; 2; 3]%nat -> entry demo_s st_m1 AH 1 k <> entry demo_s st_r AH 0 k) /\ v_n st_v1 <> v_n st_w1 /\
  Forall2 (same_result demo_c) [st_v0; st_v1] [st_v0; st_w1].
Proof.
  assert (SS : same_start demo_c [st_v0; st_v1] [st_v0; st_w1]) by (intros a k _ _ _; reflexivity).
  assert (J : journey demo_c demo_pars echo noLU [st_v0; st_v1]).
  { refine (conj st_visit0 (conj _ (conj st_visit1 (conj I I)))). intros a k _ _ _. reflexivity. }
  assert (J' : journey demo_c demo_pars echo noLU [st_v0; st_w1]).
  { refine (conj st_visit0 (conj st_r_state (conj st_visit_w (conj I I)))). }
  assert (D : Forall2 (same_drive demo_c) [st_v0; st_v1] [st_v0; st_w1]).
  { constructor; [|constructor; [exact st_r_drive|constructor]]. split; [reflexivity|]. split; [reflexivity|]. intros a k _ _. reflexivity. }
  refine (conj J (conj J' (conj D (conj SS (conj _ (conj _ (journey_same demo_c demo_pars echo noLU _ _ J J' D SS))))))).
  - intros k Hk. assert (k < 26)%nat by (cbn in Hk; lia). rewrite <- st_entry by assumption. rewrite st_r_entry.
    rewrite (nth_error_nth' (st_cell AH) 0) by (rewrite st_len; assumption).
    assert (E : nth_error (st_r AH) k = Some (nth k (st_cell AH) 0 + 1)) by (cbn [In] in Hk; destruct Hk as [<-|[<-|[<-|[]]]]; reflexivity).
    rewrite E. intros X. injection X. lra.
  - discriminate.
Qed.
