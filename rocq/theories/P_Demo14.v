(** A call on doubles with moderate inputs and a correctly rounded mathematical library. *)
From Coq Require Import List ZArith Bool Lia PeanoNat Reals Lra.
From Flocq Require Import Core IEEE754.BinarySingleNaN.
From Verif Require Import Num Arr NumR MatModel Cases P_Batch3 P_Api P_Builtin SpecApi NumD P_Dbl P_Dbl3 P_Dbl5 P_Dbl13 P_Dbl14 SpecDbl SpecDblFin P_Demo12.
Import ListNotations.
Local Open Scope R_scope.

Lemma eta_300 : eta <= / 10 ^ 300.
Proof.
  unfold eta. change (bpow radix2 (-1075)) with (/ IZR (2 ^ 1075)). apply Rinv_le_contravar; [apply pow_lt; lra|].
  rewrite (pow_IZR 10 300). apply IZR_le. vm_compute. discriminate.
Qed.
Lemma big_300 : 10 ^ 300 <= big.
Proof. unfold big. change (bpow radix2 1023) with (IZR (2 ^ 1023)). rewrite (pow_IZR 10 300). apply IZR_le. vm_compute. discriminate. Qed.
Lemma R2D_acc x : Rabs x <= big -> accurate (R2D x) x.
Proof.
  intros H. destruct (R2D_ok x H) as [F V]. split; [exact F|]. rewrite V. pose proof (rnd_err x) as E. apply Rle_trans with (1 := E).
  apply Rplus_le_compat; [|exact eta_300]. apply Rmult_le_compat_r; [apply Rabs_pos|]. unfold uu. cbn [pow]. lra.
Qed.
Lemma ln_fin (x : dbl) : fin x -> 0 < B2R x -> Rabs (ln (B2R x)) <= big.
Proof.
  intros F P. apply Rle_trans with (IZR 1075).
  - apply ln_mag; [lia|]. split.
    + pose proof (abs_B2R_ge_emin 53 1024 x) as H. 
      assert (S : is_finite_strict x = true). { destruct x; try discriminate; try reflexivity. cbn in P. lra. }
      specialize (H S). rewrite Rabs_pos_eq in H by lra. apply Rle_trans with (2 := H). apply bpow_le. cbv. discriminate.
    + pose proof (abs_B2R_lt_emax 53 1024 x) as H. rewrite Rabs_pos_eq in H by lra. left. apply Rlt_le_trans with (1 := H). apply bpow_le. lia.
  - apply Rle_trans with (bpow radix2 11); [change (bpow radix2 11) with 2048; lra|apply bpow_le; lia].
Qed.
Lemma xlm_libm : libm_ok xlm.
Proof.
  pose proof big_300 as B. split; [|split].
  - intros x F H. cbn [lm_exp xlm]. rewrite F. apply R2D_acc. rewrite Rabs_pos_eq by (left; apply exp_pos). exact (Rle_trans _ _ _ H B).
  - intros x F P. cbn [lm_log xlm]. rewrite F. apply R2D_acc. now apply ln_fin.
  - intros x y F1 F2 P H. cbn [lm_pow xlm]. rewrite F1, F2. cbn [andb]. apply R2D_acc.
    rewrite Rabs_pos_eq by (left; apply exp_pos). exact (Rle_trans _ _ _ H B).
Qed.

(** [x_m] with elastic strains *)
Definition y_m : Mem dbl := fun a => match a with
  | AH => map Z2D ([0; 0; 0; 0; 1; 0; -1; 0; 2] ++ [1; 0; 0; 0] ++ [1] ++ [0; 0; 0; 0; 0; 0; 0; 0; 0; 0; 0; 0] ++
                   [0; 0; 0; 0; 0; 1; 0; 0; 1] ++ [1; 2; 0; 0] ++ [2] ++ [0; 0; 0; 0; 0; 0; 0; 0; 0; 0; 0; 0])%Z
  | _ => x_m a
  end.
Lemma z_mod z : (Z.abs z <= 1000)%Z -> moderate (Z2D z).
Proof.
  intros H. destruct (Z2D_ok z ltac:(cbn; lia)) as [F V]. split; [exact F|]. rewrite V, <- abs_IZR.
  apply Rle_trans with (10 ^ 3); [|apply Rle_pow; [lra|lia]]. replace (10 ^ 3) with (IZR 1000) by (cbn [pow]; lra). now apply IZR_le.
Qed.
Lemma y_pos : x_pos y_m.
Proof.
  split; [intros a; destruct a; reflexivity|]. intros i Hi. unfold dval. rewrite x_strides.
  destruct i as [|[|i]]; [| |lia]; [change (hok (Z2D 1))|change (hok (Z2D 2))]; split; try reflexivity;
    [destruct (Z2D_ok 1 ltac:(cbn; lia)) as [_ E]|destruct (Z2D_ok 2 ltac:(cbn; lia)) as [_ E]]; rewrite E; lra.
Qed.
Lemma y_dval a i k : dval x_s y_m a i k = nth (stride_of [7; 3; 4; 1; 7; 26; 1; 2]%nat a * i + k) (y_m a) B754_nan.
Proof. unfold dval. now rewrite x_strides. Qed.
Lemma z_forall (l : list Z) n : (n < length l)%nat -> forallb (fun z => (Z.abs z <=? 1000)%Z) l = true -> moderate (nth n (map Z2D l) B754_nan).
Proof.
  intros Hn H. rewrite (nth_indep _ B754_nan (Z2D 0)) by (rewrite map_length; exact Hn). rewrite map_nth. apply z_mod.
  rewrite forallb_forall in H. specialize (H (nth n l 0%Z) (nth_In _ _ Hn)). lia.
Qed.
Lemma y_point dt : moderate dt -> moderate_point (x_call dt y_m) 1.
Proof.
  intros HD. constructor; cbn [x_call d_dt d_s d_m]; [exact HD| | | | | | |].
  - intros k Hk. rewrite y_dval. apply (z_forall [1; -1; 0; 0; 0; 2; 0;   0; 1; -1; 1; 0; 0; 0]%Z); [cbn; lia|reflexivity].
  - intros k Hk. rewrite y_dval. cbv zeta. destruct k as [|[|k]]; [| |lia]; (change (fin (Z2D 1) /\ / 1000 <= B2R (Z2D 1) <= 1000));
      destruct (Z2D_ok 1 ltac:(cbn; lia)) as [F V]; (split; [exact F|]); rewrite V; lra.
  - rewrite y_dval. apply z_mod. lia.
  - rewrite y_dval. apply z_mod. lia.
  - intros k Hk. rewrite y_dval. apply (z_forall [1; 0; -1; 0; 0; 2; 1;   0; 0; 0; 1; 1; 1; 3]%Z); [cbn; lia|reflexivity].
  - intros k Hk. rewrite y_dval. cbn [y_m]. apply z_forall; [cbn; lia|reflexivity].
  - assert (E : dquat x_s y_m 1 = map Z2D [1; 2; 0; 0]%Z) by (unfold dquat; cbn [map]; now rewrite !y_dval).
    rewrite E. rewrite <- x_quat. destruct x_quat_ok as [F V]. split; [exact F|]. rewrite V. exact case_range.
Qed.
Lemma y_params : moderate_params x_c x_pars.
Proof.
  split; [|split].
  - change (dpar x_pars 1) with (Z2D 2). destruct (Z2D_ok 2 ltac:(cbn; lia)) as [F V]. split; [exact F|]. rewrite V, Rabs_pos_eq by lra. split.
    + apply Rle_trans with 1; [|lra]. rewrite <- Rinv_1. apply Rinv_le_contravar; [lra|]. apply pow_R1_Rle. lra.
    + apply Rle_trans with (10 ^ 1); [lra|]. apply Rle_pow; [lra|lia].
  - intros k Hk. change (k < 3)%nat in Hk. unfold dpar, x_pars. apply z_forall; [change (3 + 0 + k < 17)%nat; lia|reflexivity].
  - intros k Hk. unfold dpar, x_pars. apply z_forall; [change (3 + 0 + 3 + 9 + k < 17)%nat; lia|reflexivity].
Qed.
Lemma y_rates : moderate_rates x_pars.
Proof.
  split; [|change (moderate (Z2D 1)); apply z_mod; lia]. change (dpar x_pars 7) with (Z2D 1). destruct (Z2D_ok 1 ltac:(cbn; lia)) as [F V].
  split; [exact F|]. rewrite V. lra.
Qed.
Lemma zsol_last : moderate_last zsol.
Proof. exact zsol_moderate. Qed.
Lemma y_hard dt : let h := dval x_s (d_m1 (x_call dt y_m)) AH 1 13 in fin h /\ / 10 ^ 30 <= B2R h.
Proof.
  cbv zeta. destruct (x_next dt y_m y_pos) as [_ H]. destruct (H 1%nat ltac:(lia)) as [F [B _]]. split; [exact F|]. refine (Rle_trans _ _ _ _ B).
  apply Rinv_le_contravar; [lra|]. apply Rle_trans with (10 ^ 3); [cbn [pow]; lra|]. apply Rle_pow; [lra|lia].
Qed.
Lemma y_acc : moderate (dval x_s y_m AH 1 1).
Proof. rewrite y_dval. apply z_mod. lia. Qed.
