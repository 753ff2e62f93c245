(** Two calls on doubles: a volume change at zero deviatoric rate, then a deforming call from the energies it left. *)
From Coq Require Import List ZArith Bool Lia PeanoNat Reals Lra.
From Flocq Require Import Core IEEE754.BinarySingleNaN.
From Verif Require Import Num Arr NumR MatModel Cases SpecTensor SpecApi P_Batch3 P_Api P_Builtin NumD P_Dbl P_Dbl3 P_Dbl5 P_Dbl13 P_Dbl14 SpecDbl SpecDblFin SpecDblAcc
  P_Demo12 P_Demo14 P_Dbl21.
Import ListNotations.
Local Open Scope R_scope.

(** volume from 1 to 2 *)
Definition v_m : Mem dbl := fun a => match a with
  | AD => map Z2D [0; 0; 0; 0; 0; 0; 1;   0; 0; 0; 0; 0; 0; 1]%Z
  | AV => map Z2D [1; 2; 1; 1;   1; 2; 1; 1]%Z
  | _ => y_m a
  end.
Definition v_b : DCall := x_call (Z2D 1) v_m.
(** the energies it left *)
Definition w_m : Mem dbl := fun a => match a with AE => d_m1 v_b AE | _ => y_m a end.
Definition w_b : DCall := x_call (Z2D 1) w_m.

Lemma v_pos : x_pos v_m.
Proof. destruct y_pos as [H1 H2]. split; [intros a; destruct a; reflexivity|]. intros i Hi. exact (H2 i Hi). Qed.
Lemma v_dval a i k : dval x_s v_m a i k = nth (stride_of [7; 3; 4; 1; 7; 26; 1; 2]%nat a * i + k) (v_m a) B754_nan.
Proof. unfold dval. now rewrite x_strides. Qed.
Lemma v_d k : (k < 6)%nat -> rin v_b AD 1 k = 0.
Proof.
  intros Hk. unfold rin. cbn [v_b x_call d_s d_m]. rewrite v_dval. do 6 (destruct k as [|k]; [reflexivity|]). lia.
Qed.
Lemma v_point : moderate_point v_b 1.
Proof.
  destruct (y_point (Z2D 1) ltac:(apply z_mod; lia)) as [P1 P2 P3 P4 P5 P6 P7 P8]. constructor; try assumption; cbn [v_b x_call d_dt d_s d_m].
  - intros k Hk. rewrite v_dval. apply (z_forall [0; 0; 0; 0; 0; 0; 1;   0; 0; 0; 0; 0; 0; 1]%Z); [cbn; lia|reflexivity].
  - intros k Hk. rewrite v_dval. cbv zeta. destruct k as [|[|k]]; [| |lia]; [change (fin (Z2D 1) /\ / 1000 <= B2R (Z2D 1) <= 1000)|change (fin (Z2D 2) /\ / 1000 <= B2R (Z2D 2) <= 1000)];
      [destruct (Z2D_ok 1 ltac:(cbn; lia)) as [F V]|destruct (Z2D_ok 2 ltac:(cbn; lia)) as [F V]]; (split; [exact F|]); rewrite V; lra.
  - rewrite v_dval. apply z_mod. lia.
Qed.
Lemma v_call : mcall xlm x_c 1 v_b.
Proof.
  split; [cbn; lia|]. split; [exact v_point|]. split; [exact zsol_moderate|]. exists x_pars. split; [exact x_in_use|exact y_params].
Qed.
Lemma v_energy : moderate (dval x_s (d_m1 v_b) AE 1 0) /\ Rabs (B2R (dval x_s (d_m1 v_b) AE 1 0) - (-1)) <= / 10 ^ 10.
Proof.
  destruct v_call as (Hi & MI & HA & pars & HU & MP).
  destruct (call_acc xlm xlm_ok xlm_libm zsol x_c v_b 1 pars (x_good _ _ v_pos) Hi HU MP MI HA) as [W _].
  destruct (P_Dbl16.dcall_finite xlm xlm_ok xlm_libm zsol x_c v_b 1 pars (x_good _ _ v_pos) Hi HU MP MI HA) as (_ & FE & _).
  assert (P0 : forall s, power s (rin v_b AD 1) = 0).
  { intros s. unfold power, inner, sym6. cbn [a00 a01 a02 a10 a11 a12 a20 a21 a22]. rewrite !v_d by lia. ring. }
  assert (P1 : forall s, power s (mag_of (rin v_b AD 1)) = 0).
  { intros s. unfold power, inner, sym6, mag_of. cbn [a00 a01 a02 a10 a11 a12 a20 a21 a22]. rewrite !v_d by lia. rewrite Rabs_R0. ring. }
  assert (V3 : rin v_b AV 1 3 = 1). { unfold rin. cbn [v_b x_call d_s d_m]. rewrite v_dval. exact (proj2 (Z2D_ok 1 ltac:(cbn; lia))). }
  assert (S6 : rin v_b AS 1 6 = 3). { unfold rin. cbn [v_b x_call d_s d_m]. rewrite v_dval. exact (proj2 (Z2D_ok 3 ltac:(cbn; lia))). }
  assert (E0 : rin v_b AE 1 0 = 2). { unfold rin. cbn [v_b x_call d_s d_m]. rewrite v_dval. exact (proj2 (Z2D_ok 2 ltac:(cbn; lia))). }
  unfold within, dwork, dwork_mag, work_on in W. rewrite !P0, !P1, V3, S6, E0 in W. unfold rout in W. change (d_s v_b) with x_s in *.
  set (e := dval x_s (d_m1 v_b) AE 1 0) in *. clearbody e.
  rewrite (Rabs_pos_eq 2), (Rabs_pos_eq 1), (Rabs_pos_eq 3) in W by lra.
  assert (B : / 10 ^ 13 * 5 + / 10 ^ 40 <= / 10 ^ 10).
  { assert (/ 10 ^ 40 <= / 10 ^ 13) by (apply Rinv_le_contravar; [apply pow_lt; lra|apply Rle_pow; [lra|lia]]). cbn [pow] in *. lra. }
  assert (Q : Rabs (B2R e - -1) <= / 10 ^ 10).
  { apply Rle_trans with (2 := B). clear B. set (a := / 10 ^ 13) in *. set (z := / 10 ^ 40) in *. clearbody a z.
    replace (B2R e - -1) with (B2R e - (2 + (- (1) * 3 + B2R (d_dt v_b) * ((rin v_b AV 1 0 + rin v_b AV 1 1) / 2) * ((0 + 0) / 2)))) by field.
    apply Rle_trans with (1 := W). right. field. }
  split; [|exact Q]. split; [exact FE|].
  assert (Rabs (B2R e) <= 2). { assert (/ 10 ^ 10 <= 1) by (cbn [pow]; lra). apply Rabs_le. apply abs_le in Q; lra. }
  apply Rle_trans with (1 := H). apply Rle_trans with (10 ^ 1); [lra|]. apply Rle_pow; [lra|lia].
Qed.
Lemma w_pos : x_pos w_m.
Proof.
  destruct y_pos as [H1 H2]. destruct (x_next (Z2D 1) v_m v_pos) as [N1 _]. split; [|intros i Hi; exact (H2 i Hi)].
  intros a. destruct a; try reflexivity. exact (N1 AE).
Qed.
Lemma w_point : moderate_point w_b 1.
Proof.
  destruct (y_point (Z2D 1) ltac:(apply z_mod; lia)) as [P1 P2 P3 P4 P5 P6 P7 P8]. constructor; try assumption. exact (proj1 v_energy).
Qed.
Lemma w_call : mcall xlm x_c 1 w_b.
Proof.
  split; [cbn; lia|]. split; [exact w_point|]. split; [exact zsol_moderate|]. exists x_pars. split; [exact x_in_use|exact y_params].
Qed.
Lemma vw_chain : echain xlm zsol x_c [v_b; w_b].
Proof.
  split; [exact (x_good _ _ v_pos)|]. split; [split; [reflexivity|split; reflexivity]|]. split; [exact (x_good _ _ w_pos)|]. split; exact I.
Qed.
Lemma v_vol : rin v_b AV 1 0 = 1.
Proof. unfold rin. cbn [v_b x_call d_s d_m]. rewrite v_dval. exact (proj2 (Z2D_ok 1 ltac:(cbn; lia))). Qed.
