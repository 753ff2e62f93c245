(** The first call of P_Demo18.v keeps the elastic strain and turns the stress by a stored orientation that is not the identity. *)
From Coq Require Import List ZArith Bool Lia PeanoNat Reals Lra.
From Flocq Require Import Core IEEE754.BinarySingleNaN.
From Verif Require Import Num Arr NumR Util Hard Elast Evptn MatModel Cases SpecTensor SpecElast SpecStep SpecApi P_Batch3 P_Api P_Builtin P_Stress P_Gen NumD P_Dbl P_Dbl3 P_Dbl5 P_Dbl13 P_Dbl14 SpecDbl SpecDblFin SpecDblAcc
  SpecDblStress P_Demo12 P_Demo14 P_Demo18 P_Dbl15 P_Dbl16 P_Dbl21 P_Dbl23.
Import ListNotations.
Local Open Scope R_scope.

#[local] Hint Extern 0 (Num dbl) => exact (DNum xlm) : typeclass_instances.
Definition zz : dbl := B754_zero false.
Lemma v_strain : rout v_b AH 1 5 = 1.
Proof.
  pose proof (x_good (Z2D 1) v_m v_pos) as G. change (x_call (Z2D 1) v_m) with v_b in G. assert (Hi : (1 < d_n v_b)%nat) by (cbn; lia).
  destruct (dres xlm zsol x_c v_b 1 G Hi) as (mat & tol & h_u & p & r & v & nf & gm & _ & _ & HP & HR & Rs).
  pose proof (g_E _ _ _ _ _ _ _ _ _ _ _ _ _ _ Rs) as GH. clear Rs.
  assert (E : get (sub (pt_hist (pt_of x_c (d_s v_b) (d_mtan v_b) (d_m1 v_b) 1)) iHistLbE 5) 1 = @get dbl (DNum xlm) (fst (stateFromX p (so_x r))) 1) by (rewrite GH; reflexivity).
  rewrite (@get_sub dbl (DNum xlm)) in E by lia. rewrite (dhist_out xlm zsol x_c v_b 1 G Hi) in E by (unfold iHistLbE; lia).
  unfold rout. change (iHistLbE + 1)%nat with 5%nat in E. rewrite E. clear E GH.
  assert (EN : @get dbl (DNum xlm) (pb_e_vecd_n p) 1 = Z2D 1).
  { rewrite HP. change (get (sub (pt_hist (pt_of x_c (d_s v_b) (d_mtan v_b) (d_m v_b) 1)) iHistLbE 5) 1 = Z2D 1).
    rewrite (@get_sub dbl (DNum xlm)) by lia. rewrite (dhist_in xlm zsol x_c v_b 1 G Hi) by (unfold iHistLbE; lia).
    cbn [v_b x_call d_s d_m]. rewrite v_dval. reflexivity. }
  assert (XZ : @get dbl (DNum xlm) (so_x r) 1 = zz) by (rewrite HR; reflexivity). clear HP HR.
  unfold stateFromX. cbn [fst]. unfold vecsVapb, vecsVxa, x_e. rewrite (@get_tab dbl (DNum xlm)) by lia. rewrite (@get_tab dbl (DNum xlm)) by lia.
  rewrite (@get_sub dbl (DNum xlm)) by lia. cbn [Nat.add]. rewrite EN, XZ.
  assert (LS : mag (@e_scale dbl (DNum xlm)) 1) by (unfold e_scale; cbn [nlit DNum]; apply mag_lit_frac; cbn; lia). destruct LS as [FE _].
  set (es := e_scale) in *. clearbody es. cbn [nadd nmul DNum].
  destruct (Z2D_ok 0 ltac:(cbn; lia)) as [F0 V0]. destruct (Z2D_ok 1 ltac:(cbn; lia)) as [F1 V1]. 
  assert (DZ : fin zz /\ B2R (zz) = 0) by (split; reflexivity). destruct DZ as [FZ VZ].
  destruct (mul_ok es zz FE FZ) as [FM VM]; [rewrite VZ, Rmult_0_r, Rabs_R0; pose proof big_10; lra|]. rewrite VZ, Rmult_0_r in VM.
  assert (R0 : rnd 0 = 0) by (apply Generic_fmt.round_0; typeclasses eauto). rewrite R0 in VM.
  destruct (add_ok _ (Z2D 1) FM F1) as [FA VA]; [rewrite VM, V1, Rplus_0_l, Rabs_pos_eq; pose proof big_10; lra|]. rewrite VA, VM, V1, Rplus_0_l.
  rewrite <- V1. apply Generic_fmt.round_generic; [typeclasses eauto|]. apply generic_format_B2R.
Qed.
Lemma v_turn : exists W, rotates (dunit v_b 1) W.
Proof. eexists. apply rotq_rotates. reflexivity. Qed.
Lemma v_vol1 : rin v_b AV 1 1 = 2.
Proof. unfold rin. cbn [v_b x_call d_s d_m]. rewrite v_dval. exact (proj2 (Z2D_ok 2 ltac:(cbn; lia))). Qed.
