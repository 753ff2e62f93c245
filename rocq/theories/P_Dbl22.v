(** Doubles: error bounds of the rotation of the stress by the stored orientation. *)
From Coq Require Import List ZArith Bool Lia PeanoNat Reals Lra.
From Flocq Require Import Core IEEE754.BinarySingleNaN.
From Verif Require Import Num Arr NumR Util SlipGeom Eos Hard Elast Evptn MatModel Cases Const SpecConst P_Const Prop_Const
  P_Sngl P_Batch P_Batch2 P_Batch3 P_Api P_Builtin SpecTensor SpecApi P_Gen NumD P_Dbl P_Dbl2 P_Dbl3 P_Dbl4 P_Dbl5 P_Dbl7 P_Dbl8 P_Dbl9 P_Dbl10 SpecDbl SpecDblFin SpecDblAcc
  P_Dbl13 P_Dbl14 P_Dbl15 P_Dbl16 P_Dbl17 P_Dbl19 P_Dbl20 P_Dbl21.
Import ListNotations.
Local Open Scope R_scope.

Lemma unit_ac (q : list dbl) : list4 q -> finite q -> Rabs (SpecDbl.norm2 q - 1) <= / 10 ^ 13 ->
  exists u0 u1 u2 u3, u0 * u0 + u1 * u1 + u2 * u2 + u3 * u3 = 1 /\ map (fun x => x / sqrt (SpecDbl.norm2 q)) (map B2R q) = [u0; u1; u2; u3] /\
    forall k, (k < 4)%nat -> ac (nth k q B754_nan) (nth k [u0; u1; u2; u3] 0) (Rabs (nth k [u0; u1; u2; u3] 0)) 451 0 (-1075).
Proof.
  intros (a & b & c & d & ->) HF HN. set (N := SpecDbl.norm2 [a; b; c; d]) in *.
  assert (EN : N = B2R a * B2R a + B2R b * B2R b + B2R c * B2R c + B2R d * B2R d) by (unfold N; cbn; ring).
  cbn [pow] in HN. apply abs_le in HN.
  assert (S : sqrt N * sqrt N = N) by (apply sqrt_sqrt; lra). pose proof (sqrt_lt_R0 N ltac:(lra)) as PS.
  set (s := sqrt N) in *. clearbody s.
  assert (SB : Rabs (s - 1) <= uu * 451).
  { assert (E : (s - 1) * (s + 1) = N - 1) by (rewrite <- S; ring). assert (B1 : 0.999 <= s <= 1.001) by nra.
    unfold uu. apply abs_le. nra. }
  exists (B2R a / s), (B2R b / s), (B2R c / s), (B2R d / s).
  assert (U : B2R a / s * (B2R a / s) + B2R b / s * (B2R b / s) + B2R c / s * (B2R c / s) + B2R d / s * (B2R d / s) = 1).
  { replace (B2R a / s * (B2R a / s) + B2R b / s * (B2R b / s) + B2R c / s * (B2R c / s) + B2R d / s * (B2R d / s)) with (N / (s * s)); [rewrite S; field; lra|].
    rewrite EN. field. lra. }
  split; [exact U|]. split; [reflexivity|].
  assert (K : forall x : dbl, fin x -> (B2R x / s) * (B2R x / s) <= 1 -> ac x (B2R x / s) (Rabs (B2R x / s)) 451 0 (-1075)).
  { intros x F HX. split; [exact F|]. split; [|split; [lra|]].
    - replace (B2R x - B2R x / s) with ((s - 1) * (B2R x / s)) by (field; lra). rewrite Rabs_mult. pose proof (bpow_gt_0 radix2 (-1075)) as P.
      assert (Rabs (s - 1) * Rabs (B2R x / s) <= uu * 451 * Rabs (B2R x / s)) by (apply Rmult_le_compat_r; [apply Rabs_pos|exact SB]). lra.
    - change (bpow radix2 0) with 1. apply abs_le. nra. }
  inversion HF as [|? ? Fa HF1]; subst. inversion HF1 as [|? ? Fb HF2]; subst. inversion HF2 as [|? ? Fc HF3]; subst. inversion HF3 as [|? ? Fd _]; subst.
  pose proof (Rle_0_sqr (B2R a / s)) as Ra. pose proof (Rle_0_sqr (B2R b / s)) as Rb. pose proof (Rle_0_sqr (B2R c / s)) as Rc. pose proof (Rle_0_sqr (B2R d / s)) as Rd. unfold Rsqr in *.
  intros k Hk. destruct k as [|[|[|[|k]]]]; [| | | |lia]; cbn [nth]; apply K; try assumption; lra.
Qed.

Section L.
  Variable L : Libm.
  Let DN : Num dbl := DNum L.
  #[local] Existing Instance DN.

  Lemma lit_half' : ac (R2D (Rlit 5 (-1))) (/ 2) (/ 2) 1 0 (-1075).
  Proof.
    assert (H : ac (R2D (Rlit 5 (-1))) (/ 2) (/ 2) 1 1 (-1075)) by (eapply ac_fin; [apply (ac_lit 5 1 1); lia| | |lia..]; rewrite rlit_neg; change (10 ^ 1)%Z with 10%Z; lra).
    apply (ac_weak _ _ _ _ _ _ _ _ _ _ H); [lia|lia|lra|change (bpow radix2 0) with 1; lra|lia].
  Qed.
  Lemma lit_thr : ac (R2D (Rlit 15 (-1))) (3 / 2) (3 / 2) 1 1 (-1075).
  Proof. eapply ac_fin; [apply (ac_lit 15 1 1); lia| | |lia..]; rewrite rlit_neg; change (10 ^ 1)%Z with 10%Z; lra. Qed.

  Section Q.
    Variables (q : list dbl) (u0 u1 u2 u3 : R).
    Hypothesis U : u0 * u0 + u1 * u1 + u2 * u2 + u3 * u3 = 1.
    Hypothesis A0 : ac (get q 0) u0 (Rabs u0) 451 0 (-1075).
    Hypothesis A1 : ac (get q 1) u1 (Rabs u1) 451 0 (-1075).
    Hypothesis A2 : ac (get q 2) u2 (Rabs u2) 451 0 (-1075).
    Hypothesis A3 : ac (get q 3) u3 (Rabs u3) 451 0 (-1075).

    Lemma tens_ac k : (k < 9)%nat -> ac (get (quat_to_tensor q) k) (nth k (@quat_to_tensor R RNum [u0; u1; u2; u3]) 0) 1 915 0 (-1000).
    Proof.
      intros Hk. pose proof (ac_Z 2 ltac:(lia)) as Z2.
      assert (SQ : forall x, Rabs x * Rabs x = x * x) by (intros x; rewrite <- Rabs_mult; apply Rabs_pos_eq; apply Rle_0_sqr).
      pose proof (SQ u0) as S0. pose proof (SQ u1) as S1. pose proof (SQ u2) as S2. pose proof (SQ u3) as S3.
      unfold quat_to_tensor, two. cbv zeta. cbn [nadd nsub nmul nZ DN DNum].
      set (a := get q 0) in *. set (b := get q 1) in *. set (c := get q 2) in *. set (d := get q 3) in *. clearbody a b c d.
      unfold get. cbn [nth nadd nsub nmul nZ RNum].
      set (r0 := Rabs u0) in *. set (r1 := Rabs u1) in *. set (r2 := Rabs u2) in *. set (r3 := Rabs u3) in *.
      pose proof (Rle_0_sqr (r0 - r1)) as D1. pose proof (Rle_0_sqr (r0 - r2)) as D2. pose proof (Rle_0_sqr (r0 - r3)) as D3.
      pose proof (Rle_0_sqr (r1 - r2)) as D4. pose proof (Rle_0_sqr (r1 - r3)) as D5. pose proof (Rle_0_sqr (r2 - r3)) as D6. unfold Rsqr in *.
      clearbody r0 r1 r2 r3.
      do 9 (destruct k as [|k]; [cbn [nth]; eapply ac_weak; [eapply ac_eq; [acc|ring|reflexivity]|cbn; lia|cbn; lia|try (cbn; lra)|change (bpow radix2 0) with 1; lra|cbn; lia]|]). lia.
    Qed.

    Lemma rot_ac k : (k < 25)%nat -> ac (get (get_rot_mat_vecd (quat_to_tensor q)) k)
      (nth k (@get_rot_mat_vecd R RNum (@quat_to_tensor R RNum [u0; u1; u2; u3])) 0) 2 1845 1 (-960).
    Proof.
      intros Hk. pose proof tens_ac as T. clear A0 A1 A2 A3 U.
      assert (LD : length (quat_to_tensor q) = 9%nat) by reflexivity.
      assert (LR : length (@quat_to_tensor R RNum [u0; u1; u2; u3]) = 9%nat) by reflexivity.
      set (M := quat_to_tensor q) in *. set (W := @quat_to_tensor R RNum [u0; u1; u2; u3]) in *. clearbody M W.
      destruct C37_roots as (_ & C3 & _). pose proof (sqrt_sqrt 3 ltac:(lra)) as S3. pose proof (sqrt_lt_R0 3 ltac:(lra)) as P3. assert (B3 : 1.7 <= sqrt 3 <= 1.7321) by nra.
      pose proof (ac_const _ _ C3 ltac:(lra)) as K3. pose proof lit_half' as LH. pose proof lit_thr as LT.
      pose proof (T 0%nat ltac:(lia)) as T0. pose proof (T 1%nat ltac:(lia)) as T1. pose proof (T 2%nat ltac:(lia)) as T2. pose proof (T 3%nat ltac:(lia)) as T3. pose proof (T 4%nat ltac:(lia)) as T4.
      pose proof (T 5%nat ltac:(lia)) as T5. pose proof (T 6%nat ltac:(lia)) as T6. pose proof (T 7%nat ltac:(lia)) as T7. pose proof (T 8%nat ltac:(lia)) as T8. clear T.
      assert (EH : @onehalf R RNum = / 2) by apply onehalf_R. assert (ET : @thrhalf R RNum = 3 / 2) by apply thrhalf_R.
      destruct M as [|m0 [|m1 [|m2 [|m3 [|m4 [|m5 [|m6 [|m7 [|m8 [|]]]]]]]]]]; try discriminate LD.
      destruct W as [|w0 [|w1 [|w2 [|w3 [|w4 [|w5 [|w6 [|w7 [|w8 [|]]]]]]]]]]; try discriminate LR.
      unfold get in T0, T1, T2, T3, T4, T5, T6, T7, T8. cbn [nth] in T0, T1, T2, T3, T4, T5, T6, T7, T8.
      unfold get_rot_mat_vecd. cbv zeta. rewrite EH, ET. unfold onehalf, thrhalf, get2, get.
      cbn [nth Nat.mul Nat.add nadd nsub nmul nlit sqr3 DN DNum RNum]. change s3 with (sqrt 3).
      set (hf := R2D (Rlit 5 (-1))) in *. set (ht := R2D (Rlit 15 (-1))) in *. set (c3 := dconst lit_SQRT3) in *. set (z := sqrt 3) in *. clearbody hf ht c3 z.
      clear C3 EH ET LD LR. 
      do 25 (destruct k as [|k]; [cbn [nth]; eapply ac_weak; [eapply ac_eq; [acc|ring|reflexivity]|cbn; lia|cbn; lia|lra|change (bpow radix2 1) with 2; lra|cbn; lia]|]). lia.
    Qed.

    (** the five lattice components turned into the six stored ones *)
    Variables (C : list dbl) (Sv Av : nat -> R).
    Hypothesis HC : forall j, (j < 5)%nat -> ac (get C j) (Sv j) (Av j) 700 690 (-300).
    Let TA : R := Av 0%nat + Av 1%nat + Av 2%nat + Av 3%nat + Av 4%nat.
    Let SR : list R := [Sv 0%nat; Sv 1%nat; Sv 2%nat; Sv 3%nat; Sv 4%nat] ++ [0].
    Lemma row_ac j : (j < 5)%nat -> ac (get (vecsVMa 5 5 (get_rot_mat_vecd (quat_to_tensor q)) C) j)
      (nth j (@vecsVMa R RNum 5 5 (@get_rot_mat_vecd R RNum (@quat_to_tensor R RNum [u0; u1; u2; u3])) SR) 0) (2 * TA) 2570 696 (-250).
    Proof.
      intros Hj. pose proof rot_ac as T. clear A0 A1 A2 A3 U.
      assert (LR : length (@get_rot_mat_vecd R RNum (@quat_to_tensor R RNum [u0; u1; u2; u3])) = 25%nat) by reflexivity.
      set (M := get_rot_mat_vecd (quat_to_tensor q)) in *. set (W := @get_rot_mat_vecd R RNum (@quat_to_tensor R RNum [u0; u1; u2; u3])) in *. clearbody M W.
      pose proof (HC 0%nat ltac:(lia)) as C0. pose proof (HC 1%nat ltac:(lia)) as C1. pose proof (HC 2%nat ltac:(lia)) as C2. pose proof (HC 3%nat ltac:(lia)) as C3. pose proof (HC 4%nat ltac:(lia)) as C4.
      pose proof (T (j * 5 + 0)%nat ltac:(lia)) as T0. pose proof (T (j * 5 + 1)%nat ltac:(lia)) as T1. pose proof (T (j * 5 + 2)%nat ltac:(lia)) as T2. pose proof (T (j * 5 + 3)%nat ltac:(lia)) as T3. pose proof (T (j * 5 + 4)%nat ltac:(lia)) as T4.
      unfold vecsVMa. rewrite get_tab by exact Hj.
      assert (ER : nth j (@tab R 5 (fun iN => @sum R RNum 5 (fun iQ => (@get2 R RNum 5 W iN iQ * @get R RNum SR iQ)%num))) 0 = 0 + nth (j * 5 + 0) W 0 * Sv 0%nat + nth (j * 5 + 1) W 0 * Sv 1%nat + nth (j * 5 + 2) W 0 * Sv 2%nat + nth (j * 5 + 3) W 0 * Sv 3%nat + nth (j * 5 + 4) W 0 * Sv 4%nat).
      { change (nth j ?l 0) with (@get R RNum l j). rewrite get_tab by exact Hj. unfold sum, get2, get, SR. cbn [seq fold_left nth nadd nmul nZ nundef RNum app]. reflexivity. }
      rewrite ER. clear ER. unfold sum, get2. cbn [seq fold_left nadd nmul nZ DN DNum]. 
      assert (Z0 : ac (Z2D 0) 0 0 0 0 (-1075)).
      { destruct (Z2D_ok 0 ltac:(lia)) as [F V]. split; [exact F|]. rewrite V, Rminus_diag_eq, Rabs_R0 by reflexivity. pose proof (bpow_gt_0 radix2 (-1075)). pose proof (bpow_gt_0 radix2 0). lra. }
      set (t0 := get M (j * 5 + 0)) in *. set (t1 := get M (j * 5 + 1)) in *. set (t2 := get M (j * 5 + 2)) in *. set (t3 := get M (j * 5 + 3)) in *. set (t4 := get M (j * 5 + 4)) in *.
      set (w0 := nth (j * 5 + 0) W 0) in *. set (w1 := nth (j * 5 + 1) W 0) in *. set (w2 := nth (j * 5 + 2) W 0) in *. set (w3 := nth (j * 5 + 3) W 0) in *. set (w4 := nth (j * 5 + 4) W 0) in *.
      clearbody t0 t1 t2 t3 t4 w0 w1 w2 w3 w4. clear T HC. set (z := Z2D 0) in *. clearbody z.
      eapply ac_fin; [acc|reflexivity|unfold TA; ring|cbn; lia..].
    Qed.
    Lemma srot_ac k : (k < 6)%nat -> ac (get (stress_out q C) k) (nth k (@stress_out R RNum [u0; u1; u2; u3] SR) 0) (2.25 * TA) 2600 700 (-230).
    Proof.
      intros Hk. unfold stress_out. cbv zeta. pose proof row_ac as T. clear A0 A1 A2 A3 U.
      assert (LD : length (vecsVMa 5 5 (get_rot_mat_vecd (quat_to_tensor q)) C) = 5%nat) by reflexivity.
      assert (LR : length (@vecsVMa R RNum 5 5 (@get_rot_mat_vecd R RNum (@quat_to_tensor R RNum [u0; u1; u2; u3])) SR) = 5%nat) by reflexivity.
      set (M := vecsVMa 5 5 (get_rot_mat_vecd (quat_to_tensor q)) C) in *. set (W := @vecsVMa R RNum 5 5 _ SR) in *. clearbody M W.
      assert (PT : 0 <= TA) by (pose proof (ac_A _ _ _ _ _ _ (T 0%nat ltac:(lia))); lra).
      assert (BT : 2.25 * TA <= bpow radix2 700).
      { destruct (T 0%nat ltac:(lia)) as (_ & _ & _ & HB). change 700%Z with (696 + 4)%Z. rewrite bpow_plus. change (bpow radix2 4) with 16. pose proof (bpow_gt_0 radix2 696). set (bb := bpow radix2 696) in *. clearbody bb. lra. }
      pose proof (T 0%nat ltac:(lia)) as T0. pose proof (T 1%nat ltac:(lia)) as T1. pose proof (T 2%nat ltac:(lia)) as T2. pose proof (T 3%nat ltac:(lia)) as T3. pose proof (T 4%nat ltac:(lia)) as T4. clear T.
      destruct M as [|m0 [|m1 [|m2 [|m3 [|m4 [|]]]]]]; try discriminate LD. destruct W as [|w0 [|w1 [|w2 [|w3 [|w4 [|]]]]]]; try discriminate LR.
      unfold get in T0, T1, T2, T3, T4. cbn [nth] in T0, T1, T2, T3, T4.
      destruct C37_roots as (_ & _ & _ & _ & K1 & K2 & _ & K3 & _).
      pose proof (sqrt_sqrt 3 ltac:(lra)) as S3. pose proof (sqrt_lt_R0 3 ltac:(lra)) as P3. assert (B3 : 1.732 <= sqrt 3 <= 1.7321) by nra.
      pose proof (sqrt_sqrt 2 ltac:(lra)) as S2. pose proof (sqrt_lt_R0 2 ltac:(lra)) as P2. assert (B2 : 1.414 <= sqrt 2 <= 1.4143) by nra.
      assert (E1 : sqrt (2 / 3) = sqrt 2 * sqrt 3 / 3). { rewrite sqrt_div by lra. replace (sqrt 2 / sqrt 3) with (sqrt 2 * (sqrt 3 * sqrt 3) / sqrt 3 / 3) by (rewrite S3; field; lra). field. lra. }
      assert (E2 : 1 / sqrt 2 = sqrt 2 / 2). { replace (sqrt 2 / 2) with (sqrt 2 * / (sqrt 2 * sqrt 2)) by (rewrite S2; reflexivity). field. lra. }
      assert (E3 : 1 / sqrt 6 = sqrt 2 * sqrt 3 / 6). { replace 6 with (2 * 3) at 1 by lra. rewrite sqrt_mult by lra. apply (Rmult_eq_reg_r (sqrt 2 * sqrt 3)); [|nra]. transitivity 1; [field; lra|]. replace (sqrt 2 * sqrt 3 / 6 * (sqrt 2 * sqrt 3)) with ((sqrt 2 * sqrt 2) * (sqrt 3 * sqrt 3) / 6) by field. rewrite S2, S3. field. }
      rewrite E1 in K1. rewrite E2 in K2. rewrite E3 in K3.
      assert (B6 : 2.449 <= sqrt 2 * sqrt 3 <= 2.4498) by nra.
      pose proof (ac_const _ _ K1 ltac:(lra)) as A1. pose proof (ac_const _ _ K2 ltac:(lra)) as A2. pose proof (ac_const _ _ K3 ltac:(lra)) as A3.
      unfold vecdsToSvecP. cbv zeta. unfold get. cbn [nth app nadd nsub nmul nopp sqr2i sqr6i sqr2b3 DN DNum RNum].
      unfold s2, s3. set (x := sqrt 2) in *. set (y := sqrt 3) in *. set (xy := x * y) in *. clearbody xy x y.
      set (c1 := dconst lit_SQRT2B3) in *. set (c2 := dconst lit_SQRT2I) in *. set (c3 := dconst lit_SQRT6I) in *. clearbody c1 c2 c3.
      set (ta := TA) in *. clearbody ta. clear K1 K2 K3 E1 E2 E3 LD LR HC.
      do 6 (destruct k as [|k]; [cbn [nth]; eapply ac_weak; [eapply ac_eq; [acc|ring|reflexivity]|cbn; lia|cbn; lia|cbn; nra|exact BT|cbn; lia]|]). lia.
    Qed.
  End Q.
End L.
