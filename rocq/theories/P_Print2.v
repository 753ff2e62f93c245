(** Rounding error of the average stress printed by the mini-app (C70). *)
From Coq Require Import List ZArith Bool Lia PeanoNat Reals Lra Permutation.
From Flocq Require Import Core IEEE754.BinarySingleNaN.
From Verif Require Import Num NumR NumD Arr Util Miniapp MatModel MiniPrint SpecPrint P_Dbl P_Dbl3 P_Mini5 P_Print.
Import ListNotations.
Local Open Scope R_scope.

Section Avg.
  Variable (n : nat) (x : nat -> dbl).
  Hypothesis Hn : (1 <= Z.of_nat n <= 2 ^ 31)%Z.
  Let w : dbl := Bdiv mode_NE (Z2D 1) (Z2D (Z.of_nat n)).
  Let N := IZR (Z.of_nat n).

  Lemma eta_tiny : eta <= / 1000 * uu * / 2 ^ 31.
  Proof.
    unfold eta. rewrite uu_bpow. apply Rle_trans with (bpow radix2 (-10 + -53 + -31)); [apply bpow_le; lia|]. rewrite !bpow_plus.
    change (bpow radix2 (-10)) with (/ 1024). change (bpow radix2 (-31)) with (/ 2147483648). pose proof (bpow_gt_0 radix2 (-53)). set (b := bpow radix2 (-53)) in *. clearbody b. cbn [pow]. lra.
  Qed.
  Lemma N_bounds : 1 <= N <= 2 ^ 31.
  Proof. unfold N. destruct Hn as [H1 H2]. apply IZR_le in H1, H2. split; [exact H1|]. apply Rle_trans with (1 := H2). right. rewrite pow_IZR. reflexivity. Qed.
  Lemma invN : / 2 ^ 31 <= / N <= 1.
  Proof. destruct N_bounds. split; [apply Rinv_le_contravar; lra|]. rewrite <- Rinv_1. apply Rinv_le_contravar; lra. Qed.
  Lemma w_val : fin w /\ Rabs (B2R w - / N) <= 1.01 * uu * / N.
  Proof.
    destruct (Z2D_ok 1 ltac:(lia)) as [F1 V1]. destruct (Z2D_ok (Z.of_nat n) ltac:(lia)) as [Fn Vn]. fold N in Vn. pose proof N_bounds as NB. pose proof invN as IB.
    assert (B1 : bpow radix2 0 <= big) by (apply bpow_le; lia). change (bpow radix2 0) with 1 in B1.
    destruct (div_ok (Z2D 1) (Z2D (Z.of_nat n)) F1) as [F V].
    - rewrite Vn. lra.
    - rewrite V1, Vn. unfold Rdiv. rewrite Rmult_1_l, Rabs_pos_eq; [lra|]. apply Rle_trans with (/ 2 ^ 31); [|lra]. cbn [pow]. lra.
    - split; [exact F|]. unfold w. rewrite V, V1, Vn. unfold Rdiv. rewrite Rmult_1_l. pose proof (rnd_err (/ N)) as E. assert (0 < / N) by (apply Rinv_0_lt_compat; lra).
      rewrite (Rabs_pos_eq (/ N)) in E by lra. pose proof eta_tiny as T. assert (U : 0 < uu) by (unfold uu; lra).
      assert (/ 1000 * uu * / 2 ^ 31 <= / 1000 * uu * / N) by (apply Rmult_le_compat_l; [lra|apply IB]). lra.
  Qed.
  Let X (t : Tree) : R := fold_right Rplus 0 (map (fun i => B2R (x i) / N) (points t)).
  Let M (t : Tree) : R := fold_right Rplus 0 (map (fun i => Rabs (B2R (x i)) / N) (points t)).
  Lemma X_M t : Rabs (X t) <= M t.
  Proof.
    unfold X, M. induction (points t) as [|i l IH]; cbn [map fold_right]; [rewrite Rabs_R0; lra|]. apply Rle_trans with (1 := Rabs_triang _ _).
    apply Rplus_le_compat; [|exact IH]. unfold Rdiv. rewrite Rabs_mult, (Rabs_pos_eq (/ N)); [lra|]. destruct invN. pose proof N_bounds. left. apply Rinv_0_lt_compat. lra.
  Qed.
  Lemma M_pos t : 0 <= M t. Proof. pose proof (X_M t). pose proof (Rabs_pos (X t)). lra. Qed.
  Lemma X_both l r : X (Both l r) = X l + X r. Proof. unfold X. cbn [points]. now rewrite map_app, fold_app_R. Qed.
  Lemma M_both l r : M (Both l r) = M l + M r. Proof. unfold M. cbn [points]. now rewrite map_app, fold_app_R. Qed.

  Variable L : Libm.
  Let DN : Num dbl := DNum L.
  #[local] Existing Instance DN.
  Definition summed (t : Tree) : dbl := reduce_sum (fun i => Bmult mode_NE w (x i)) t.
  Lemma leaf_err i : fin (Bmult mode_NE w (x i)) -> fin (x i) /\ Rabs (B2R (Bmult mode_NE w (x i)) - B2R (x i) / N) <= 3 * uu * (Rabs (B2R (x i)) / N) + eta.
  Proof.
    intros F. destruct (mul_fin _ _ F) as (_ & Fx & V). split; [exact Fx|]. rewrite V. destruct w_val as [_ EW]. pose proof (rnd_err (B2R w * B2R (x i))) as E.
    pose proof invN as IB. set (v := B2R (x i)) in *. set (ww := B2R w) in *. clearbody v ww. set (q := / N) in *. unfold Rdiv. fold q.
    assert (Q : 0 < q <= 1) by (split; [unfold q; apply Rinv_0_lt_compat; pose proof N_bounds; lra|lra]). clearbody q.
    assert (U : 0 < uu <= / 1000) by (unfold uu; lra).
    assert (E1 : Rabs (ww * v - v * q) <= 1.01 * uu * (Rabs v * q)). { replace (ww * v - v * q) with ((ww - q) * v) by ring. rewrite Rabs_mult. apply Rle_trans with (1.01 * uu * q * Rabs v); [apply Rmult_le_compat_r; [apply Rabs_pos|exact EW]|lra]. }
    set (A := Rabs v * q) in *. assert (A0 : 0 <= A) by (unfold A; apply Rmult_le_pos; [apply Rabs_pos|lra]).
    assert (VQ : Rabs (v * q) = A) by (unfold A; rewrite Rabs_mult, (Rabs_pos_eq q) by lra; reflexivity). clearbody A.
    assert (E2 : Rabs (ww * v) <= 1.1 * A). { replace (ww * v) with ((ww * v - v * q) + v * q) by ring. apply Rle_trans with (1 := Rabs_triang _ _). rewrite VQ. assert (1.01 * uu * A <= 0.01 * A) by (apply Rmult_le_compat_r; lra). lra. }
    replace (rnd (ww * v) - v * q) with ((rnd (ww * v) - ww * v) + (ww * v - v * q)) by ring. apply Rle_trans with (1 := Rabs_triang _ _).
    assert (uu * Rabs (ww * v) <= uu * (1.1 * A)) by (apply Rmult_le_compat_l; lra).
    assert (0 <= uu * A) by (apply Rmult_le_pos; lra). lra.
  Qed.
  Lemma summed_err t : INR (depth t) <= 2 ^ 40 -> fin (summed t) ->
    (forall i, In i (points t) -> fin (x i)) /\
    Rabs (B2R (summed t) - X t) <= (3 + 2 * INR (depth t)) * uu * M t + (1 + 2 * uu * INR (depth t)) * INR (parts t) * eta.
  Proof.
    assert (U : 0 < uu) by (unfold uu; lra). assert (U40 : uu * 2 ^ 40 <= / 8000) by (unfold uu; cbn [pow]; lra). pose proof eta_pos as EP.
    induction t as [i| |l IHl r IHr]; intros HD F.
    - cbn [summed reduce_sum depth parts points INR] in *. unfold summed in F |- *. cbn [reduce_sum] in F |- *. destruct (leaf_err i F) as [Fx E]. split; [intros j [<-|[]]; exact Fx|].
      unfold X, M. cbn [points map fold_right]. rewrite !Rplus_0_r. rewrite Rmult_0_r, Rplus_0_r, Rmult_0_r, Rplus_0_r, !Rmult_1_l. exact E.
    - split; [intros j []|]. unfold summed, X, M. cbn [reduce_sum points map fold_right]. destruct (Z2D_ok 0 ltac:(lia)) as [_ V]. cbn [nZ DN DNum]. rewrite V, Rminus_0_r, Rabs_R0.
      apply Rplus_le_le_0_compat; [lra|]. cbn [depth parts INR]. lra.
    - unfold summed in F |- *. cbn [reduce_sum] in F |- *. cbn [nadd DN DNum] in F |- *. fold (summed l) in F |- *. fold (summed r) in F |- *.
      destruct (add_fin _ _ F) as (Fl & Fr & V). rewrite V.
      cbn [depth] in HD. rewrite S_INR in HD. assert (Dl : INR (depth l) <= INR (Nat.max (depth l) (depth r))) by (apply le_INR; lia). assert (Dr : INR (depth r) <= INR (Nat.max (depth l) (depth r))) by (apply le_INR; lia).
      destruct (IHl ltac:(lra) Fl) as [Pl El]. destruct (IHr ltac:(lra) Fr) as [Pr Er]. clear IHl IHr.
      split. { intros j Hj. cbn [points] in Hj. apply in_app_or in Hj. destruct Hj; auto. }
      rewrite X_both, M_both. cbn [depth parts]. rewrite !S_INR, plus_INR. set (h := INR (Nat.max (depth l) (depth r))) in *.
      pose proof (pos_INR (depth l)) as Hl0. pose proof (pos_INR (depth r)) as Hr0. pose proof (pos_INR (parts l)) as Pl0. pose proof (pos_INR (parts r)) as Pr0.
      pose proof (X_M l) as XMl. pose proof (X_M r) as XMr. pose proof (M_pos l) as Ml. pose proof (M_pos r) as Mr.
      set (hl := INR (depth l)) in *. set (hr := INR (depth r)) in *. set (pl := INR (parts l)) in *. set (pr := INR (parts r)) in *.
      set (a := B2R (summed l)) in *. set (b := B2R (summed r)) in *. set (xl := X l) in *. set (xr := X r) in *. set (ml := M l) in *. set (mr := M r) in *.
      pose proof (rnd_err (a + b)) as E. clearbody h hl hr pl pr a b xl xr ml mr. clear F Fl Fr V Pl Pr.
      assert (H0 : 0 <= h <= 2 ^ 40) by lra. assert (UH : 0 <= uu * h <= / 8000) by (split; [apply Rmult_le_pos; lra|apply Rle_trans with (uu * 2 ^ 40); [apply Rmult_le_compat_l; lra|exact U40]]).
      assert (El' : Rabs (a - xl) <= (3 + 2 * h) * uu * ml + (1 + 2 * uu * h) * pl * eta).
      { apply Rle_trans with (1 := El). apply Rplus_le_compat; [apply Rmult_le_compat_r; [lra|apply Rmult_le_compat_r; lra]|apply Rmult_le_compat_r; [lra|apply Rmult_le_compat_r; [lra|]]]. apply Rplus_le_compat_l. apply Rmult_le_compat_l; lra. }
      assert (Er' : Rabs (b - xr) <= (3 + 2 * h) * uu * mr + (1 + 2 * uu * h) * pr * eta).
      { apply Rle_trans with (1 := Er). apply Rplus_le_compat; [apply Rmult_le_compat_r; [lra|apply Rmult_le_compat_r; lra]|apply Rmult_le_compat_r; [lra|apply Rmult_le_compat_r; [lra|]]]. apply Rplus_le_compat_l. apply Rmult_le_compat_l; lra. }
      clear El Er. set (m := ml + mr) in *. set (p := pl + pr) in *. set (c := (3 + 2 * h) * uu) in *. set (g := 1 + 2 * uu * h) in *.
      assert (C0 : 0 <= c <= / 100) by (unfold c; assert (3 * uu <= / 1000) by (unfold uu; lra); lra). assert (G0 : 1 <= g <= 2) by (unfold g; lra).
      assert (S1 : Rabs (a - xl) + Rabs (b - xr) <= c * m + g * p * eta) by (unfold m, p; lra).
      assert (S2 : Rabs (a + b) <= m + (c * m + g * p * eta)).
      { replace (a + b) with (((a - xl) + (b - xr)) + (xl + xr)) by ring. apply Rle_trans with (1 := Rabs_triang _ _). pose proof (Rabs_triang (a - xl) (b - xr)). pose proof (Rabs_triang xl xr). unfold m at 1. lra. }
      replace (rnd (a + b) - (xl + xr)) with ((rnd (a + b) - (a + b)) + ((a - xl) + (b - xr))) by ring. apply Rle_trans with (1 := Rabs_triang _ _). pose proof (Rabs_triang (a - xl) (b - xr)) as T2.
      assert (UB : uu * Rabs (a + b) <= uu * (m + (c * m + g * p * eta))) by (apply Rmult_le_compat_l; lra).
      assert (EC : (3 + 2 * (h + 1)) * uu = c + 2 * uu) by (unfold c; ring). assert (EG : 1 + 2 * uu * (h + 1) = g + 2 * uu) by (unfold g; ring).
      replace (3 + 2 * (h + 1)) with (3 + 2 * h + 2) by ring. rewrite EG. replace ((3 + 2 * h + 2) * uu * m) with ((c + 2 * uu) * m) by (unfold c; ring).
      assert (M0 : 0 <= m) by (unfold m; lra). assert (P0 : 0 <= p) by (unfold p; lra). clearbody m p c g.
      assert (K1 : uu * (c * m) <= uu * m) by (apply Rmult_le_compat_l; [lra|]; assert (c * m <= 1 * m) by (apply Rmult_le_compat_r; lra); lra).
      assert (PE : 0 <= p * eta) by (apply Rmult_le_pos; lra).
      assert (K2 : uu * (g * p * eta) <= 2 * uu * (p * eta)) by (replace (uu * (g * p * eta)) with (g * (uu * (p * eta))) by ring; assert (0 <= uu * (p * eta)) by (apply Rmult_le_pos; lra); assert (g * (uu * (p * eta)) <= 2 * (uu * (p * eta))) by (apply Rmult_le_compat_r; lra); lra).
      assert (K3 : eta <= (g + 2 * uu) * eta) by (rewrite <- (Rmult_1_l eta) at 1; apply Rmult_le_compat_r; lra).
      replace ((g + 2 * uu) * (p + 1) * eta) with (g * p * eta + 2 * uu * (p * eta) + (g + 2 * uu) * eta) by ring.
      replace ((c + 2 * uu) * m) with (c * m + 2 * (uu * m)) by ring. lra.
  Qed.
End Avg.

Lemma total_div n c f : total n (fun i => f i / c) = total n f / c.
Proof. unfold total. induction (seq 0 n) as [|i l IH]; cbn [map fold_right]; [unfold Rdiv; ring|]. rewrite IH. unfold Rdiv. ring. Qed.
Lemma eta_half : 2 * eta <= / 2 ^ 1073.
Proof.
  unfold eta.
  replace (/ 2 ^ 1073) with (bpow radix2 (-1073)). { replace (2 * bpow radix2 (-1075)) with (bpow radix2 (1 + -1075)) by (rewrite bpow_plus; reflexivity). apply bpow_le. lia. }
  change (-1073)%Z with (- Z.of_nat 1073)%Z. rewrite bpow_opp. f_equal. rewrite bpow_powerRZ, <- pow_powerRZ. reflexivity.
Qed.
(** the printed average *)
Lemma printed_error L n t (a : App dbl) j : (1 <= Z.of_nat n <= 2 ^ 31)%Z -> reduction n t -> INR (depth t) <= 2 ^ 40 ->
  let s := @printed_stress dbl (DNum L) n t a j in fin s ->
  (forall q, (q < n)%nat -> fin (nth (6 * q + j) (ap_stress a) B754_nan)) /\ Rabs (B2R s - mean n (rstress a j)) <= avg_error n t a j.
Proof.
  intros Hn HR HD s F. set (x := fun i => @get dbl (DNum L) (ap_stress a) (i * nsvec + j)).
  assert (EX : forall q, x q = nth (6 * q + j) (ap_stress a) B754_nan) by (intros q; unfold x, get; change nsvec with 6%nat; rewrite (Nat.mul_comm q); reflexivity).
  change s with (summed n x L t) in F |- *. destruct (summed_err n x Hn L t HD F) as [FX E]. split.
  - intros q Hq. rewrite <- EX. apply FX. apply (Permutation_in q (Permutation_sym HR)). apply in_seq. lia.
  - assert (EN : IZR (Z.of_nat n) = INR n) by (symmetry; apply INR_IZR_INZ). rewrite EN in E.
    assert (E1 : fold_right Rplus 0 (map (fun i => B2R (x i) / INR n) (points t)) = mean n (rstress a j)).
    { rewrite (fold_perm _ _ (Permutation_map (fun i => B2R (x i) / INR n) HR)). change (total n (fun i => B2R (x i) / INR n) = mean n (rstress a j)). rewrite total_div. unfold mean. f_equal. apply total_ext. intros i _. unfold rstress. now rewrite EX. }
    assert (E2 : fold_right Rplus 0 (map (fun i => Rabs (B2R (x i)) / INR n) (points t)) = mean n (fun q => Rabs (rstress a j q))).
    { rewrite (fold_perm _ _ (Permutation_map (fun i => Rabs (B2R (x i)) / INR n) HR)). change (total n (fun i => Rabs (B2R (x i)) / INR n) = mean n (fun q => Rabs (rstress a j q))). rewrite total_div. unfold mean. f_equal. apply total_ext. intros i _. unfold rstress. now rewrite EX. }
    rewrite E1, E2 in E. apply Rle_trans with (1 := E). unfold avg_error. replace uu with (/ 2 ^ 53) in * by (unfold uu; cbn [pow]; lra). apply Rplus_le_compat_l.
    rewrite (Rmult_comm _ (INR (parts t))), Rmult_assoc. apply Rmult_le_compat_l; [apply pos_INR|]. apply Rle_trans with (2 * eta); [|exact eta_half]. apply Rmult_le_compat_r; [left; apply eta_pos|].
    assert (/ 2 ^ 53 * INR (depth t) <= / 2 ^ 53 * 2 ^ 40) by (apply Rmult_le_compat_l; [cbn [pow]; lra|exact HD]). assert (/ 2 ^ 53 * 2 ^ 40 <= / 8000) by (cbn [pow]; lra). rewrite Rmult_assoc. lra.
Qed.
Lemma near_both x y m e e' : Rabs (x - m) <= e -> Rabs (y - m) <= e' -> Rabs (x - y) <= e + e'.
Proof. intros H H'. replace (x - y) with ((x - m) + - (y - m)) by ring. apply Rle_trans with (1 := Rabs_triang _ _). rewrite Rabs_Ropp. now apply Rplus_le_compat. Qed.
Lemma printed_devices L L' n t t' (a : App dbl) j : (1 <= Z.of_nat n <= 2 ^ 31)%Z -> reduction n t -> reduction n t' ->
  INR (depth t) <= 2 ^ 40 -> INR (depth t') <= 2 ^ 40 ->
  let s := @printed_stress dbl (DNum L) n t a j in let s' := @printed_stress dbl (DNum L') n t' a j in
  fin s -> fin s' -> Rabs (B2R s - B2R s') <= avg_error n t a j + avg_error n t' a j.
Proof.
  intros Hn R R' D D' s s' F F'. exact (near_both _ _ _ _ _ (proj2 (printed_error L n t a j Hn R D F)) (proj2 (printed_error L' n t' a j Hn R' D' F'))).
Qed.
