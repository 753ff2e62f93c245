(** An exact linear solver that knows one inverse matrix; the Jacobian of a crystal at rest that spins about the third axis. *)
From Coq Require Import List ZArith Bool Lia PeanoNat Reals Lra String.
From Verif Require P_Rigid P_KinV.
From Verif Require Import P_Demo P_Latop.
From Verif Require Import Num Arr NumR Util SlipGeom Hard Elast Evptn MatModel SpecTensor SpecTan P_Tensor P_Step P_Deriv P_Jac P_Jac2 P_Tan.
Import ListNotations.
Local Open Scope R_scope.

Definition is_id (n : nat) (f : nat -> nat -> R) : bool :=
  forallb (fun i => forallb (fun j => if Req_EM_T (f i j) (if Nat.eqb i j then 1 else 0) then true else false) (seq 0 n)) (seq 0 n).
Lemma is_id_spec n f : is_id n f = true <-> forall i j, (i < n)%nat -> (j < n)%nat -> f i j = if Nat.eqb i j then 1 else 0.
Proof.
  unfold is_id. rewrite forallb_forall. split.
  - intros H i j Hi Hj. specialize (H i ltac:(apply in_seq; lia)). rewrite forallb_forall in H. specialize (H j ltac:(apply in_seq; lia)). now destruct (Req_EM_T _ _).
  - intros H i Hi. apply in_seq in Hi. apply forallb_forall. intros j Hj. apply in_seq in Hj. destruct (Req_EM_T _ _) as [|E]; [reflexivity|]. exfalso. apply E, H; lia.
Qed.
Definition lu_by (V : list R) : LUSolver R := fun n A B k =>
  if is_id n (fun i j => sum n (fun q => get2 n A i q * get2 n V q j)) && is_id n (fun i j => sum n (fun q => get2 n V i q * get2 n A q j))
  then Some (tab2 k n (fun j i => sum n (fun q => get2 n V i q * get2 n B j q))) else None.
Lemma sum_delta n (f : nat -> R) i : (i < n)%nat -> sum n (fun q => (if Nat.eqb i q then 1 else 0) * f q) = f i.
Proof.
  intros Hi. rewrite (sum_ext n _ (fun q => if Nat.eqb i q then f q else 0)) by (intros q _; destruct (Nat.eqb i q); ring).
  revert i f Hi. induction n as [|n IH]; intros i f Hi; [lia|]. rewrite sum_S_R. destruct (Nat.eqb_spec i n) as [E|E].
  - subst. rewrite (sum_zero n); [ring|]. intros k Hk. destruct (Nat.eqb_spec n k); [lia|reflexivity].
  - rewrite IH by lia. ring.
Qed.
Lemma lu_by_exact V : solves_exactly (lu_by V).
Proof.
  intros n A B k X H. unfold lu_by in H. destruct (is_id n _) eqn:E1; [|discriminate]. cbn [andb] in H. destruct (is_id n _) eqn:E2 in H; [|discriminate].
  rewrite is_id_spec in E1, E2. apply some_inj in H. subst X. split.
  - intros j i Hj Hi. rewrite <- sum_fold.
    rewrite (sum_ext n _ (fun q => sum n (fun l => get2 n A i q * get2 n V q l * get2 n B j l))).
    2:{ intros q Hq. rewrite !nth_get. change (get (tab2 k n ?f) (j * n + q)) with (get2 n (tab2 k n f) j q). rewrite get2_tab2 by assumption.
        rewrite <- sum_scal_l. apply sum_ext. intros l Hl. unfold get2. ring. }
    rewrite sum_exchange. rewrite (sum_ext n _ (fun l => (if Nat.eqb i l then 1 else 0) * get2 n B j l)).
    2:{ intros l Hl. rewrite sum_scal_r, E1 by assumption. reflexivity. }
    rewrite sum_delta by assumption. reflexivity.
  - intros y Ly Hy i Hi.
    transitivity (sum n (fun l => (if Nat.eqb i l then 1 else 0) * nth l y 0)); [symmetry; apply (sum_delta n (fun l => nth l y 0) i Hi)|].
    rewrite (sum_ext n _ (fun l => sum n (fun q => get2 n V i q * (get2 n A q l * nth l y 0)))).
    2:{ intros l Hl. rewrite <- E2 by assumption. rewrite <- sum_scal_r. apply sum_ext. intros; ring. }
    rewrite sum_exchange. apply sum_zero. intros q Hq. rewrite sum_scal_l.
    replace (sum n (fun l => get2 n A q l * nth l y 0)) with 0; [ring|]. symmetry. rewrite sum_fold. exact (Hy q Hq).
Qed.

Lemma dcongT_Z A B : dcongT A B Z3 = Z3.
Proof. unfold dcongT. destruct A, B. spec. meq; ring. Qed.

(** ** Jacobian *)
Definition rest_J (al th : R) (i j : nat) : R :=
  if Nat.ltb i 5 then (if Nat.eqb i j then al else 0) else
  match i, j with
  | 5%nat, 5%nat => cos th | 5%nat, 6%nat => sin th | 6%nat, 5%nat => - sin th | 6%nat, 6%nat => cos th | 7%nat, 7%nat => 1
  | _, _ => 0
  end.
Definition rest_V (al th : R) : list R := tab2 8 8 (fun i j => rest_J (/ al) th j i).

Lemma qp_1 a b c d : quat_prod [1; 0; 0; 0] [a; b; c; d] = [a; b; c; d] :> list R.
Proof. unfold quat_prod. cbn [get nth]. rops. meq; ring. Qed.
Lemma dR_z c s d0 d1 d2 d3 w : mulv (tr3 (dR [c; 0; 0; s] [d0; d1; d2; d3])) (toV3 [0; 0; w]) =
  mkV (2 * (d1 * s - c * d2) * w) (2 * (d2 * s + c * d1) * w) (2 * (c * d0 + s * d3) * w).
Proof.
  unfold dR, d_quat_to_tensor, vecsVMa, tab, toM3, sum. cbn [seq map fold_left]. unfold get2. cbn [get nth Nat.mul Nat.add]. rops. unfold tr3, mulv, toV3. cbn [a00 a01 a02 a10 a11 a12 a20 a21 a22 v0 v1 v2 get nth].
  rops. f_equal; ring.
Qed.

Lemma rest_jac (p : Prob R) x th w3 : 
  pb_d_vecd_sm p = [0; 0; 0; 0; 0] -> pb_w_veccp_sm p = [0; 0; w3] -> pb_Cn_quat p = [1; 0; 0; 0] ->
  ev_e_f (evalEv p x) = [0; 0; 0; 0; 0] -> ev_edot (evalEv p x) = [0; 0; 0; 0; 0] -> ev_xi (evalEv p x) = [0; 0; th] -> / 10 ^ 9 <= th -> pb_dt p * w3 = th ->
  (forall k, (k < sg_nslip (pb_sg p))%nat -> get (ev_dgdot_dtau (evalEv p x)) k = 0) ->
  forall i j, (i < 8)%nat -> (j < 8)%nat -> get2 8 (jacobian0 p (evalEv p x)) i j = rest_J (pb_a_V_ri p * pb_dt_ri p) th i j.
Proof.
  intros Ed Ew Ec Ee Eed Ex Hth Hw Hg i j Hi Hj.
  assert (T0 : 0 < th) by (pose proof (P_KinV.pow10i_pos 9); lra).
  assert (NX : norm3 (mkV 0 0 th) = th) by (unfold norm3, dotv; cbn [v0 v1 v2]; replace (0 * 0 + 0 * 0 + th * th) with (th * th) by ring; apply sqrt_square; lra).
  assert (HX : / 10 ^ 9 <= norm3 (mkV 0 0 th)) by (rewrite NX; exact Hth).
  assert (NB : / 10 ^ 90 < norm3 (mkV 0 0 th)).
  { rewrite NX. apply Rlt_le_trans with (/ 10 ^ 9); [|exact Hth]. apply Rinv_lt_contravar; [apply Rmult_lt_0_compat; apply P_KinV.pow10_pos|apply Rlt_pow; [lra|lia]]. }
  assert (EQ : ev_C_quat (evalEv p x) = [cos (th / 2); 0; 0; sin (th / 2)]).
  { change (ev_C_quat (evalEv p x)) with (get_c_quat (emap_to_quat (ev_xi (evalEv p x))) (pb_Cn_quat p)). rewrite Ex, Ec.
    change [0; 0; th] with (ofV3 (mkV 0 0 th)). rewrite emap_big by exact NB. rewrite NX. unfold get_c_quat. unfold quat_prod. change (@get R RNum) with (fun (l : list R) k => nth k l 0). cbv beta. cbn [nth v0 v1 v2]. rops. meq; field; lra. }
  assert (PE : dxi_parts p (evalEv p x) = eval_d_dxi_impl_quat [0; 0; 0; 0; 0] [0; 0; w3] (ofV3 (mkV 0 0 th)) [1; 0; 0; 0] (quat_to_tensor [cos (th / 2); 0; 0; sin (th / 2)]) [cos (th / 2); 0; 0; sin (th / 2)]).
  { unfold dxi_parts. rewrite Ed, Ew, Ec, Ex. rewrite <- EQ. reflexivity. }
  assert (P1 : forall e, (e < 3)%nat -> (i < 5)%nat -> get2 3 (snd (fst (dxi_parts p (evalEv p x)))) i e = 0).
  { intros e He H5. rewrite PE.
    pose proof (part_d [0; 0; 0; 0; 0] [0; 0; w3] (mkV 0 0 th) [1; 0; 0; 0] [cos (th / 2); 0; 0; sin (th / 2)]
      (mkV (if Nat.eqb e 0 then 1 else 0) (if Nat.eqb e 1 then 1 else 0) (if Nat.eqb e 2 then 1 else 0)) HX i eq_refl eq_refl H5) as PD. cbv zeta in PD.
    clear PE. set (M := snd (fst (eval_d_dxi_impl_quat _ _ _ _ _ _))) in *. clearbody M. change (ten5 [0; 0; 0; 0; 0]) with (ten5 [0; 0; 0; 0; 0]) in PD. rewrite P_Rigid.ten5_0 in PD.
    rewrite dcongT_Z in PD. assert (Z5 : get (vec5 Z3) i = 0) by (clear -H5; do 5 (destruct i as [|i]; [specR; cbn; ring|]); lia). rewrite Z5 in PD.
    rewrite <- PD. unfold sum. cbn [seq fold_left]. destruct e as [|[|[|]]]; try lia; unfold ofV3; cbn [Nat.eqb get nth v0 v1 v2]; rops; ring. }
  assert (P2 : forall k e, (e < 3)%nat -> (k < 3)%nat -> pb_dt p * get2 3 (snd (dxi_parts p (evalEv p x))) k e = (if Nat.eqb k e then 1 else 0) - rest_J 1 th (5 + k) (5 + e)).
  { intros k e He Hk. rewrite PE.
    pose proof (part_w [0; 0; 0; 0; 0] [0; 0; w3] (mkV 0 0 th) [1; 0; 0; 0] [cos (th / 2); 0; 0; sin (th / 2)]
      (mkV (if Nat.eqb e 0 then 1 else 0) (if Nat.eqb e 1 then 1 else 0) (if Nat.eqb e 2 then 1 else 0)) HX k eq_refl Hk) as PW. cbv zeta in PW.
    clear PE P1. set (M := snd (eval_d_dxi_impl_quat _ _ _ _ _ _)) in *. clearbody M.
    replace (get2 3 M k e) with (sum 3 (fun e0 => get2 3 M k e0 * get (ofV3 (mkV (if Nat.eqb e 0 then 1 else 0) (if Nat.eqb e 1 then 1 else 0) (if Nat.eqb e 2 then 1 else 0))) e0))
      by (unfold sum; cbn [seq fold_left]; destruct e as [|[|[|]]]; try lia; unfold ofV3; cbn [Nat.eqb get nth v0 v1 v2]; rops; ring).
    rewrite PW. clear PW M. unfold dA. rewrite NX. unfold unitv. rewrite NX. 
    assert (C2 : cos th = 1 - 2 * (sin (th / 2) * sin (th / 2))) by (replace th with (2 * (th / 2)) at 1 by field; rewrite cos_2a_sin; ring).
    assert (S2 : sin th = 2 * (sin (th / 2) * cos (th / 2))) by (replace th with (2 * (th / 2)) at 1 by field; rewrite sin_2a; ring).
    unfold rest_J. rewrite C2, S2. clear C2 S2. set (c := cos (th / 2)). set (s := sin (th / 2)). clearbody c s.
    replace (pb_dt p) with (th * / w3) by (rewrite <- Hw; field; intros ->; lra).
    assert (W3 : w3 <> 0) by (intros ->; lra).
    clear -T0 W3 He Hk.
    rewrite qp_1, dR_z. unfold ofV3. cbn [v0 v1 v2 get nth].
    destruct e as [|[|[|]]]; try lia; (destruct k as [|[|[|]]]; try lia); cbn [Nat.eqb Nat.add Nat.ltb Nat.leb v0 v1 v2 nth]; unfold dotv; cbn [v0 v1 v2]; rops; field; split; lra. }
  assert (EP : dxi_parts p (evalEv p x) = (fst (fst (dxi_parts p (evalEv p x))), snd (fst (dxi_parts p (evalEv p x))), snd (dxi_parts p (evalEv p x))))
    by (destruct (dxi_parts p (evalEv p x)) as [[? ?] ?]; reflexivity).
  assert (DG : forall a b, (a < 5)%nat -> (b < sg_nslip (pb_sg p))%nat -> get2 (sg_nslip (pb_sg p)) (dgdot_deps p (evalEv p x)) a b = 0).
  { intros a b Ha Hb. unfold dgdot_deps. rewrite get2_tab2 by assumption. rewrite Hg by assumption. rops. ring. }
  assert (DS : forall a b, (a < 5)%nat -> (b < 5)%nat -> get2 5 (dpl_deps_symm p (evalEv p x)) a b = 0).
  { intros a b Ha Hb. unfold dpl_deps_symm, vecsMABT. rewrite get2_tab2 by assumption. apply sum_zero. intros k Hk. rewrite DG by assumption. rops. ring. }
  assert (DK : forall a b, (a < 3)%nat -> (b < 5)%nat -> get2 5 (dpl_deps_skew p (evalEv p x)) a b = 0).
  { intros a b Ha Hb. unfold dpl_deps_skew, vecsMABT. rewrite get2_tab2 by assumption. apply sum_zero. intros k Hk. rewrite DG by assumption. rops. ring. }
  assert (ZA : forall a b, (a < 3)%nat -> (b < 5)%nat -> get2 5 (M35_d_AAoB_dA [0; 0; 0; 0; 0]) a b = 0 :> R).
  { intros a b Ha Hb. clear -Ha Hb. unfold M35_d_AAoB_dA. change (@get R RNum) with (fun (l : list R) k => nth k l 0). cbv beta. cbn [nth]. unfold get2.
    destruct a as [|[|[|]]]; try lia; (destruct b as [|[|[|[|[|]]]]]; try lia); cbn [get nth Nat.mul Nat.add]; rops; ring. }
  assert (EA : ev_A_e (evalEv p x) = M35_d_AAoB_dA [0; 0; 0; 0; 0]) by (rewrite <- Ee; reflexivity).
  unfold jacobian0. rewrite EP. cbv zeta beta iota. rewrite get2_tab2 by assumption. rewrite Eed, EA. unfold rest_J at 1.
  destruct (Nat.ltb_spec i 5) as [L|L].
  - destruct (Nat.ltb_spec j 5) as [M|M].
    + rewrite DS by assumption. destruct (Nat.eqb i j); rops; ring.
    + rewrite P1 by (assumption || lia). destruct (Nat.eqb_spec i j); [lia|]. rops. ring.
  - destruct (Nat.ltb_spec j 5) as [M|M].
    + rewrite DK, !ZA by lia. assert (I : i = 5%nat \/ i = 6%nat \/ i = 7%nat) by lia. clear -I M. destruct I as [I|[I|I]]; subst i; do 5 (destruct j as [|j]; [rops; ring|]); lia.
    + assert (W := P2 (i - 5)%nat (j - 5)%nat ltac:(lia) ltac:(lia)). replace (5 + (i - 5))%nat with i in W by lia. replace (5 + (j - 5))%nat with j in W by lia.
      replace (Nat.eqb (i - 5) (j - 5)) with (Nat.eqb i j) in W by (destruct (Nat.eqb_spec i j), (Nat.eqb_spec (i - 5) (j - 5)); lia || reflexivity).
      unfold rest_J in W. destruct (Nat.ltb_spec i 5); [lia|]. rops. change one with 1. destruct (Nat.eqb i j); lra.
Qed.
Definition del (i j : nat) : R := if Nat.eqb i j then 1 else 0.
Lemma rest_JJ al be th i j : al * be = 1 -> (i < 8)%nat -> (j < 8)%nat -> sum 8 (fun q => rest_J al th i q * rest_J be th j q) = del i j.
Proof.
  intros Hab Hi Hj.
  assert (SC : sin th * sin th = 1 - cos th * cos th) by (pose proof (sin2_cos2 th) as H; unfold Rsqr in H; lra).
  unfold rest_J, sum. cbn [seq fold_left]. set (s := sin th) in *. set (c := cos th) in *. clearbody s c. clear -Hab SC Hi Hj.
  do 8 (destruct i as [|i]; [do 8 (destruct j as [|j]; [unfold del; cbn [Nat.ltb Nat.leb Nat.eqb]; rops; first [ring|ring [Hab]|ring [SC]]|]); lia|]); lia.
Qed.
Lemma rest_JT al be th i j : al * be = 1 -> (i < 8)%nat -> (j < 8)%nat -> sum 8 (fun q => rest_J al th q i * rest_J be th q j) = del i j.
Proof.
  intros Hab Hi Hj.
  assert (SC : sin th * sin th = 1 - cos th * cos th) by (pose proof (sin2_cos2 th) as H; unfold Rsqr in H; lra).
  unfold rest_J, sum. cbn [seq fold_left]. set (s := sin th) in *. set (c := cos th) in *. clearbody s c. clear -Hab SC Hi Hj.
  do 8 (destruct i as [|i]; [do 8 (destruct j as [|j]; [unfold del; cbn [Nat.ltb Nat.leb Nat.eqb]; rops; first [ring|ring [Hab]|ring [SC]]|]); lia|]); lia.
Qed.
Lemma rest_V_inv al th A : al <> 0 -> (forall i j, (i < 8)%nat -> (j < 8)%nat -> get2 8 A i j = rest_J al th i j) ->
  forall B k, lu_by (rest_V al th) 8%nat A B k <> None.
Proof.
  intros Hal HA B k. unfold lu_by.
  assert (I1 : is_id 8 (fun i j => sum 8 (fun q => get2 8 A i q * get2 8 (rest_V al th) q j)) = true).
  { apply is_id_spec. intros i j Hi Hj.
    rewrite (sum_ext 8 _ (fun q => rest_J al th i q * rest_J (/ al) th j q)) by (intros q Hq; unfold rest_V; rewrite HA, get2_tab2 by assumption; reflexivity).
    apply rest_JJ; [field; exact Hal|assumption|assumption]. }
  assert (I2 : is_id 8 (fun i j => sum 8 (fun q => get2 8 (rest_V al th) i q * get2 8 A q j)) = true).
  { apply is_id_spec. intros i j Hi Hj.
    rewrite (sum_ext 8 _ (fun q => rest_J (/ al) th q i * rest_J al th q j)) by (intros q Hq; unfold rest_V; rewrite HA, get2_tab2 by assumption; reflexivity).
    apply rest_JT; [field; exact Hal|assumption|assumption]. }
  rewrite I1, I2. discriminate.
Qed.
