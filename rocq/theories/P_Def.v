(** C42: the array combinators, Util.v, elasticity, EOS and slip geometry on defined numbers. *)
From Coq Require Import List ZArith Bool Lia PeanoNat Reals Lra.
From Verif Require Import Num Arr NumR NumO Util SlipGeom Eos Hard KinVoce KinKMBalD Elast Evptn MatModel Cases SpecDef.
Import ListNotations.
Local Open Scope R_scope.

(** the two halves of [mtan_conv_sd_svec] *)
Section Halves.
  Context {T : Type} {N : Num T}.
  Local Open Scope num_scope.
  Definition convC (M : list T) : list T :=
      tab2 6 6 (fun i j =>
        let t3 := sqr3i * get2 6 M 5 j in
        let t1 := sqr2i * get2 6 M 0 j in
        let t2 := sqr6i * get2 6 M 1 j in
        match i with
        | 0 => t1 - t2 + t3
        | 1 => - t1 - t2 + t3
        | 2 => sqr2b3 * get2 6 M 1 j + t3
        | 3 => sqr2i * get2 6 M 4 j
        | 4 => sqr2i * get2 6 M 3 j
        | _ => sqr2i * get2 6 M 2 j
        end).
  Definition convF (l_ddsdde_gamma : bool) (C : list T) : list T :=
    let sh := if l_ddsdde_gamma then sqr2i else sqr2 in
    tab2 6 6 (fun i j =>
      let t3 := get2 6 C i 5 * sqr3i in
      let t1 := get2 6 C i 0 * sqr2i in
      let t2 := get2 6 C i 1 * sqr6i in
      match j with
      | 0 => t1 - t2 + t3
      | 1 => - t1 - t2 + t3
      | 2 => sqr2b3 * get2 6 C i 1 + t3
      | 3 => get2 6 C i 4 * sh
      | 4 => get2 6 C i 3 * sh
      | _ => get2 6 C i 2 * sh
      end).
  Lemma conv_halves b M : mtan_conv_sd_svec b M = convF b (convC M). Proof. reflexivity. Qed.
End Halves.

Section Def.
Variable u : bool.
Local Instance ON : Num (option R) := ONum u.

Lemma some_add a b : nadd (Some a) (Some b) = Some (a + b). Proof. reflexivity. Qed.
Lemma div_L a b : b <> 0 -> ndiv (Some a) (Some b) = Some (a / b).
Proof. intros H. cbn. destruct (Req_EM_T b 0); [contradiction|reflexivity]. Qed.
Lemma sqrt_L a : 0 <= a -> nsqrt (Some a) = Some (sqrt a).
Proof. intros H. cbn. destruct (Rlt_dec a 0); [lra|reflexivity]. Qed.
Lemma log_L a : 0 < a -> nlog (Some a) = Some (ln a).
Proof. intros H. cbn. destruct (Rlt_dec 0 a); [reflexivity|lra]. Qed.
Lemma pow_L a b : 0 < a -> npow (Some a) (Some b) = Some (Rpow a b).
Proof. intros H. cbn. destruct (Rlt_dec 0 a); [reflexivity|lra]. Qed.

Lemma L_length l : length (L l) = length l. Proof. apply map_length. Qed.
Lemma L_app a b : L (a ++ b) = L a ++ L b. Proof. apply map_app. Qed.
Lemma get_L l i : (i < length l)%nat -> get (L l) i = Some (get l i).
Proof. intros H. unfold get, L. rewrite nth_indep with (d' := Some (nundef : R)) by (rewrite map_length; assumption). apply map_nth. Qed.
Lemma get2_L n l i j : (i * n + j < length l)%nat -> get2 n (L l) i j = Some (get2 n l i j).
Proof. intros H. now apply get_L. Qed.
Lemma tab_L n (f : nat -> option R) (g : nat -> R) : (forall i, (i < n)%nat -> f i = Some (g i)) -> tab n f = L (tab n g).
Proof. intros H. unfold tab, L. rewrite map_map. apply map_ext_in. intros i Hi. apply in_seq in Hi. apply H. lia. Qed.
Lemma tab2_L n m (f : nat -> nat -> option R) (g : nat -> nat -> R) :
  (forall i j, (i < n)%nat -> (j < m)%nat -> f i j = Some (g i j)) -> tab2 n m f = L (tab2 n m g).
Proof.
  intros H. unfold tab2, L. rewrite !flat_map_concat_map, concat_map, map_map. f_equal. apply map_ext_in. intros i Hi. apply in_seq in Hi.
  rewrite map_map. apply map_ext_in. intros j Hj. apply in_seq in Hj. apply H; lia.
Qed.
Lemma sum_L n (f : nat -> option R) (g : nat -> R) : (forall i, (i < n)%nat -> f i = Some (g i)) -> sum n f = Some (sum n g).
Proof.
  induction n as [|n IH]; intros H; [reflexivity|]. rewrite !sum_S. rewrite IH by (intros i Hi; apply H; lia). rewrite H by lia. reflexivity.
Qed.
Lemma sub_L l i n : sub (L l) i n = L (sub l i n).
Proof. unfold sub, L. now rewrite skipn_map, firstn_map. Qed.
Lemma upd_L l : forall i v, upd (L l) i (Some v) = L (upd l i v).
Proof. induction l as [|x l IH]; intros [|i] v; cbn; try reflexivity. f_equal. apply IH. Qed.
Lemma updl_L v : forall l i, updl (L l) i (L v) = L (updl l i v).
Proof. induction v as [|x v IH]; intros l i; cbn [updl L map]; [reflexivity|]. fold (L v). rewrite upd_L. apply IH. Qed.
Lemma nopp_L a : nopp (Some a) = Some (nopp a). Proof. reflexivity. Qed.

(** literals that are computed by a division *)
Lemma third_L : (onethird : option R) = Some onethird. Proof. apply div_L. cbn. lra. Qed.
Lemma ninth_L : (oneninth : option R) = Some oneninth. Proof. apply div_L. cbn. lra. Qed.
Lemma fourthirds_L : (fourthirds : option R) = Some fourthirds. Proof. apply div_L. cbn. lra. Qed.
Lemma twothird_L : (twothird : option R) = Some twothird. Proof. apply div_L. cbn. lra. Qed.

(** ** Util.v *)
Lemma Vapb_L n a b : (n <= length a)%nat -> (n <= length b)%nat -> vecsVapb n (L a) (L b) = L (vecsVapb n a b).
Proof. intros Ha Hb. apply tab_L. intros i Hi. rewrite !get_L by lia. reflexivity. Qed.
Lemma diag_L n a b : (n <= length a)%nat -> (n <= length b)%nat -> vecsVAdiagB n (L a) (L b) = L (vecsVAdiagB n a b).
Proof. intros Ha Hb. apply tab_L. intros i Hi. rewrite !get_L by lia. reflexivity. Qed.
Lemma adotb_L n a b : (n <= length a)%nat -> (n <= length b)%nat -> vecsyadotb n (L a) (L b) = Some (vecsyadotb n a b).
Proof. intros Ha Hb. apply sum_L. intros i Hi. rewrite !get_L by lia. reflexivity. Qed.
Lemma sumabs_L n a : (n <= length a)%nat -> vecsssumabs n (L a) = Some (vecsssumabs n a).
Proof. intros Ha. apply sum_L. intros i Hi. rewrite !get_L by lia. reflexivity. Qed.
Lemma ssum_L n a : (n <= length a)%nat -> vecsssum n (L a) = Some (vecsssum n a).
Proof. intros Ha. apply sum_L. intros i Hi. rewrite !get_L by lia. reflexivity. Qed.
Lemma norm_L n a : (n <= length a)%nat -> vecNorm n (L a) = Some (vecNorm n a).
Proof.
  intros Ha. unfold vecNorm. rewrite (sum_L n _ (fun i => get a i * get a i)) by (intros i Hi; rewrite !get_L by lia; reflexivity).
  apply sqrt_L. apply sum_nonneg. intros i Hi. apply Rle_0_sqr.
Qed.
Lemma Vxa_L n x a : (n <= length a)%nat -> vecsVxa n (Some x) (L a) = L (vecsVxa n x a).
Proof. intros Ha. apply tab_L. intros i Hi. rewrite !get_L by lia. reflexivity. Qed.
Lemma Vsa_L n x a : (n <= length a)%nat -> vecsVsa n (L a) (Some x) = L (vecsVsa n a x).
Proof. intros Ha. apply tab_L. intros i Hi. rewrite !get_L by lia. reflexivity. Qed.
Lemma Normalize_L n a : (n <= length a)%nat -> vecNorm n a <> 0 -> vecsVNormalize n (L a) = L (vecsVNormalize n a).
Proof.
  intros Ha H. unfold vecsVNormalize. rewrite norm_L by assumption. change (@nZ (option R) ON 1) with (Some (1 : R)). rewrite div_L by assumption.
  rewrite Vsa_L by assumption. reflexivity.
Qed.
Lemma idx_lt n m i j : (i < n)%nat -> (j < m)%nat -> (i * m + j < n * m)%nat. Proof. nia. Qed.
Lemma VMTa_L n M v : length M = (n * n)%nat -> (n <= length v)%nat -> vecsVMTa n (L M) (L v) = L (vecsVMTa n M v).
Proof.
  intros HM Hv. apply tab_L. intros i Hi. apply sum_L. intros j Hj. rewrite get2_L by (rewrite HM; apply idx_lt; assumption).
  rewrite get_L by lia. reflexivity.
Qed.
Lemma VaTM_L n q a M : length M = (n * q)%nat -> (n <= length a)%nat -> vecsVaTM n q (L a) (L M) = L (vecsVaTM n q a M).
Proof.
  intros HM Hv. apply tab_L. intros i Hi. apply sum_L. intros j Hj. rewrite get2_L by (rewrite HM; apply idx_lt; assumption).
  rewrite get_L by lia. reflexivity.
Qed.
Lemma VMa_L n q a M : length M = (n * q)%nat -> (q <= length a)%nat -> vecsVMa n q (L M) (L a) = L (vecsVMa n q M a).
Proof.
  intros HM Hv. apply tab_L. intros i Hi. apply sum_L. intros j Hj. rewrite get2_L by (rewrite HM; apply idx_lt; assumption).
  rewrite get_L by lia. reflexivity.
Qed.
Lemma MABT_L n m q A B : length A = (n * q)%nat -> length B = (m * q)%nat -> vecsMABT n m q (L A) (L B) = L (vecsMABT n m q A B).
Proof.
  intros HA HB. apply tab2_L. intros i j Hi Hj. apply sum_L. intros k Hk.
  rewrite !get2_L by (rewrite ?HA, ?HB; apply idx_lt; assumption). reflexivity.
Qed.
Lemma MAB_L n m q A B : length A = (n * q)%nat -> length B = (q * m)%nat -> vecsMAB n m q (L A) (L B) = L (vecsMAB n m q A B).
Proof.
  intros HA HB. apply tab2_L. intros i j Hi Hj. apply sum_L. intros k Hk.
  rewrite !get2_L by (rewrite ?HA, ?HB; apply idx_lt; assumption). reflexivity.
Qed.
Lemma MaTb_L n a b : (n <= length a)%nat -> (n <= length b)%nat -> vecsMaTb n (L a) (L b) = L (vecsMaTb n a b).
Proof. intros Ha Hb. apply tab2_L. intros i j Hi Hj. rewrite !get_L by lia. reflexivity. Qed.

Ltac cells := repeat match goal with
  | H : length ?l = S _ |- _ => destruct l as [|? l]; [discriminate H|]; cbn [length] in H; apply Nat.succ_inj in H
  | H : length ?l = 0%nat |- _ => destruct l as [|? l]; [clear H|discriminate H] end.

Lemma matToPQ_L T : length T = 9%nat -> matToPQ (L T) = L2 (matToPQ T).
Proof. intros H. cells. reflexivity. Qed.
Lemma svecToVecd_L d : (6 <= length d)%nat -> svecToVecd (L d) = L (svecToVecd d).
Proof. intros H. unfold svecToVecd. rewrite !get_L by lia. reflexivity. Qed.
Lemma inner_L s d : (6 <= length s)%nat -> (6 <= length d)%nat -> vecsInnerSvecDev (L s) (L d) = Some (vecsInnerSvecDev s d).
Proof. intros Hs Hd. unfold vecsInnerSvecDev. rewrite !get_L by lia. reflexivity. Qed.
Lemma toSvecP_L v : (6 <= length v)%nat -> vecdsToSvecP (L v) = L (vecdsToSvecP v).
Proof. intros H. unfold vecdsToSvecP, iSvecS. rewrite !get_L by lia. reflexivity. Qed.
Lemma Deff_L v : (5 <= length v)%nat -> vecd_Deff (L v) = Some (vecd_Deff v).
Proof. intros H. unfold vecd_Deff. rewrite norm_L by assumption. reflexivity. Qed.
Lemma inv_to_quat_L v : length v = 4%nat -> inv_to_quat (L v) = L (inv_to_quat v).
Proof. intros H. cells. reflexivity. Qed.
Lemma tiny_pos : 0 < (idp_tiny_sqrt : R).
Proof. unfold idp_tiny_sqrt. cbn [nlit RNum Rlit]. apply Rmult_lt_0_compat; [lra|]. apply Rinv_0_lt_compat. apply IZR_lt. reflexivity. Qed.
Lemma emap_L e : length e = 3%nat -> emap_to_quat (L e) = L (emap_to_quat e).
Proof.
  intros H. unfold emap_to_quat. unfold emapdim. rewrite norm_L by lia.
  change (idp_tiny_sqrt <? Some (vecNorm 3 e))%num with (Rltb idp_tiny_sqrt (vecNorm 3 e)).
  change (idp_tiny_sqrt <? vecNorm 3 e)%num with (Rltb idp_tiny_sqrt (vecNorm 3 e)).
  destruct (Rltb idp_tiny_sqrt (vecNorm 3 e)) eqn:E.
  - apply Rltb_true in E. pose proof tiny_pos. change (@nZ (option R) ON 1) with (Some (1 : R)). rewrite div_L by lra. rewrite Vxa_L by lia.
    change (Some (vecNorm 3 e) :: L (vecsVxa 3 (1 / vecNorm 3 e) e)) with (L (vecNorm 3 e :: vecsVxa 3 (1 / vecNorm 3 e) e)).
    apply inv_to_quat_L. cbn [length]. unfold vecsVxa. now rewrite tab_length.
  - reflexivity.
Qed.
Lemma quat_prod_L a b : length a = 4%nat -> length b = 4%nat -> quat_prod (L a) (L b) = L (quat_prod a b).
Proof. intros Ha Hb. cells. reflexivity. Qed.
Lemma get_c_quat_L a b : length a = 4%nat -> length b = 4%nat -> get_c_quat (L a) (L b) = L (get_c_quat a b).
Proof. intros Ha Hb. now apply quat_prod_L. Qed.
Lemma q2t_L a : length a = 4%nat -> quat_to_tensor (L a) = L (quat_to_tensor a).
Proof. intros H. cells. reflexivity. Qed.
Lemma rotmat_L c : length c = 9%nat -> get_rot_mat_vecd (L c) = L (get_rot_mat_vecd c).
Proof. intros H. cells. reflexivity. Qed.
Lemma M35_L b : length b = 5%nat -> M35_d_AAoB_dA (L b) = L (M35_d_AAoB_dA b).
Proof. intros H. cells. reflexivity. Qed.
Lemma dq2t_L a : length a = 4%nat -> d_quat_to_tensor (L a) = L (d_quat_to_tensor a).
Proof. intros H. cells. reflexivity. Qed.
Lemma latop_L c v : length c = 9%nat -> length v = 5%nat -> d_rot_mat_vecd_latop (L c) (L v) = L (d_rot_mat_vecd_latop c v).
Proof. intros H1 H2. unfold d_rot_mat_vecd_latop. rewrite third_L, ninth_L, fourthirds_L, twothird_L. cells. reflexivity. Qed.
Lemma smop_L c v : length c = 9%nat -> (5 <= length v)%nat -> d_rot_mat_vecd_smop (L c) (L v) = L (d_rot_mat_vecd_smop c v).
Proof. intros H1 H2. unfold d_rot_mat_vecd_smop. rewrite third_L, ninth_L, fourthirds_L, twothird_L. rewrite !(get_L v) by lia. cells. reflexivity. Qed.
Lemma wlatop_L w : length w = 3%nat -> d_rot_mat_wveccp_latop (L w) = L (d_rot_mat_wveccp_latop w).
Proof. intros H. cells. reflexivity. Qed.

Lemma dquat_demap_L e : length e = 3%nat -> dquat_demap_T (L e) = L (dquat_demap_T e).
Proof.
  intros H. unfold dquat_demap_T, emapdim. rewrite norm_L by lia.
  change (@nZ (option R) ON 48) with (Some (48 : R)). change (@nZ (option R) ON 1) with (Some (1 : R)). rewrite (div_L 1 48) by lra.
  assert (N0 : 0 <= vecNorm 3 e) by apply sqrt_pos.
  set (th := vecNorm 3 e) in *. change (nabs (Some th)) with (Some (Rabs th)). change (nabs th) with (Rabs th).
  assert (P9 : 0 < (nlit 1 (-9) : R)) by (cbn [nlit RNum Rlit]; apply Rmult_lt_0_compat; [lra|]; apply Rinv_0_lt_compat, IZR_lt; reflexivity).
  change (Some (Rabs th) <? nlit 1 (-9))%num with (Rltb (Rabs th) (nlit 1 (-9))).
  change (Rabs th <? nlit 1 (-9))%num with (Rltb (Rabs th) (nlit 1 (-9))).
  destruct (Rltb (Rabs th) (nlit 1 (-9))) eqn:E1.
  - change (Some (Rabs th) <? idp_tiny_sqrt)%num with (Rltb (Rabs th) idp_tiny_sqrt).
    change (Rabs th <? idp_tiny_sqrt)%num with (Rltb (Rabs th) idp_tiny_sqrt).
    destruct (Rltb (Rabs th) idp_tiny_sqrt) eqn:E2; [reflexivity|].
    apply Rltb_false in E2. pose proof tiny_pos. rewrite Rabs_pos_eq in E2 by assumption.
    change (@one (option R) ON) with (Some (1 : R)). rewrite (div_L 1 th) by lra. rewrite !get_L by lia. reflexivity.
  - apply Rltb_false in E1. rewrite Rabs_pos_eq in E1 by assumption.
    change (@one (option R) ON) with (Some (1 : R)). rewrite (div_L 1 th) by lra.
    change (nsin (Some th * onehalf)%num) with (Some (sin (th * onehalf))). rewrite div_L by lra. rewrite !get_L by lia. reflexivity.
Qed.
Lemma c_quat_len a b : length (get_c_quat (a : list R) b) = 4%nat. Proof. reflexivity. Qed.
Lemma quat_prod_len a b : length (quat_prod (a : list R) b) = 4%nat. Proof. reflexivity. Qed.
Lemma emap_len e : length (emap_to_quat (e : list R)) = 4%nat.
Proof. unfold emap_to_quat, inv_to_quat, vecsVxa. cbn [length]. now rewrite tab_length. Qed.
Lemma ddxi_L d w xi Cn C Cq : length d = 5%nat -> length w = 3%nat -> length xi = 3%nat -> length Cn = 4%nat -> length C = 9%nat -> length Cq = 4%nat ->
  eval_d_dxi_impl_quat (L d) (L w) (L xi) (L Cn) (L C) (L Cq) =
  (L (fst (fst (eval_d_dxi_impl_quat d w xi Cn C Cq))), L (snd (fst (eval_d_dxi_impl_quat d w xi Cn C Cq))), L (snd (eval_d_dxi_impl_quat d w xi Cn C Cq))).
Proof.
  intros Hd Hw Hx HCn HC HCq. unfold eval_d_dxi_impl_quat. rewrite dquat_demap_L by assumption. rewrite !sub_L.
  assert (DL : length (dquat_demap_T xi) = 12%nat) by (unfold dquat_demap_T; destruct (_ <? _)%num; [destruct (_ <? _)%num|]; reflexivity).
  rewrite !quat_prod_L by (try assumption; apply sub_length; lia). rewrite <- !L_app.
  rewrite dq2t_L, latop_L, wlatop_L by assumption.
  assert (QL : length (quat_prod Cn (sub (dquat_demap_T xi) 0 4) ++ quat_prod Cn (sub (dquat_demap_T xi) 4 4) ++ quat_prod Cn (sub (dquat_demap_T xi) 8 4)) = (3 * 4)%nat) by reflexivity.
  rewrite MABT_L by (try reflexivity; exact QL).
  rewrite !MAB_L by (try reflexivity; unfold vecsMABT; rewrite tab2_length; reflexivity).
  reflexivity.
Qed.
Lemma qr6_L n M q : length M = (6 * n)%nat -> length q = 25%nat -> qr6x6_pre_mul n (L M) (L q) = L (qr6x6_pre_mul n M q).
Proof.
  intros HM Hq. unfold qr6x6_pre_mul. rewrite L_app. f_equal.
  - apply tab2_L. intros i j Hi Hj. apply sum_L. intros k Hk. rewrite !get2_L; [reflexivity|..]; rewrite ?HM, ?Hq; nia.
  - apply tab_L. intros i Hi. apply get2_L. rewrite HM. lia.
Qed.
Lemma mtan_conv_L b M : length M = 36%nat -> mtan_conv_sd_svec b (L M) = L (mtan_conv_sd_svec b M).
Proof.
  intros HM. rewrite !conv_halves. assert (E : convC (L M) = L (convC M)).
  { apply tab2_L. intros i j Hi Hj. rewrite !get2_L by (rewrite HM; lia). cbv zeta. do 6 (destruct i as [|i]; [reflexivity|]). lia. }
  rewrite E. assert (CL : length (convC M) = 36%nat) by (unfold convC; now rewrite tab2_length). generalize (convC M), CL. clear. intros C CL.
  apply tab2_L. intros i j Hi Hj. rewrite !get2_L by lia. cbv zeta.
  destruct b; (do 6 (destruct j as [|j]; [reflexivity|])); lia.
Qed.

(** ** Elast.v *)
Lemma cubic_L p : (3 <= length p)%nat -> cubic_setParams (L p) = liftEl (cubic_setParams p).
Proof. intros H. unfold cubic_setParams. rewrite !get_L by lia. rewrite third_L. reflexivity. Qed.
Lemma hexag_L p : (6 <= length p)%nat -> hexag_setParams (L p) = liftEl (hexag_setParams p).
Proof. intros H. unfold hexag_setParams. rewrite !get_L by lia. rewrite third_L, fourthirds_L, twothird_L. reflexivity. Qed.
Lemma eval_L e E p v : length (el_K_diag e) = 5%nat -> length E = 6%nat -> el_eval (liftEl e) (L E) (Some p) (Some v) = L (el_eval e E p v).
Proof.
  intros H1 H2. unfold el_eval. cbn [liftEl el_hex el_K_diag el_K_sdax3 el_g_vecd2]. rewrite diag_L by lia.
  unfold iSvecS, iTvecHex. rewrite !(get_L E) by lia.
  remember (vecsVAdiagB 5 (el_K_diag e) E) as D eqn:ED.
  assert (DL : length D = 5%nat) by (subst D; apply tab_length). clear ED. cells. destruct (el_hex e); reflexivity.
Qed.
Lemma eval_len e E p v : length (el_eval (e : Elast R) E p v) = 6%nat.
Proof.
  unfold el_eval. assert (K : length (vecsVAdiagB 5 (el_K_diag e) E ++ [(- sqr3 * nexp (sqr3 * get E iSvecS) * p)%num]) = 6%nat) by (rewrite app_length; reflexivity).
  destruct (el_hex e); [rewrite !upd_length|]; exact K.
Qed.
Lemma multDT_L e A a n : length (el_K_diag e) = 5%nat -> length A = (5 * n)%nat -> el_multDTDepsT (liftEl e) (L A) (Some a) n = L (el_multDTDepsT e A a n).
Proof.
  intros H1 H2. apply tab2_L. intros i j Hi Hj. cbn [liftEl el_K_diag]. rewrite get_L by lia. rewrite get2_L by (rewrite H2; apply idx_lt; assumption). reflexivity.
Qed.
Lemma Cauchy_L T d : length T = 6%nat -> el_getCauchy (L T) (Some d) = L (el_getCauchy T d).
Proof. intros H. apply tab_L. intros i Hi. rewrite get_L by lia. reflexivity. Qed.
Lemma CauchyDif_L e A d a : length (el_K_diag e) = 5%nat -> length A = 25%nat -> el_multCauchyDif (liftEl e) (L A) (Some d) (Some a) = L (el_multCauchyDif e A d a).
Proof.
  intros H1 H2. apply tab2_L. intros i j Hi Hj. cbn [liftEl el_hex el_K_sdax3 el_K_diag]. unfold iTvecHex.
  destruct (Nat.eqb j 5) eqn:E5; [reflexivity|]. apply Nat.eqb_neq in E5. destruct (Nat.eqb i 5) eqn:E6.
  - destruct (el_hex e); [|reflexivity]. rewrite get2_L by lia. reflexivity.
  - apply Nat.eqb_neq in E6. rewrite get_L by lia. rewrite get2_L by lia. reflexivity.
Qed.
Lemma Gmod_L e : el_getGmod (liftEl e) = option_map (@Some R) (el_getGmod e).
Proof.
  unfold el_getGmod. cbn [liftEl el_K_gmod]. change (Some (el_K_gmod e) <=? nZ 0)%num with (Rleb (el_K_gmod e) 0).
  change (el_K_gmod e <=? nZ 0)%num with (Rleb (el_K_gmod e) 0). destruct (Rleb _ _); reflexivity.
Qed.
Lemma Bulk_L e : el_getBulkMod (liftEl e) = option_map (@Some R) (el_getBulkMod e).
Proof.
  unfold el_getBulkMod. cbn [liftEl el_K_bulkMod]. change (Some (el_K_bulkMod e) <=? nZ 0)%num with (Rleb (el_K_bulkMod e) 0).
  change (el_K_bulkMod e <=? nZ 0)%num with (Rleb (el_K_bulkMod e) 0). destruct (Rleb _ _); reflexivity.
Qed.

(** ** Eos.v *)
Lemma eos_L iso p : (5 <= length p)%nat -> get p 2 <> 0 -> eos_setParams iso (L p) = liftEos (eos_setParams iso p).
Proof. intros H H2. unfold eos_setParams. rewrite !get_L by lia. change (@one (option R) ON) with (Some (1 : R)). rewrite div_L by assumption. reflexivity. Qed.
Lemma evalPT_L e v x : v <> 0 -> evalPT (liftEos e) (Some v) (Some x) = (Some (fst (evalPT e v x)), Some (snd (evalPT e v x))).
Proof.
  intros H. unfold evalPT. change (@one (option R) ON) with (Some (1 : R)). rewrite div_L by assumption. cbn [liftEos eos_iso]. destruct (eos_iso e); reflexivity.
Qed.
Lemma updateSimple_L e v dv x p : v <> 0 -> updateSimple (liftEos e) (Some v) (Some dv) (Some x) (Some p) = liftUpd (updateSimple e v dv x p).
Proof.
  intros H. destruct e as [iso rho bulk cv gam ec dt tk]. unfold updateSimple, evalPTDiff. change (@one (option R) ON) with (Some (1 : R)).
  rewrite div_L by assumption. cbn [liftEos eos_iso eos_bulk].
  destruct iso; cbn [ptd_bulk ptd_p ptd_tK ptd_dpde ptd_dtde];
  match goal with |- context [ndiv (nopp ?a) (Some v)] => change (nopp a) with (Some (- (bulk * (1 / v)))) end; rewrite div_L by assumption; reflexivity.
Qed.

(** ** SlipGeom.v *)
Lemma fill_L m s n : (n * 3 <= length m)%nat -> (n * 3 <= length s)%nat -> fillFromMS (L m) (L s) n = option_map liftSg (fillFromMS m s n).
Proof.
  intros Hm Hs. unfold fillFromMS.
  assert (R3 : forall a i, (i < n)%nat -> (n * 3 <= length a)%nat -> row3 (L a) i = L (row3 a i) /\ length (row3 a i) = 3%nat).
  { intros a i Hi Ha. unfold row3. rewrite sub_L. split; [reflexivity|]. apply sub_length. lia. }
  assert (E : existsb (fun iS => idp_eps_sqrt <? nabs (vecsyadotb 3 (row3 (L m) iS) (row3 (L s) iS)))%num (seq 0 n) =
              existsb (fun iS => idp_eps_sqrt <? nabs (vecsyadotb 3 (row3 m iS) (row3 s iS)))%num (seq 0 n)).
  { assert (G : forall l, (forall i, In i l -> (i < n)%nat) ->
      existsb (fun iS => idp_eps_sqrt <? nabs (vecsyadotb 3 (row3 (L m) iS) (row3 (L s) iS)))%num l =
      existsb (fun iS => idp_eps_sqrt <? nabs (vecsyadotb 3 (row3 m iS) (row3 s iS)))%num l).
    { induction l as [|i l IH]; intros Hl; [reflexivity|]. cbn [existsb]. rewrite IH by (intros j Hj; apply Hl; now right).
      destruct (R3 m i (Hl i (or_introl eq_refl)) Hm) as [-> M3]. destruct (R3 s i (Hl i (or_introl eq_refl)) Hs) as [-> S3].
      rewrite adotb_L by lia. reflexivity. }
    apply G. intros i Hi. apply in_seq in Hi. lia. }
  rewrite E. match type of E with _ = ?b => destruct b; [reflexivity|] end. cbn [option_map]. f_equal. unfold liftSg. cbn [sg_nslip sg_P sg_Q].
  assert (SP : forall i, (i < n)%nat -> schmidPQ (row3 (L m) i) (row3 (L s) i) = L2 (schmidPQ (row3 m i) (row3 s i))).
  { intros i Hi. unfold schmidPQ. destruct (R3 m i Hi Hm) as [-> M3]. destruct (R3 s i Hi Hs) as [-> S3].
    rewrite MaTb_L by lia. apply matToPQ_L. unfold vecsMaTb. now rewrite tab2_length. }
  f_equal; apply tab2_L; intros i j Hi Hj; rewrite SP by assumption; cbn [L2 fst snd]; apply get_L; exact Hi.
Qed.
Lemma fcc_L : slipGeomFCC = option_map liftSg slipGeomFCC.
Proof. unfold slipGeomFCC. rewrite <- fill_L by (apply Nat.leb_le; reflexivity). reflexivity. Qed.
Lemma bcc_L : slipGeomBCC 12 = option_map liftSg (slipGeomBCC 12).
Proof. unfold slipGeomBCC. change (bcc_nslip_ok 12) with true. cbv iota. rewrite <- fill_L by (apply Nat.leb_le; reflexivity). reflexivity. Qed.
End Def.
