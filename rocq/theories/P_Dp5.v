(** The USE_DPEFF build in real arithmetic: the effective plastic deformation rate and its time integral. *)
From Coq Require Import List ZArith Bool Lia PeanoNat Reals Lra.
From Verif Require Import Num Arr NumR Util SlipGeom Eos Hard Elast Evptn MatModel EvptnDp Cases SpecTensor SpecSlip SpecApi SpecStep SpecDp
  P_Tensor P_Sngl P_Sngl2 P_Sngl3 P_Batch P_Batch2 P_Batch3 P_Api P_Builtin P_Hist P_Call P_Stress P_Step P_Step2 P_Step3 P_Energy P_Rest P_Dp P_Dp2 P_Dp3 P_Dp4.
Import ListNotations.
Local Open Scope R_scope.

(** ** the memory relation *)
Lemma two_iff {T} (s : MM T) n j : first_two s n j <-> twoc (mm_strides s) n j.
Proof.
  unfold first_two, twoc. split.
  - intros (i & k & Hi & Hk & ->). exists i. split; [assumption|]. assert (k = 0 \/ k = 1)%nat as [-> | ->] by lia; lia.
  - intros (i & Hi & [-> | ->]); [exists i, 0%nat | exists i, 1%nat]; repeat split; lia || auto.
Qed.
Lemma same_iff {T} (s : MM T) n (m m' : Mem T) : same_but s n m m' <-> msim (mm_strides s) n m m'.
Proof.
  unfold same_but, msim. split; intros [L H]; (split; [exact L|]); intros a j Hj; apply H; intros [Ha Hb]; apply Hj; (split; [exact Ha|]); now apply two_iff.
Qed.
Lemma same_refl {T} (s : MM T) n (m : Mem T) : same_but s n m m.
Proof. split; auto. Qed.

Lemma call_same {T} {N : Num T} (c : MClass T) s solver lu dt mtan n m m' :
  reachable c s -> batch_ok c s mtan n m -> same_but s n m m' ->
  fst (mm_getResponse_dp solver lu c s dt mtan (Z.of_nat n) m') = fst (mm_getResponse solver lu c s dt mtan (Z.of_nat n) m) /\
  same_but s n (snd (mm_getResponse solver lu c s dt mtan (Z.of_nat n) m)) (snd (mm_getResponse_dp solver lu c s dt mtan (Z.of_nat n) m')).
Proof.
  intros HR HB H. apply same_iff in H. destruct (api_same c s solver lu dt mtan n m m' HR HB H) as [E S]. split; [exact E|]. now apply same_iff.
Qed.

Lemma store_same {T} (s : MM T) n (m m' : Mem T) w : same_but s n m m' -> same_but s n (store m w) (store m' w).
Proof.
  intros [L H]. destruct w as [[a j] v]. unfold store, mset.
  split.
  - intros b. destruct (arr_eqb a b) eqn:E; [rewrite !upd_length; apply L|apply L].
  - intros b k Hk. destruct (arr_eqb a b) eqn:E; [|now apply H].
    apply arr_eqb_eq in E. subst b. destruct (Nat.eq_dec j k) as [->|Hjk].
    + destruct (Nat.lt_ge_cases k (List.length (m a))).
      * rewrite !nth_error_upd_same by (try rewrite <- L; assumption). reflexivity.
      * rewrite (proj2 (nth_error_None (upd (m a) k v) k)), (proj2 (nth_error_None (upd (m' a) k v) k)) by (rewrite upd_length; try rewrite <- L; assumption). reflexivity.
    + rewrite !nth_error_upd_other by assumption. now apply H.
Qed.
Lemma stores_same {T} (s : MM T) n l : forall m m' : Mem T, same_but s n m m' -> same_but s n (fold_left store l m) (fold_left store l m').
Proof. induction l as [|w l IH]; intros m m' H; cbn [fold_left]; [exact H|]. apply IH. now apply store_same. Qed.
Lemma store_len {T} (m : Mem T) w a : List.length (store m w a) = List.length (m a).
Proof.
  destruct w as [[b j] v]. unfold store, mset. destruct (arr_eqb b a) eqn:E; [|reflexivity].
  apply arr_eqb_eq in E. subst b. apply upd_length.
Qed.
Lemma stores_len {T} l : forall (m : Mem T) a, List.length (fold_left store l m a) = List.length (m a).
Proof. induction l as [|w l IH]; intros m a; cbn [fold_left]; [reflexivity|]. rewrite IH. apply store_len. Qed.
Lemma batch_len {T} (c : MClass T) s mtan n (m m' : Mem T) : (forall a, List.length (m' a) = List.length (m a)) -> batch_ok c s mtan n m -> batch_ok c s mtan n m'.
Proof. intros L [W B]. split; [exact W|]. intros a i Hi Hp. rewrite L. now apply B. Qed.
Lemma runSeq_len {T} (body : nat -> prog T) is : forall m a, List.length (snd (runSeq body is m) a) = List.length (m a).
Proof.
  induction is as [|i is IH]; intros m a; cbn [runSeq]; [reflexivity|].
  pose proof (exec_lengths (body i) m a) as L. destruct (exec (body i) m) as [[[]|] m1]; cbn [snd] in *; rewrite ?IH; exact L.
Qed.
Lemma call_len {T} {N : Num T} (c : MClass T) s solver lu dt mtan n m a :
  List.length (snd (mm_getResponse solver lu c s dt mtan n m) a) = List.length (m a).
Proof.
  unfold mm_getResponse. destruct (negb (mm_complete s)); [reflexivity|]. destruct (seq 0 (Z.to_nat n)); [reflexivity|].
  destruct (mm_ready s) as [[mat tol]|]; [|reflexivity]. apply runSeq_len.
Qed.

Lemma program_same {T} {N : Num T} (c : MClass T) s n : reachable c s -> forall l m m',
  (forall u, In u l -> batch_ok c s (u_mtan u) n m) -> same_but s n m m' ->
  let call f u := f (u_solver u) (u_lu u) c s (u_dt u) (u_mtan u) (Z.of_nat n) in
  fst (program (call mm_getResponse_dp) l m') = fst (program (call mm_getResponse) l m) /\
  same_but s n (snd (program (call mm_getResponse) l m)) (snd (program (call mm_getResponse_dp) l m')).
Proof.
  intros HR. induction l as [|u l IH]; intros m m' HB H; cbv zeta; cbn [program fst snd]; [split; [reflexivity|exact H]|].
  assert (L : forall a, List.length (fold_left store (u_stores u) m a) = List.length (m a)) by (intros; apply stores_len).
  destruct (call_same c s (u_solver u) (u_lu u) (u_dt u) (u_mtan u) n (fold_left store (u_stores u) m) (fold_left store (u_stores u) m') HR) as [E S].
  { apply (batch_len c s (u_mtan u) n m); [exact L|]. apply HB. now left. }
  { now apply stores_same. }
  assert (B2 : forall v, In v l -> batch_ok c s (u_mtan v) n (snd (mm_getResponse (u_solver u) (u_lu u) c s (u_dt u) (u_mtan u) (Z.of_nat n) (fold_left store (u_stores u) m)))).
  { intros v Hv. apply (batch_len c s (u_mtan v) n m); [|apply HB; now right]. intros a. rewrite call_len. apply L. }
  rewrite E. destruct (IH _ _ B2 S) as [E2 S2]. rewrite E2. split; [reflexivity|exact S2].
Qed.

(** ** norms of tensors *)
Lemma inner_pos A : 0 <= inner A A.
Proof.
  destruct A as [x0 x1 x2 x3 x4 x5 x6 x7 x8]. unfold inner. cbn [a00 a01 a02 a10 a11 a12 a20 a21 a22].
  pose proof (Rle_0_sqr x0). pose proof (Rle_0_sqr x1). pose proof (Rle_0_sqr x2). pose proof (Rle_0_sqr x3). pose proof (Rle_0_sqr x4).
  pose proof (Rle_0_sqr x5). pose proof (Rle_0_sqr x6). pose proof (Rle_0_sqr x7). pose proof (Rle_0_sqr x8). unfold Rsqr in *. lra.
Qed.
Lemma inner_lin x y A B : inner (add3 (scal3 x A) (scal3 y B)) (add3 (scal3 x A) (scal3 y B)) = x * x * inner A A + 2 * x * y * inner A B + y * y * inner B B.
Proof. destruct A, B. spec. ring. Qed.
Lemma norm_sq A : norm3t A * norm3t A = inner A A.
Proof. unfold norm3t. apply sqrt_sqrt, inner_pos. Qed.
Lemma norm_pos A : 0 <= norm3t A.
Proof. apply sqrt_pos. Qed.
Lemma inner_le A B : inner A B <= norm3t A * norm3t B.
Proof.
  pose proof (norm_sq A) as EA. pose proof (norm_sq B) as EB. pose proof (norm_pos A) as PA. pose proof (norm_pos B) as PB.
  set (x := norm3t A) in *. set (y := norm3t B) in *. clearbody x y.
  destruct (Req_dec x 0) as [X|X].
  { subst x. assert (A = Z3) as -> by (apply inner_self0; lra). right. destruct B. spec. ring. }
  destruct (Req_dec y 0) as [Y|Y].
  { subst y. assert (B = Z3) as -> by (apply inner_self0; lra). right. destruct A. spec. ring. }
  pose proof (inner_pos (add3 (scal3 y A) (scal3 (- x) B))) as P. rewrite inner_lin, <- EA, <- EB in P.
  assert (XY : 0 < x * y) by (apply Rmult_lt_0_compat; lra). nra.
Qed.
Lemma norm_tri A B : norm3t (add3 A B) <= norm3t A + norm3t B.
Proof.
  apply Rsqr_incr_0; [|apply norm_pos|apply Rplus_le_le_0_compat; apply norm_pos]. unfold Rsqr.
  rewrite norm_sq. pose proof (inner_lin 1 1 A B) as E. 
  replace (add3 (scal3 1 A) (scal3 1 B)) with (add3 A B) in E by (destruct A, B; spec; f_equal; ring).
  rewrite E. pose proof (inner_le A B). pose proof (norm_sq A). pose proof (norm_sq B). lra.
Qed.
Lemma norm_scal x A : norm3t (scal3 x A) = Rabs x * norm3t A.
Proof.
  unfold norm3t. replace (inner (scal3 x A) (scal3 x A)) with (Rsqr x * inner A A) by (destruct A; unfold Rsqr; spec; ring).
  rewrite sqrt_mult by (apply Rle_0_sqr || apply inner_pos). now rewrite sqrt_Rsqr_abs.
Qed.
Lemma norm_slip n g f b : (forall k, (k < n)%nat -> norm3t (f k) <= b) ->
  norm3t (slip_sum n g f) <= b * fold_right Rplus 0 (map (fun k => Rabs (g k)) (seq 0 n)).
Proof.
  intros H. unfold slip_sum. assert (H' : forall k, In k (seq 0 n) -> norm3t (f k) <= b) by (intros k Hk; apply in_seq in Hk; apply H; lia).
  revert H'. generalize (seq 0 n). intros l. induction l as [|k l IH]; intros H'; cbn [fold_right map].
  - right. unfold norm3t. replace (inner Z3 Z3) with 0 by (spec; ring). rewrite sqrt_0. ring.
  - eapply Rle_trans; [apply norm_tri|]. rewrite norm_scal. pose proof (IH (fun j Hj => H' j (or_intror Hj))) as I.
    pose proof (H' k (or_introl eq_refl)) as K. pose proof (Rabs_pos (g k)) as P. nra.
Qed.
Lemma schmid_norm s m : dotv m m = 1 -> dotv s s = 1 -> dotv m s = 0 -> norm3t (symp (outer s m)) = sqrt (/ 2).
Proof.
  intros H1 H2 H3. unfold norm3t. f_equal.
  replace (inner (symp (outer s m)) (symp (outer s m))) with (/ 2 * (dotv s s * dotv m m + dotv m s * dotv m s)) by (clear; destruct s as [y0 y1 y2], m as [z0 z1 z2]; spec3; field).
  rewrite H1, H2, H3. ring.
Qed.

Lemma dev_lin x A B : is_dev A -> is_dev B -> is_dev (add3 (scal3 x A) B).
Proof.
  destruct A as [x0 x1 x2 x3 x4 x5 x6 x7 x8], B as [y0 y1 y2 y3 y4 y5 y6 y7 y8]. unfold is_dev, is_sym. spec3.
  intros [I1 I2] [J1 J2]. injection I1 as K1 K2 K3 K4 K5 K6. injection J1 as L1 L2 L3 L4 L5 L6. subst.
  split; [reflexivity|]. transitivity (x * (x0 + x4 + x8) + (y0 + y4 + y8)); [ring|]. rewrite I2, J2. ring.
Qed.
Lemma dev_schmid s m : dotv m s = 0 -> is_dev (symp (outer s m)).
Proof.
  destruct s as [y0 y1 y2], m as [z0 z1 z2]. unfold is_dev, is_sym. spec3. intros H. split; [meq; ring|].
  transitivity (z0 * y0 + z1 * y1 + z2 * y2); [field|exact H].
Qed.

(** ** a point *)
Lemma dp_is_default hs c b : good_dp hs c b ->
  exists m1, good hs c {| b_s := b_s b; b_solver := b_solver b; b_lu := b_lu b; b_dt := b_dt b; b_mtan := b_mtan b; b_n := b_n b; b_m := b_m b; b_m1 := m1 |} /\
    same_but (b_s b) (b_n b) m1 (b_m1 b).
Proof.
  intros (HB & HR & HO & H).
  destruct (call_same c (b_s b) (b_solver b) (b_lu b) (b_dt b) (b_mtan b) (b_n b) (b_m b) (b_m b) HR HO (same_refl _ _ _)) as [E S].
  rewrite H in E, S. cbn [fst snd] in E, S.
  exists (snd (mm_getResponse (b_solver b) (b_lu b) c (b_s b) (b_dt b) (b_mtan b) (Z.of_nat (b_n b)) (b_m b))). split; [|exact S].
  refine (conj HB (conj HR (conj HO _))). cbn [b_s b_solver b_lu b_dt b_mtan b_n b_m b_m1]. rewrite E. apply surjective_pairing.
Qed.

Lemma dp_point hs c b i pars : good_dp hs c b -> (i < b_n b)%nat -> in_use c (b_s b) pars ->
  exists sg, c_sgSet c (sub pars 3 (c_sgNP c)) = Some sg /\ sg_nslip sg = c_nslip c /\ List.length pars = mm_nParams c /\ c_nH c = 1%nat /\
    val (b_s b) (b_m1 b) AH i 0 = vecd_Deff (vecsVMa 5 (c_nslip c) (sg_P sg) (tab (c_nslip c) (fun k => val (b_s b) (b_m1 b) AH i (14 + k)))) /\
    val (b_s b) (b_m1 b) AH i 1 = val (b_s b) (b_m b) AH i 1 + b_dt b * val (b_s b) (b_m1 b) AH i 0.
Proof.
  intros G Hi U. destruct (dp_is_default hs c b G) as (m1d & Gd & _).
  set (bd := {| b_s := b_s b; b_solver := b_solver b; b_lu := b_lu b; b_dt := b_dt b; b_mtan := b_mtan b; b_n := b_n b; b_m := b_m b; b_m1 := m1d |}) in *.
  assert (NH : c_nH c = 1%nat) by (destruct Gd as (HB & _); destruct HB as [ -> | [ -> | [ -> | [ -> | [ -> | [ -> | -> ]]]]]]; reflexivity).
  destruct (good_point hs c bd i Gd Hi) as (mat & tol & HM & HMo & K & S & _). cbv zeta in *.
  destruct G as (HB & HR & HO & H).
  destruct (in_use_all hs c (b_s b) pars HB U) as (_ & HL & PB & sg & kin & hi & E1 & E2 & HM').
  change (mm_ready (b_s b) = Some (mat, tol)) in HM. rewrite HM' in HM.
  assert (X : mat = mat_of c pars sg kin) by (apply (f_equal (option_map fst)) in HM; cbn [option_map fst] in HM; clear - HM; congruence).
  subst mat. clear HM.
  destruct HMo as (M1 & M2 & _ & _). cbn [m_sg m_kin mat_of] in M1, M2.
  assert (HC : mm_complete (b_s b) = true).
  { destruct (mm_complete (b_s b)) eqn:EC; [reflexivity|]. unfold mm_getResponse_dp in H. rewrite EC in H. discriminate. }
  destruct (api_dp c (b_s b) (b_solver b) (b_lu b) (b_dt b) (b_mtan b) (b_n b) (b_m b) _ _ (b_m1 b) HR HC HM' HO H) as [UT P].
  specialize (P i Hi).
  assert (HO1 : batch_ok c (b_s b) (b_mtan b) (b_n b) (b_m1 b)) by (apply (batch_len c (b_s b) (b_mtan b) (b_n b) (b_m b)); [apply UT|exact HO]).
  assert (VI : forall k, (k < 13 + c_nH c + c_nslip c)%nat -> get (pt_hist (pt_of c (b_s b) (b_mtan b) (b_m b) i)) k = val (b_s b) (b_m b) AH i k).
  { intros k Hk. apply (cell_val c (b_s b) (b_mtan b) (b_n b)); [exact (proj1 HO)|assumption|exact Hk]. }
  assert (VO : forall k, (k < 13 + c_nH c + c_nslip c)%nat -> get (pt_hist (pt_of c (b_s b) (b_mtan b) (b_m1 b) i)) k = val (b_s b) (b_m1 b) AH i k).
  { intros k Hk. apply (cell_val c (b_s b) (b_mtan b) (b_n b)); [exact (proj1 HO)|assumption|exact Hk]. }
  change (pt_shapes (mat_of c pars sg kin) (pt_of c (b_s b) (b_mtan b) (b_m b) i)) in S.
  destruct (sngl_dp_done _ _ _ _ _ _ _ _ _ _ K S P) as (g & G1 & G2 & G3).
  cbn [m_kin m_sg mat_of] in G1, G2, G3. rewrite M1, M2 in G1. rewrite M1 in G2.
  exists sg. refine (conj E1 (conj M1 (conj HL (conj NH _)))).
  assert (EG : g = tab (c_nslip c) (fun k => val (b_s b) (b_m1 b) AH i (14 + k))).
  { rewrite <- G1. unfold iHistLbGdot, iHistLbH. rewrite NH.
    assert (LL : List.length (pt_hist (pt_of c (b_s b) (b_mtan b) (b_m1 b) i)) = numHist (c_nH c) (c_nslip c)).
    { unfold pt_of, pt_at. cbn [pt_hist]. unfold cell. rewrite width_eq. apply sub_length. destruct HO1 as [W1 B1].
      rewrite (offs_eq (mm_strides (b_s b)) (b_mtan b) (b_n b) W1 AH i Hi). refine (B1 AH i Hi _). cbn [per_point]. unfold numHist, iHistLbH. lia. }
    unfold numHist, iHistLbH in LL. rewrite NH in LL.
    apply list_get_ext; [rewrite sub_length, tab_length by (rewrite LL; lia); reflexivity|].
    intros k Hk. rewrite sub_length in Hk by (rewrite LL; lia). rewrite get_sub, get_tab by assumption. cbn [Nat.add]. apply VO. lia. }
  rewrite EG in G2. rewrite !VO in G2 by lia. rewrite !VO, VI in G3 by lia.
  split; [exact G2|]. rewrite G3. cbn [nadd nmul RNum]. ring.
Qed.

Lemma dp_rate hs c b i pars md sd : good_dp hs c b -> (i < b_n b)%nat -> in_use c (b_s b) pars -> systems hs c pars md sd ->
  val (b_s b) (b_m1 b) AH i 0 = sqrt (2 / 3) * norm3t (plastic_rate c md sd (b_s b) (b_m1 b) i) /\
  val (b_s b) (b_m1 b) AH i 1 = val (b_s b) (b_m b) AH i 1 + b_dt b * val (b_s b) (b_m1 b) AH i 0 /\
  legal_systems (c_nslip c) md sd.
Proof.
  intros G Hi U HS. destruct (dp_point hs c b i pars G Hi U) as (sg & Esg & Ens & HL & NH & E0 & E1).
  destruct (systems_data hs c pars md sd sg HS HL Esg) as [SD SL].
  split; [|split; [exact E1|exact SL]]. rewrite E0. set (g := fun k => val (b_s b) (b_m1 b) AH i (14 + k)). fold (plastic_rate c md sd (b_s b) (b_m1 b) i).
  assert (DV : is_dev (plastic_rate c md sd (b_s b) (b_m1 b) i)).
  { unfold plastic_rate, slip_sum. assert (Q : forall k, In k (seq 0 (c_nslip c)) -> dotv (md k) (sd k) = 0).
    { intros k Hk. apply in_seq in Hk. apply (proj1 SL k). lia. }
    revert Q. generalize (seq 0 (c_nslip c)). intros l. induction l as [|k l IH]; intros Q; cbn [fold_right].
    - split; [reflexivity|]. unfold trace. cbn. ring.
    - destruct IH as [I1 I2]; [intros j Hj; apply Q; now right|]. pose proof (Q k (or_introl eq_refl)) as Qk. revert I1 I2.
      intros I1 I2. apply dev_lin; [now apply dev_schmid|]. split; assumption. }
  unfold vecd_Deff. change ntvec with 5%nat.
  assert (EP : vecsVMa 5 (c_nslip c) (sg_P sg) (tab (c_nslip c) g) = vec5 (plastic_rate c md sd (b_s b) (b_m1 b) i)).
  { apply list_get_ext; [reflexivity|]. intros k Hk. change (k < 5)%nat in Hk. rewrite vec5_get by assumption.
    unfold plastic_rate. rewrite inner_slip. unfold vecsVMa. rewrite get_tab by assumption.
    apply sum_ext. intros j Hj. rewrite get_tab by assumption. destruct SD as (_ & _ & H). destruct (H j Hj) as (HP & _).
    rewrite <- (HP k Hk). unfold get2, get, g. cbn [nundef RNum nmul]. ring. }
  rewrite EP, norm_vec5 by exact DV.
  set (A := plastic_rate c md sd (b_s b) (b_m1 b) i). clearbody A.
  change (s2 * s3 / 3 * norm3t A = sqrt (2 / 3) * norm3t A). f_equal.
  unfold s2, s3. rewrite <- sqrt_mult by lra. symmetry. replace (2 / 3) with ((2 * 3) / (3 * 3)) by field. rewrite sqrt_div by lra. rewrite sqrt_square by lra. reflexivity.
Qed.

Lemma dp_bound hs c b i pars md sd : good_dp hs c b -> (i < b_n b)%nat -> in_use c (b_s b) pars -> systems hs c pars md sd ->
  val (b_s b) (b_m1 b) AH i 0 <= / sqrt 3 * fold_right Rplus 0 (map (fun k => Rabs (val (b_s b) (b_m1 b) AH i (14 + k))) (seq 0 (c_nslip c))).
Proof.
  intros G Hi U HS. destruct (dp_rate hs c b i pars md sd G Hi U HS) as (E & _ & SL). rewrite E.
  pose proof (norm_slip (c_nslip c) (fun k => val (b_s b) (b_m1 b) AH i (14 + k)) (fun k => symp (outer (sd k) (md k))) (sqrt (/ 2))) as N.
  assert (K : sqrt (2 / 3) * sqrt (/ 2) = / sqrt 3).
  { rewrite <- sqrt_mult by lra. replace (2 / 3 * / 2) with (1 / 3) by field. rewrite sqrt_div by lra. rewrite sqrt_1. unfold Rdiv. ring. }
  rewrite <- K, Rmult_assoc. apply Rmult_le_compat_l; [apply sqrt_pos|]. apply N.
  intros k Hk. destruct (proj1 SL k Hk) as (H1 & H2 & H3). right. now apply schmid_norm.
Qed.

Lemma chain_dp_strain hs c i : forall l b0, chain_dp hs c [AH] (b0 :: l) -> (i < b_n b0)%nat ->
  (forall b, In b (b0 :: l) -> 0 <= b_dt b /\ exists p, in_use c (b_s b) p /\ exists md sd, systems hs c p md sd) ->
  let bl := last (b0 :: l) b0 in
  val (b_s bl) (b_m1 bl) AH i 1 = val (b_s b0) (b_m b0) AH i 1 + fold_right (fun b a => b_dt b * val (b_s b) (b_m1 b) AH i 0 + a) 0 (b0 :: l) /\
  val (b_s b0) (b_m b0) AH i 1 <= val (b_s bl) (b_m1 bl) AH i 1.
Proof.
  induction l as [|b1 l IH]; intros b0 (HG & HF & HC) Hi HD; cbv zeta.
  - destruct (HD b0 (or_introl eq_refl)) as (H0 & p & U & md & sd & HS). destruct (dp_rate hs c b0 i p md sd HG Hi U HS) as (A & B & _).
    assert (P0 : 0 <= val (b_s b0) (b_m1 b0) AH i 0) by (rewrite A; apply Rmult_le_pos; [apply sqrt_pos|apply norm_pos]).
    cbn [last fold_right]. rewrite B. split; [ring|]. nra.
  - destruct HF as (F1 & F2 & F3). destruct (IH b1 HC ltac:(lia)) as [I1 I2]. { intros b Hb. apply HD. now right. }
    destruct (HD b0 (or_introl eq_refl)) as (H0 & p & U & md & sd & HS). destruct (dp_rate hs c b0 i p md sd HG Hi U HS) as (A & B & _).
    assert (P0 : 0 <= val (b_s b0) (b_m1 b0) AH i 0) by (rewrite A; apply Rmult_le_pos; [apply sqrt_pos|apply norm_pos]).
    pose proof (last_default l b1 b0 b1 : last (b0 :: b1 :: l) b0 = last (b1 :: l) b1) as EL.
    rewrite EL.
    rewrite (val_eq (b_s b0) (b_s b1) (b_m1 b0) (b_m b1) AH i 1 F1 (F3 AH (or_introl eq_refl))) in I1, I2.
    rewrite B in I1, I2. rewrite I1. split; [cbn [fold_right]; ring|]. rewrite <- I1. nra.
Qed.

Lemma dp_le_default hs c b i pars md sd : good_dp hs c b -> (i < b_n b)%nat -> in_use c (b_s b) pars -> systems hs c pars md sd ->
  let default := mm_getResponse (b_solver b) (b_lu b) c (b_s b) (b_dt b) (b_mtan b) (Z.of_nat (b_n b)) (b_m b) in
  0 <= b_dt b -> fst default = BRet Done /\
  0 <= val (b_s b) (b_m1 b) AH i 0 <= val (b_s b) (snd default) AH i 0 / sqrt 3.
Proof.
  intros G Hi U HS default Hdt.
  destruct (dp_rate hs c b i pars md sd G Hi U HS) as (E & _ & SL).
  pose proof (dp_bound hs c b i pars md sd G Hi U HS) as B.
  pose proof G as (HB & HR & HO & H).
  destruct (call_same c (b_s b) (b_solver b) (b_lu b) (b_dt b) (b_mtan b) (b_n b) (b_m b) (b_m b) HR HO (same_refl _ _ _)) as [EO S].
  fold default in EO, S. rewrite H in EO, S. cbn [fst snd] in EO, S. symmetry in EO. split; [exact EO|].
  split; [rewrite E; apply Rmult_le_pos; [apply sqrt_pos|apply norm_pos]|].
  set (bd := {| b_s := b_s b; b_solver := b_solver b; b_lu := b_lu b; b_dt := b_dt b; b_mtan := b_mtan b; b_n := b_n b; b_m := b_m b; b_m1 := snd default |}).
  assert (Gd : good hs c bd).
  { refine (conj HB (conj HR (conj HO _))). change (default = (BRet Done, snd default)). rewrite <- EO. apply surjective_pairing. }
  destruct (call_shear hs c bd i Gd Hi Hdt) as (_ & _ & C). rewrite sum_fold in C.
  change (val (b_s b) (snd default) AH i 0 = fold_right Rplus 0 (map (fun k => Rabs (val (b_s b) (snd default) AH i (13 + c_nH c + k))) (seq 0 (c_nslip c)))) in C.
  rewrite C. unfold Rdiv. rewrite Rmult_comm. eapply Rle_trans; [exact B|]. right. f_equal. f_equal.
  assert (NH : c_nH c = 1%nat) by (destruct HB as [ -> | [ -> | [ -> | [ -> | [ -> | [ -> | -> ]]]]]]; reflexivity).
  apply map_ext_in. intros k Hk. apply in_seq in Hk. f_equal. rewrite NH. unfold val.
  destruct S as [_ S]. replace (13 + 1 + k)%nat with (14 + k)%nat by lia.
  set (j := (stride_of (mm_strides (b_s b)) AH * i + (14 + k))%nat).
  assert (Q : nth_error (snd default AH) j = nth_error (b_m1 b AH) j).
  { apply S. intros [_ (i' & k' & Hi' & Hk' & EJ)]. unfold j in EJ.
    pose proof (reach_strides_ok c (b_s b) (b_mtan b) HR AH) as SS. cbn [per_point] in SS. unfold numHist, iHistLbH in SS. rewrite NH in SS.
    set (st := stride_of (mm_strides (b_s b)) AH) in *. clearbody st.
    destruct (Nat.lt_trichotomy i i') as [Q|[Q|Q]]; [| subst i'; lia |].
    - assert (st * i + st <= st * i')%nat by nia. lia.
    - assert (st * i' + st <= st * i)%nat by nia. lia. }
  destruct (nth_error (snd default AH) j) eqn:E1.
  - rewrite (nth_error_nth _ _ 0 E1). symmetry in Q. now rewrite (nth_error_nth _ _ 0 Q).
  - symmetry in Q. apply nth_error_None in E1, Q. now rewrite !nth_overflow.
Qed.
