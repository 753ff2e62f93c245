(** Proofs about the hardness updates. *)
From Coq Require Import List ZArith Bool Lia Reals Lra.
From Coquelicot Require Import Coquelicot.
From Verif Require Import Num Arr NumR Util Hard KinVoce KinKMBalD SpecKin P_KinV.
Import ListNotations.
Local Open Scope R_scope.

Lemma sum_fold_R (n : nat) (f : nat -> R) : sum n f = fold_right Rplus 0 (map f (seq 0 n)).
Proof.
  induction n as [|n IH]; [reflexivity|]. rewrite sum_S, IH, seq_S, map_app, fold_right_app. cbn [map fold_right Nat.add].
  generalize (map f (seq 0 n)) (f n). intros l y. rops. rewrite Rplus_0_r.
  induction l as [|a l IHl]; cbn [fold_right]; [ring|]. rewrite <- IHl. ring.
Qed.
Lemma shear_vec n (g : list R) : length g = n -> vecsssumabs n g = shear_sum g.
Proof.
  intros H. unfold vecsssumabs, shear_sum. rewrite sum_fold_R. f_equal. rewrite (list_tab g n H).
  unfold tab. rewrite map_map. apply map_ext_in. intros k Hk. apply in_seq in Hk. fold (tab n (get g)). now rewrite <- (list_tab g n H).
Qed.
Lemma shear_nonneg g : 0 <= shear_sum g.
Proof. unfold shear_sum. induction g as [|a g IH]; cbn; [lra|]. pose proof (Rabs_pos a). lra. Qed.
Lemma tiny_lt_pos s : / 10 ^ 90 < s -> 0 < s.
Proof. intros H. pose proof (pow10i_pos 90). lra. Qed.

(** ** Voce *)
Lemma voce_evol v n g : length g = n -> 0 < v_gamss0 v ->
  voce_getEvolVals v n g = (shear_sum g, voce_sat (v_taus0 v) (v_gamss0 v) (v_xms v) (shear_sum g)).
Proof.
  intros HL HG. unfold voce_getEvolVals, voce_sat. rewrite (shear_vec n g HL). cbn [nltb RNum]. rewrite lit_tiny. unfold Rltb.
  destruct (Rlt_dec (/ 10 ^ 90) (shear_sum g)) as [H|H]; [|reflexivity]. pose proof (tiny_lt_pos _ H).
  change (@npow R RNum) with Rpow. rewrite Rpow_pos; [reflexivity|]. rops. apply Rmult_lt_0_compat; [assumption|now apply Rinv_0_lt_compat].
Qed.
Lemma voce_sdot v shr sat h : v_nonlinear v = false ->
  voce_getSdot1 v (shr, sat) h = (voce_hardening (v_h0 v) (v_tausi v) sat shr h,
    if Rle_dec sat (v_tausi v) then 0 else - (v_h0 v / (sat - v_tausi v) * shr)).
Proof.
  intros HN. unfold voce_getSdot1, voce_hardening. rewrite HN. cbn [nleb RNum]. unfold Rleb. destruct (Rle_dec sat (v_tausi v)).
  - rops. f_equal; ring.
  - rops. unfold Rdiv. f_equal; ring.
Qed.
Lemma voce_mono h0 tausi sat shr a b : 0 <= h0 -> 0 <= shr -> a <= b ->
  voce_hardening h0 tausi sat shr b <= voce_hardening h0 tausi sat shr a.
Proof.
  intros H0 HS Hab. unfold voce_hardening. destruct Rle_dec as [|L]; [lra|]. apply Rnot_le_lt in L.
  assert (I : 0 < / (sat - tausi)) by (apply Rinv_0_lt_compat; lra).
  apply Rmult_le_compat_r; [assumption|]. apply Rmult_le_compat_l; [assumption|]. apply Rmult_le_compat_r; lra.
Qed.
Lemma voce_at_sat h0 tausi sat shr : voce_hardening h0 tausi sat shr sat = 0.
Proof. unfold voce_hardening. destruct Rle_dec; [reflexivity|]. unfold Rdiv. ring. Qed.
Lemma voce_cont h0 tausi sat shr x : continuity_pt (voce_hardening h0 tausi sat shr) x.
Proof.
  unfold voce_hardening. destruct (Rle_dec sat tausi).
  - apply continuity_pt_const. intros ? ?. reflexivity.
  - apply continuity_pt_filterlim. apply (ex_derive_continuous (fun h => h0 * ((sat - h) / (sat - tausi)) * shr)). auto_derive. lra.
Qed.
Lemma voce_exact h0 tausi sat shr dt ho h : 0 <= h0 -> 0 <= shr -> 0 <= dt -> tausi < sat ->
  implicit_step (voce_hardening h0 tausi sat shr) dt ho h <->
  h = (ho + dt * h0 * shr / (sat - tausi) * sat) / (1 + dt * h0 * shr / (sat - tausi)).
Proof.
  intros H0 HS HD HT. unfold implicit_step, voce_hardening. destruct Rle_dec; [lra|].
  set (a := dt * h0 * shr / (sat - tausi)).
  assert (A : 0 <= a).
  { unfold a, Rdiv. apply Rmult_le_pos; [|left; apply Rinv_0_lt_compat; lra]. apply Rmult_le_pos; [|assumption]. now apply Rmult_le_pos. }
  replace (dt * (h0 * ((sat - h) / (sat - tausi)) * shr)) with (a * (sat - h)) by (unfold a; field; lra).
  split; intros E.
  - apply (Rmult_eq_reg_r (1 + a)); [|lra]. unfold Rdiv. rewrite Rmult_assoc, Rinv_l by lra. lra.
  - rewrite E at 2. rewrite E. field. lra.
Qed.
Lemma d_voce_lin (v : Voce R) (shr sat h : R) : v_nonlinear v = false ->
  is_derive (fun h => fst (voce_getSdot1 v (shr, sat) h)) h (snd (voce_getSdot1 v (shr, sat) h)).
Proof.
  intros HN. apply (is_derive_ext (voce_hardening (v_h0 v) (v_tausi v) sat shr)); [intros t; now rewrite voce_sdot|].
  rewrite voce_sdot by assumption. cbn [snd]. unfold voce_hardening. destruct (Rle_dec sat (v_tausi v)).
  - apply (is_derive_const (V := R_NormedModule) 0 h).
  - auto_derive; [lra|]. field. lra.
Qed.
(** nonlinear *)
Lemma voce_sdot_nl v shr sat h : v_nonlinear v = true -> v_xmprime1 v = v_xmprime v - 1 -> v_tausi v < sat -> h < sat ->
  voce_getSdot1 v (shr, sat) h = (voce_hardening_nl (v_h0 v) (v_tausi v) sat (v_xmprime v) shr h,
    - (v_h0 v / (sat - v_tausi v) * shr * v_xmprime v * Rpower ((sat - h) / (sat - v_tausi v)) (v_xmprime v - 1))).
Proof.
  intros HN HM HT Hh. unfold voce_getSdot1, voce_hardening_nl. rewrite HN, HM. cbn [nleb RNum]. unfold Rleb.
  destruct (Rle_dec sat (v_tausi v)); [lra|]. change (@npow R RNum) with Rpow. rops.
  assert (I : 0 < / (sat - v_tausi v)) by (apply Rinv_0_lt_compat; lra).
  set (x := (sat - h) * (1 / (sat - v_tausi v))).
  assert (X : 0 < x) by (unfold x; apply Rmult_lt_0_compat; [lra|unfold Rdiv; lra]).
  rewrite Rpow_pos by assumption.
  assert (EX : (sat - h) / (sat - v_tausi v) = x) by (unfold x, Rdiv; ring). rewrite EX.
  assert (EP : Rpower x (v_xmprime v) = Rpower x (v_xmprime v - 1) * x).
  { replace (v_xmprime v) with ((v_xmprime v - 1) + 1) at 1 by ring. now rewrite Rpower_plus, Rpower_1. }
  rewrite EP. f_equal; [|unfold Rdiv; ring]. unfold x at 3. ring.
Qed.
Lemma d_voce_nl (v : Voce R) (shr sat h : R) : v_nonlinear v = true -> v_xmprime1 v = v_xmprime v - 1 -> v_tausi v < sat -> h < sat ->
  is_derive (fun h => fst (voce_getSdot1 v (shr, sat) h)) h (snd (voce_getSdot1 v (shr, sat) h)).
Proof.
  intros HN HM HT Hh. apply (is_derive_ext_loc (voce_hardening_nl (v_h0 v) (v_tausi v) sat (v_xmprime v) shr)).
  { generalize (loc_lt (fun t => t) sat h (cont_id h) Hh). apply filter_imp. intros t Ht. now rewrite voce_sdot_nl. }
  rewrite voce_sdot_nl by assumption. cbn [snd]. unfold voce_hardening_nl.
  set (m := v_xmprime v). set (ti := v_tausi v) in *.
  assert (I : 0 < / (sat - ti)) by (apply Rinv_0_lt_compat; lra).
  assert (X : 0 < (sat - h) / (sat - ti)) by (apply Rmult_lt_0_compat; lra).
  apply (is_derive_ext (fun h => v_h0 v * exp (m * ln ((sat - h) / (sat - ti))) * shr)); [reflexivity|].
  auto_derive; [repeat split; lra|].
  assert (E : exp (m * ln ((sat - h) / (sat - ti))) = Rpower ((sat - h) / (sat - ti)) (m - 1) * ((sat - h) / (sat - ti))).
  { fold (Rpower ((sat - h) / (sat - ti)) m). replace m with ((m - 1) + 1) at 1 by ring. now rewrite Rpower_plus, Rpower_1. }
  change ((sat + - h) * / (sat - ti)) with ((sat - h) / (sat - ti)). rewrite E. field. split; lra.
Qed.
Lemma Rpower_mono x y m : 0 < x -> x <= y -> 0 <= m -> Rpower x m <= Rpower y m.
Proof. intros. apply Rle_Rpower_l; lra. Qed.
Lemma voce_nl_mono h0 tausi sat m shr a b : 0 <= h0 -> 0 <= shr -> 0 <= m -> tausi < sat -> a <= b -> b < sat ->
  0 <= voce_hardening_nl h0 tausi sat m shr b <= voce_hardening_nl h0 tausi sat m shr a.
Proof.
  intros H0 HS Hm HT Hab Hb. unfold voce_hardening_nl.
  assert (I : 0 < / (sat - tausi)) by (apply Rinv_0_lt_compat; lra). split.
  - apply Rmult_le_pos; [|assumption]. apply Rmult_le_pos; [assumption|left; apply Rpower_pos].
  - apply Rmult_le_compat_r; [assumption|]. apply Rmult_le_compat_l; [assumption|]. apply Rpower_mono; [|apply Rmult_le_compat_r; lra|assumption].
    apply Rmult_lt_0_compat; lra.
Qed.
Definition clamp (f : R -> R) (sat h : R) : R := if Rlt_dec h sat then f h else 0.
Lemma clamp_mono h0 tausi sat m shr : 0 <= h0 -> 0 <= shr -> 0 <= m -> tausi < sat ->
  forall a b, a <= b -> clamp (voce_hardening_nl h0 tausi sat m shr) sat b <= clamp (voce_hardening_nl h0 tausi sat m shr) sat a.
Proof.
  intros H0 HS Hm HT a b Hab. unfold clamp. destruct (Rlt_dec b sat), (Rlt_dec a sat); try lra.
  - now apply voce_nl_mono.
  - apply (voce_nl_mono h0 tausi sat m shr a a); lra.
Qed.
Lemma clamp_step f sat dt ho h : h < sat -> implicit_step (clamp f sat) dt ho h <-> implicit_step f dt ho h.
Proof. intros H. unfold implicit_step, clamp. destruct Rlt_dec; [reflexivity|lra]. Qed.
Lemma voce_nl_unique h0 tausi sat m shr dt ho : 0 <= h0 -> 0 <= shr -> 0 <= m -> tausi < sat -> 0 <= dt ->
  forall a b, a < sat -> b < sat -> implicit_step (voce_hardening_nl h0 tausi sat m shr) dt ho a ->
    implicit_step (voce_hardening_nl h0 tausi sat m shr) dt ho b -> a = b.
Proof.
  intros H0 HS Hm HT HD a b Ha Hb A B. apply (Fi_unique (clamp (voce_hardening_nl h0 tausi sat m shr) sat) dt HD (clamp_mono _ _ _ _ _ H0 HS Hm HT) ho);
    now apply clamp_step.
Qed.
Lemma voce_nl_near h0 tausi sat m shr dt ho : 0 <= h0 -> 0 <= shr -> 0 <= m -> tausi < sat -> 0 <= dt ->
  forall a b, a < sat -> b < sat -> implicit_step (voce_hardening_nl h0 tausi sat m shr) dt ho b ->
    Rabs (a - b) <= Rabs (Fi (voce_hardening_nl h0 tausi sat m shr) dt ho a).
Proof.
  intros H0 HS Hm HT HD a b Ha Hb B.
  pose proof (Fi_near (clamp (voce_hardening_nl h0 tausi sat m shr) sat) dt HD (clamp_mono _ _ _ _ _ H0 HS Hm HT) ho a b) as N.
  apply (clamp_step _ sat) in B; [|assumption]. apply Fi_root in B. rewrite B, Rminus_0_r in N.
  unfold Fi, clamp in N. destruct (Rlt_dec a sat); [exact N|lra].
Qed.
Lemma voce_nl_exists h0 tausi sat m shr dt ho : 0 <= h0 -> 0 <= shr -> 0 < m -> tausi < sat -> 0 <= dt -> ho < sat ->
  exists h, ho <= h < sat /\ implicit_step (voce_hardening_nl h0 tausi sat m shr) dt ho h.
Proof.
  intros H0 HS Hm HT HD Hho. set (f := voce_hardening_nl h0 tausi sat m shr).
  assert (I : 0 < / (sat - tausi)) by (apply Rinv_0_lt_compat; lra).
  set (A := dt * (h0 * shr)). assert (HA : 0 <= A) by (apply Rmult_le_pos; [assumption|now apply Rmult_le_pos]).
  destruct (Rle_lt_or_eq_dec 0 A HA) as [PA|ZA].
  2:{ exists ho. split; [lra|]. unfold implicit_step, f, voce_hardening_nl.
      replace (dt * (h0 * Rpower ((sat - ho) / (sat - tausi)) m * shr)) with (A * Rpower ((sat - ho) / (sat - tausi)) m) by (unfold A; ring).
      rewrite <- ZA. ring. }
  set (u := Rpower ((sat - ho) / (2 * A)) (1 / m)). assert (HU : 0 < u) by apply Rpower_pos.
  set (d := Rmin ((sat - ho) / 2) (u * (sat - tausi))).
  assert (Pd : 0 < d) by (apply Rmin_glb_lt; [lra|apply Rmult_lt_0_compat; lra]).
  assert (Ld : d <= (sat - ho) / 2) by apply Rmin_l. assert (Lu : d <= u * (sat - tausi)) by apply Rmin_r.
  assert (F0 : Fi f dt ho ho <= 0).
  { unfold Fi. pose proof (voce_nl_mono h0 tausi sat m shr ho ho H0 HS ltac:(lra) HT (Rle_refl _) Hho) as [P _]. fold f in P.
    generalize (Rmult_le_pos dt (f ho) HD P). lra. }
  assert (F1 : 0 <= Fi f dt ho (sat - d)).
  { unfold Fi, f, voce_hardening_nl. replace (sat - (sat - d)) with d by ring.
    assert (B : Rpower (d / (sat - tausi)) m <= (sat - ho) / (2 * A)).
    { apply Rle_trans with (Rpower u m).
      - apply Rpower_mono; [apply Rmult_lt_0_compat; lra| |lra]. apply (Rmult_le_reg_r (sat - tausi)); [lra|]. unfold Rdiv. rewrite Rmult_assoc, Rinv_l; lra.
      - unfold u. rewrite Rpower_mult. replace (1 / m * m) with 1 by (field; lra). rewrite Rpower_1; [lra|].
        apply Rmult_lt_0_compat; [lra|apply Rinv_0_lt_compat; lra]. }
    replace (dt * (h0 * Rpower (d / (sat - tausi)) m * shr)) with (A * Rpower (d / (sat - tausi)) m) by (unfold A; ring).
    apply (Rmult_le_compat_l A) in B; [|lra]. replace (A * ((sat - ho) / (2 * A))) with ((sat - ho) / 2) in B by (field; lra). lra. }
  destruct (Rle_lt_or_eq_dec _ _ F0) as [N0|Z0]; [|exists ho; split; [lra|now apply Fi_root]].
  destruct (Rle_lt_or_eq_dec _ _ F1) as [N1|Z1]; [|exists (sat - d); split; [lra|apply Fi_root; now rewrite <- Z1]].
  destruct (Ranalysis5.IVT_interv (Fi f dt ho) ho (sat - d)) as [z [[Z1 Z2] Z3]].
  - intros a [_ Ha]. apply continuity_pt_filterlim. apply (ex_derive_continuous (Fi f dt ho)). unfold Fi, f, voce_hardening_nl, Rpower.
    auto_derive. repeat split; try lra. apply Rmult_lt_0_compat; lra.
  - lra.
  - assumption.
  - assumption.
  - exists z. split; [lra|]. now apply Fi_root.
Qed.

(** ** dislocation density *)
Lemma km_evol k n g : length g = n -> 0 < km_gamma_o k ->
  km_getEvolVals k n g = (shear_sum g, km_k2_at (km_k2o k) (km_gamma_o k) (km_ninv k) (shear_sum g)).
Proof.
  intros HL HG. unfold km_getEvolVals, km_k2_at. rewrite (shear_vec n g HL). cbn [nltb RNum]. rewrite lit_tiny. unfold Rltb.
  destruct (Rlt_dec (/ 10 ^ 90) (shear_sum g)) as [H|H]; [|reflexivity]. pose proof (tiny_lt_pos _ H).
  change (@npow R RNum) with Rpow. rewrite Rpow_pos; [reflexivity|]. rops. apply Rmult_lt_0_compat; [assumption|now apply Rinv_0_lt_compat].
Qed.
Lemma exp_half l : exp (- / 2 * l) = / sqrt (exp l).
Proof.
  assert (E : sqrt (exp l) = exp (/ 2 * l)).
  { apply sqrt_lem_1; [left; apply exp_pos|left; apply exp_pos|]. rewrite <- exp_plus. f_equal. lra. }
  rewrite E. replace (- / 2 * l) with (- (/ 2 * l)) by ring. apply exp_Ropp.
Qed.
Lemma km_sdot k shr k2 l : km_getSdot1 k (shr, k2) l = (km_hardening (km_k1 k) k2 shr (exp l), - (km_k1 k / 2 * exp (- / 2 * l) * shr)).
Proof.
  unfold km_getSdot1, km_hardening. rewrite onehalf_R. rops. unfold Rdiv. rewrite <- exp_half. f_equal. ring.
Qed.
Lemma d_km (k : KM R) (shr k2 l : R) : is_derive (fun l => fst (km_getSdot1 k (shr, k2) l)) l (snd (km_getSdot1 k (shr, k2) l)).
Proof.
  apply (is_derive_ext (fun l => (km_k1 k * exp (- / 2 * l) - k2) * shr)).
  { intros t. rewrite km_sdot. cbn [fst]. unfold km_hardening, Rdiv. now rewrite exp_half. }
  rewrite km_sdot. cbn [snd]. auto_derive; [exact I|]. field.
Qed.
Lemma km_mono k1 k2 shr a b : 0 <= k1 -> 0 <= shr -> a <= b -> km_hardening k1 k2 shr (exp b) <= km_hardening k1 k2 shr (exp a).
Proof.
  intros H1 HS Hab. unfold km_hardening, Rdiv. rewrite <- !exp_half. apply Rmult_le_compat_r; [assumption|].
  assert (exp (- / 2 * b) <= exp (- / 2 * a)).
  { destruct (Req_dec a b) as [->|]; [lra|]. left. apply exp_increasing. lra. }
  generalize (Rmult_le_compat_l k1 _ _ H1 H). lra.
Qed.
Lemma km_cont k1 k2 shr x : continuity_pt (fun l => km_hardening k1 k2 shr (exp l)) x.
Proof.
  apply continuity_pt_filterlim. apply (ex_derive_continuous (fun l => km_hardening k1 k2 shr (exp l))). unfold km_hardening.
  auto_derive. split; [apply exp_pos|split; [|exact I]]. pose proof (sqrt_lt_R0 _ (exp_pos x)). lra.
Qed.

(** ** several variables *)
Lemma with_entry_length l j t : (j < length l)%nat -> length (with_entry l j t) = length l.
Proof. intros H. unfold with_entry. rewrite app_length, firstn_length. cbn [length]. rewrite skipn_length. lia. Qed.
Lemma with_entry_upd l : forall j t, (j < length l)%nat -> with_entry l j t = upd l j t.
Proof.
  induction l as [|a l IH]; intros j t H; [cbn in H; lia|]. destruct j as [|j]; [reflexivity|].
  unfold with_entry. cbn [firstn skipn app upd]. f_equal. apply IH. cbn in H. lia.
Qed.
Lemma d_scaled_n (f : R -> R) (a c e dt y z d : R) : e <> 0 -> is_derive f (a + y * c) d ->
  is_derive (fun y => (z - f (a + y * c) * dt) * (1 / e)) y (d * (- c * (1 / e) * dt)) /\
  is_derive (fun y => (y * c - f (a + y * c) * dt) * (1 / e)) y (d * (- c * (1 / e) * dt) + c / e).
Proof.
  intros He D. pose proof (is_derive_unique _ _ _ D) as U.
  split; (auto_derive; [exists d; exact D|]); change (fun x0 : R => f x0) with f; rewrite U; field; lra.
Qed.
Lemma hn_jacobian n (sd : SdotN R) (ho : list R) (dt : R) (x : list R) i j : length ho = n -> length x = n -> (i < n)%nat -> (j < n)%nat ->
  let h := hn_getHn n ho x in
  is_derive (fun t => get (fst (sd (with_entry h j t))) i) (get h j) (get2 n (snd (sd h)) i j) ->
  is_derive (fun t => get (fst (hn_computeRJ n sd ho dt (with_entry x j t))) i) (get x j)
    (get2 n (snd (hn_computeRJ n sd ho dt x)) i j).
Proof.
  intros HLo HLx Hi Hj h D.
  assert (SP : forall k, (k < n)%nat -> 0 < get (hn_x_scale n ho) k).
  { intros k Hk. unfold hn_x_scale. rewrite get_tab by assumption. rops. unfold Rmax. destruct Rle_dec; lra. }
  assert (HH : forall t, tab n (fun k => get ho k + get (with_entry x j t) k * get (hn_x_scale n ho) k)%num = with_entry h j (get ho j + t * get (hn_x_scale n ho) j)).
  { intros t. rewrite !with_entry_upd by (unfold h, hn_getHn; rewrite ?tab_length; lia).
    apply list_get_ext; [now rewrite tab_length, upd_length; unfold h, hn_getHn; rewrite tab_length|].
    intros k Hk. rewrite tab_length in Hk. rewrite get_tab by assumption. destruct (Nat.eq_dec j k) as [<-|NE].
    - rewrite !get_upd_same by (unfold h, hn_getHn; rewrite ?tab_length; lia). reflexivity.
    - rewrite !get_upd_other by assumption. unfold h, hn_getHn. now rewrite get_tab by assumption. }
  assert (EH : with_entry h j (get h j) = h).
  { rewrite with_entry_upd by (unfold h, hn_getHn; rewrite tab_length; lia). apply list_get_ext; [now rewrite upd_length|].
    intros k Hk. rewrite upd_length in Hk. destruct (Nat.eq_dec j k) as [<-|NE]; [now apply get_upd_same|now apply get_upd_other]. }
  assert (EV : forall y, get (fst (hn_computeRJ n sd ho dt y)) i =
     (get y i * get (hn_x_scale n ho) i - get (fst (sd (tab n (fun k => get ho k + get y k * get (hn_x_scale n ho) k)%num))) i * dt) * (1 / get (hn_x_scale n ho) i)).
  { intros y. unfold hn_computeRJ; cbv zeta. rewrite (surjective_pairing (sd _)). cbv beta iota. cbn [fst]. rewrite get_tab by assumption. unfold hn_res_scale. rewrite get_tab by assumption. reflexivity. }
  assert (EJ : get2 n (snd (hn_computeRJ n sd ho dt x)) i j =
     if Nat.eqb i j then get2 n (snd (sd h)) i j * (- get (hn_x_scale n ho) j * (1 / get (hn_x_scale n ho) i) * dt) + 1
     else get2 n (snd (sd h)) i j * (- get (hn_x_scale n ho) j * (1 / get (hn_x_scale n ho) i) * dt)).
  { unfold hn_computeRJ. change (tab n (fun k => (get ho k + get x k * get (hn_x_scale n ho) k)%num)) with h. destruct (sd h) as [s J]. cbn [snd].
    rewrite get2_tab2 by assumption. unfold hn_res_scale. rewrite get_tab by assumption. reflexivity. }
  rewrite EJ.
  assert (Dj : is_derive (fun t => get (fst (sd (with_entry h j t))) i) (get ho j + get x j * get (hn_x_scale n ho) j) (get2 n (snd (sd h)) i j)).
  { replace (get ho j + get x j * get (hn_x_scale n ho) j) with (get h j); [exact D|]. unfold h, hn_getHn. now rewrite get_tab by assumption. }
  destruct (Nat.eqb i j) eqn:EIJ.
  - apply Nat.eqb_eq in EIJ. subst j.
    apply (is_derive_ext (fun t => (t * get (hn_x_scale n ho) i - get (fst (sd (with_entry h i (get ho i + t * get (hn_x_scale n ho) i)))) i * dt) * (1 / get (hn_x_scale n ho) i))).
    { intros t. rewrite EV, HH. rewrite (with_entry_upd x), get_upd_same by (rewrite HLx; assumption). reflexivity. }
    destruct (d_scaled_n (fun t => get (fst (sd (with_entry h i t))) i) (get ho i) (get (hn_x_scale n ho) i) (get (hn_x_scale n ho) i) dt (get x i) 0 (get2 n (snd (sd h)) i i)) as [_ G];
      [apply Rgt_not_eq; apply SP; assumption|exact Dj|].
    replace (get (hn_x_scale n ho) i / get (hn_x_scale n ho) i) with 1 in G; [exact G|]. symmetry. apply Rinv_r, Rgt_not_eq, SP. assumption.
  - apply Nat.eqb_neq in EIJ.
    apply (is_derive_ext (fun t => (get x i * get (hn_x_scale n ho) i - get (fst (sd (with_entry h j (get ho j + t * get (hn_x_scale n ho) j)))) i * dt) * (1 / get (hn_x_scale n ho) i))).
    { intros t. rewrite EV, HH. rewrite (with_entry_upd x), get_upd_other by (congruence || (rewrite HLx; assumption)). reflexivity. }
    destruct (d_scaled_n (fun t => get (fst (sd (with_entry h j t))) i) (get ho j) (get (hn_x_scale n ho) j) (get (hn_x_scale n ho) i) dt (get x j) (get x i * get (hn_x_scale n ho) i) (get2 n (snd (sd h)) i j)) as [G _];
      [apply Rgt_not_eq; apply SP; assumption|exact Dj|exact G].
Qed.
