(** Proofs about the hardness update with several strengths. *)
From Coq Require Import String List ZArith Bool Lia Reals Lra FunctionalExtensionality.
From Coquelicot Require Import Coquelicot.
From Verif Require Import Num Arr NumR Util SlipGeom Eos Hard KinVoce Elast Evptn MatModel Cases SpecKin SpecAniso KinAniso P_KinV P_Hard P_Sngl.
Import ListNotations.
Local Open Scope R_scope.

Lemma hn_scale n (ho : list R) i : (i < n)%nat -> get (hn_x_scale n ho) i = Rmax (get ho i) 1.
Proof. intros H. unfold hn_x_scale. now rewrite get_tab. Qed.
Lemma hn_residual n (sd : SdotN R) ho dt x i : (i < n)%nat -> let h := hn_getHn n ho x in
  get (fst (hn_computeRJ n sd ho dt x)) i = (get h i - get ho i - dt * get (fst (sd h)) i) / Rmax (get ho i) 1.
Proof.
  intros Hi h. unfold hn_computeRJ. change (tab n (fun k => (get ho k + get x k * get (hn_x_scale n ho) k)%num)) with h.
  destruct (sd h) as [s J]. cbn [fst]. rewrite get_tab by assumption. unfold hn_res_scale. rewrite get_tab, hn_scale by assumption.
  unfold h, hn_getHn. rewrite get_tab, hn_scale by assumption. rops. unfold Rdiv. ring.
Qed.
Lemma updateHN_spec (hs : Solver R) n sd ho dt h nf : updateHN hs n sd ho dt = Some (h, nf) -> accurate hs ->
  implicit_step_n n (fun h => fst (sd h)) dt ho h.
Proof.
  intros H HA. unfold updateHN in H.
  destruct (so_converged (hs n (hn_computeRJ n sd ho dt) (nlit 1 (-10)) 100%nat (tab n (fun _ => nZ 0)))) eqn:E; [|discriminate].
  apply some_pair in H. destruct H as [<- _]. split; [unfold hn_getHn; apply tab_length|]. intros i Hi.
  pose proof (HA _ _ _ _ _ E i Hi) as B.
  generalize dependent (so_x (hs n (hn_computeRJ n sd ho dt) (nlit 1 (-10)) 100%nat (tab n (fun _ => nZ 0)))). intros x B.
  change (nth i (fst (hn_computeRJ n sd ho dt x)) 0) with (get (fst (hn_computeRJ n sd ho dt x)) i) in B.
  rewrite (hn_residual n sd ho dt x i Hi) in B. rewrite lit_tol10 in B.
  assert (P : 0 < Rmax (get ho i) 1) by (pose proof (Rmax_r (get ho i) 1); lra).
  unfold Rdiv in B. rewrite Rabs_mult, (Rabs_right (/ Rmax (get ho i) 1)) in B by (left; now apply Rinv_0_lt_compat).
  apply (Rmult_le_compat_r (Rmax (get ho i) 1)) in B; [|lra]. rewrite Rmult_assoc, Rinv_l, Rmult_1_r in B by lra.
  refine (eq_ind _ (fun y => Rabs y <= _) B _ _). unfold get. cbn [zero]. rops. ring.
Qed.
(** one strength: the scalar update *)
Lemma hn_one (sd : Sdot1 R) ho dt x : 
  hn_computeRJ 1 (fun h => let '(s, d) := sd (get h 0) in ([s], [d])) [ho] dt x = h1_computeRJ sd ho dt x.
Proof.
  pose proof (h1_scale_pos ho) as PS.
  unfold hn_computeRJ, h1_computeRJ. cbv zeta. set (h := tab 1 _). set (y := (ho + get x 0 * h1_x_scale ho)%num).
  assert (EH : get h 0 = y) by reflexivity. rewrite EH. destruct (sd y) as [s d].
  f_equal. unfold tab2, tab. change (get (hn_x_scale 1 [ho]) 0) with (h1_x_scale ho). cbn. f_equal.
  change (Rmax ho 1) with (h1_x_scale ho). field. lra.
Qed.
Lemma updateHN_one hs (sd : Sdot1 R) ho dt :
  updateHN hs 1 (fun h => let '(s, d) := sd (get h 0) in ([s], [d])) [ho] dt =
  match updateH1 hs sd ho dt with Some (h, n) => Some ([h], n) | None => None end.
Proof.
  unfold updateHN, updateH1.
  replace (hn_computeRJ 1 (fun h : list R => let '(s, d) := sd (get h 0) in ([s], [d])) [ho] dt) with (h1_computeRJ sd ho dt)
    by (apply functional_extensionality; intros x; symmetry; apply hn_one).
  change (tab 1 (fun _ : nat => nZ 0)) with [nZ 0 : R]. set (r := hs _ _ _ _ _). destruct (so_converged r); reflexivity.
Qed.

(** ** the class *)
Section An.
  Variables (nl : bool) (n : nat) (P : list R).
  Let a := aniso_setParams nl n P.
  Variable g : list R.
  Hypothesis HL : length g = n.
  Let k := if nl then 1%nat else 0%nat.
  Hypothesis HG : 0 < nth (6 + n + k) P 0.
  Let shr := shear_sum g.

  Lemma an_evol : aniso_getEvolVals a g = (shr, an_sat nl n P shr).
  Proof.
    assert (E : aniso_getEvolVals a g = voce_getEvolVals (an_v a) n g) by reflexivity.
    rewrite E, (voce_evol (an_v a) n g HL).
    - f_equal. unfold an_sat, a, aniso_setParams. cbn [an_v v_taus0 v_gamss0 v_xms]. unfold get. destruct nl; cbn [Nat.add].
      + replace (n + 1)%nat with (S n) by lia. reflexivity.
      + replace (n + 0)%nat with n by lia. reflexivity.
    - unfold a, aniso_setParams. cbn [an_v v_gamss0]. unfold get. unfold k in HG. destruct nl; cbn [Nat.add] in *.
      + replace (n + 1)%nat with (S n) in HG by lia. exact HG.
      + replace (n + 0)%nat with n in HG by lia. exact HG.
  Qed.
  Lemma an_tausi_at i : (i < n)%nat -> get (an_tausi a) i = nth (4 + i) P 0.
  Proof. intros Hi. unfold a, aniso_setParams. cbn [an_tausi]. now rewrite get_sub by assumption. Qed.
  Lemma an_len h : length (fst (aniso_getSdotN a (shr, an_sat nl n P shr) h)) = n.
  Proof. unfold aniso_getSdotN. destruct (v_nonlinear _); cbn [fst]; apply tab_length. Qed.
  (** entries of the rates and of their derivatives are those of the scalar law with the constants of the system *)
  Definition as_voce (i : nat) : Voce R := 
    {| v_nonlinear := nl; v_mu := v_mu (an_v a); v_xm := v_xm (an_v a); v_gam_w := v_gam_w (an_v a); v_t_max := v_t_max (an_v a); v_t_min := v_t_min (an_v a);
       v_xn := v_xn (an_v a); v_xnn := v_xnn (an_v a); v_h0 := v_h0 (an_v a); v_tausi := nth (4 + i) P 0; v_taus0 := v_taus0 (an_v a);
       v_xms := v_xms (an_v a); v_gamss0 := v_gamss0 (an_v a); v_xmprime := v_xmprime (an_v a); v_xmprime1 := v_xmprime1 (an_v a); v_hdn_init := v_hdn_init (an_v a) |}.
  Lemma an_sdot ev h i : (i < n)%nat -> get (fst (aniso_getSdotN a ev h)) i = fst (voce_getSdot1 (as_voce i) ev (get h i)).
  Proof.
    intros Hi. destruct ev as [sh sat]. unfold aniso_getSdotN, voce_getSdot1.
    change (v_nonlinear (as_voce i)) with (v_nonlinear (an_v a)). change (v_tausi (as_voce i)) with (nth (4 + i) P 0).
    case (v_nonlinear (an_v a)); cbn [fst]; change (an_n a) with n; rewrite get_tab by assumption; rewrite an_tausi_at by assumption; reflexivity.
  Qed.
  Lemma an_dsdot ev h i j : (i < n)%nat -> (j < n)%nat ->
    get2 n (snd (aniso_getSdotN a ev h)) i j = if Nat.eqb i j then snd (voce_getSdot1 (as_voce i) ev (get h i)) else 0.
  Proof.
    intros Hi Hj. destruct ev as [sh sat]. unfold aniso_getSdotN, voce_getSdot1.
    change (v_nonlinear (as_voce i)) with (v_nonlinear (an_v a)). change (v_tausi (as_voce i)) with (nth (4 + i) P 0).
    case (v_nonlinear (an_v a)); cbn [snd]; change (an_n a) with n; rewrite get2_tab2 by assumption; rewrite an_tausi_at by assumption; destruct (Nat.eqb i j); reflexivity.
  Qed.

  Variables (hs : Solver R) (ho : list R) (dt : R) (h : list R) (nf : nat).
  Hypothesis HA : accurate hs.
  Hypothesis HU : aniso_updateH hs a ho dt g = Some (h, nf).
  Lemma an_step : length h = n /\ forall i, (i < n)%nat ->
    Rabs (Fi (fun y => fst (voce_getSdot1 (as_voce i) (shr, an_sat nl n P shr) y)) dt (nth i ho 0) (nth i h 0)) <= / 10 ^ 10 * Rmax (nth i ho 0) 1.
  Proof.
    unfold aniso_updateH in HU. rewrite an_evol in HU. change (an_n a) with n in HU.
    destruct (updateHN hs n (aniso_getSdotN a (shr, an_sat nl n P shr)) ho dt) as [[h' nf']|] eqn:E; [|discriminate].
    apply some_pair in HU. destruct HU as [<- _].
    destruct (updateHN_spec _ _ _ _ _ _ _ E HA) as [L B]. rewrite <- (list_tab h' n L). split; [assumption|]. intros i Hi. specialize (B i Hi).
    refine (eq_ind _ (fun y => Rabs y <= _) B _ _). 
    change (nth i (fst (aniso_getSdotN a (shr, an_sat nl n P shr) h')) 0) with (get (fst (aniso_getSdotN a (shr, an_sat nl n P shr) h')) i).
    rewrite an_sdot by assumption. unfold Fi. change (get h' i) with (nth i h' 0). ring.
  Qed.
End An.

Section AnLin.
  Variables (n : nat) (P g : list R) (hs : Solver R) (ho : list R) (dt : R) (h : list R) (nf : nat).
  Hypotheses (HL : length g = n) (HG : 0 < nth (6 + n) P 0) (HA : accurate hs) (Hdt : 0 <= dt) (H0 : 0 <= nth 3 P 0).
  Hypothesis HU : aniso_updateH hs (aniso_setParams false n P) ho dt g = Some (h, nf).
  Let shr := shear_sum g.
  Lemma an_HG : 0 < nth (6 + n + 0) P 0.
  Proof. now rewrite Nat.add_0_r. Qed.
  Lemma an_lin i : (i < n)%nat -> Rabs (Fi (an_rate n P shr i) dt (nth i ho 0) (nth i h 0)) <= / 10 ^ 10 * Rmax (nth i ho 0) 1.
  Proof.
    intros Hi. pose proof (proj2 (an_step false n P g HL an_HG hs ho dt h nf HA HU) i Hi) as B.
    refine (eq_ind _ (fun y => Rabs y <= _) B _ _). unfold Fi. f_equal. f_equal. rewrite voce_sdot by reflexivity. reflexivity.
  Qed.
  Lemma an_lin_near i : (i < n)%nat -> exists e,
    implicit_step (an_rate n P shr i) dt (nth i ho 0) e /\
    (forall e', implicit_step (an_rate n P shr i) dt (nth i ho 0) e' -> e' = e) /\
    Rmin (nth i ho 0) (an_sat false n P shr) <= e <= Rmax (nth i ho 0) (an_sat false n P shr) /\
    Rabs (nth i h 0 - e) <= / 10 ^ 10 * Rmax (nth i ho 0) 1.
  Proof.
    intros Hi. assert (PS : 0 <= shr) by apply shear_nonneg.
    assert (MO : forall x y, x <= y -> an_rate n P shr i y <= an_rate n P shr i x) by (intros x y Hxy; now apply voce_mono).
    destruct (Fi_exists _ _ Hdt MO (nth i ho 0) (voce_cont _ _ _ _)) as [e He]. exists e.
    refine (conj He (conj _ (conj _ _))).
    - intros h' Hh'. exact (Fi_unique _ _ Hdt MO _ h' e Hh' He).
    - apply (Fi_between _ _ Hdt MO _ _ e); [apply voce_at_sat|exact He].
    - pose proof (an_lin i Hi) as B. pose proof (Fi_near _ _ Hdt MO (nth i ho 0) (nth i h 0) e) as N.
      assert (Z : Fi (an_rate n P shr i) dt (nth i ho 0) e = 0) by (unfold Fi; unfold implicit_step in He; lra).
      rewrite Z, Rminus_0_r in N. lra.
  Qed.
  Lemma an_lin_noslip i : (i < n)%nat -> shr = 0 -> Rabs (nth i h 0 - nth i ho 0) <= / 10 ^ 10 * Rmax (nth i ho 0) 1.
  Proof.
    intros Hi HZ. pose proof (an_lin i Hi) as B. rewrite HZ in B. refine (eq_ind _ (fun x => Rabs x <= _) B _ _).
    unfold Fi, an_rate, voce_hardening. destruct Rle_dec; ring.
  Qed.
End AnLin.
Section AnNl.
  Variables (n : nat) (P g : list R) (hs : Solver R) (ho : list R) (dt : R) (h : list R) (nf : nat).
  Hypotheses (HL : length g = n) (HG : 0 < nth (7 + n) P 0) (HA : accurate hs) (Hdt : 0 <= dt) (H0 : 0 <= nth 3 P 0) (Hm : 0 < nth (5 + n) P 0).
  Hypothesis HU : aniso_updateH hs (aniso_setParams true n P) ho dt g = Some (h, nf).
  Let shr := shear_sum g.
  Let sat := an_sat true n P shr.
  Lemma an_nl_near i : (i < n)%nat -> nth (4 + i) P 0 < sat -> nth i ho 0 < sat -> exists e,
    implicit_step (an_rate_nl n P shr i) dt (nth i ho 0) e /\ nth i ho 0 <= e < sat /\
    (forall e', e' < sat -> implicit_step (an_rate_nl n P shr i) dt (nth i ho 0) e' -> e' = e) /\
    (nth i h 0 < sat -> Rabs (nth i h 0 - e) <= / 10 ^ 10 * Rmax (nth i ho 0) 1).
  Proof.
    intros Hi HT HS. assert (PS : 0 <= shr) by apply shear_nonneg.
    destruct (voce_nl_exists (nth 3 P 0) (nth (4 + i) P 0) sat (nth (5 + n) P 0) shr dt (nth i ho 0) H0 PS Hm HT Hdt HS) as (e & [L1 L2] & He).
    exists e. refine (conj He (conj (conj L1 L2) (conj _ _))).
    - intros h' H' Hh'. exact (voce_nl_unique _ _ _ _ _ _ _ H0 PS (Rlt_le _ _ Hm) HT Hdt h' e H' L2 Hh' He).
    - intros HN. assert (G1 : 0 < nth (6 + n + 1) P 0) by (replace (6 + n + 1)%nat with (7 + n)%nat by lia; assumption).
      pose proof (proj2 (an_step true n P g HL G1 hs ho dt h nf HA HU) i Hi) as B.
      apply Rle_trans with (2 := B).
      refine (Rle_trans _ _ _ (voce_nl_near _ _ _ _ _ _ _ H0 PS (Rlt_le _ _ Hm) HT Hdt _ e HN L2 He) _). apply Req_le. f_equal.
      unfold Fi. f_equal. f_equal. rewrite voce_sdot_nl; [|reflexivity|reflexivity|exact HT|exact HN]. reflexivity.
  Qed.
End AnNl.

(** ** Jacobian of the linear law *)
Lemma an_jacobian (nl : bool) n (P g ho : list R) (dt : R) x i j : length g = n -> 0 < nth (6 + n + (if nl then 1 else 0))%nat P 0 -> length ho = n -> length x = n -> (i < n)%nat -> (j < n)%nat ->
  (nl = true -> forall k, (k < n)%nat -> nth (4 + k) P 0 < an_sat nl n P (shear_sum g) /\ nth k ho 0 + nth k x 0 * Rmax (nth k ho 0) 1 < an_sat nl n P (shear_sum g)) ->
  let a := aniso_setParams nl n P in let sd := aniso_getSdotN a (aniso_getEvolVals a g) in
  is_derive (fun t : R => get (fst (hn_computeRJ n sd ho dt (with_entry x j t))) i) (get x j) (get2 n (snd (hn_computeRJ n sd ho dt x)) i j).
Proof.
  intros HL HG L1 L2 Hi Hj HN a sd. apply hn_jacobian; try assumption. set (h := hn_getHn n ho x).
  assert (LH : length h = n) by apply tab_length.
  unfold sd, a. rewrite (an_evol nl n P g HL HG). set (ev := (shear_sum g, an_sat nl n P (shear_sum g))).
  unfold a. rewrite (an_dsdot nl n P ev h i j Hi Hj).
  destruct (Nat.eqb i j) eqn:E.
  - apply Nat.eqb_eq in E. subst j.
    apply (is_derive_ext (fun t => fst (voce_getSdot1 (as_voce nl n P i) ev t))).
    { intros t. unfold a. rewrite (an_sdot nl n P ev _ i Hi). now rewrite with_entry_upd, get_upd_same by (rewrite LH; assumption). }
    assert (GH : get h i = nth i ho 0 + nth i x 0 * Rmax (nth i ho 0) 1).
    { unfold h, hn_getHn. rewrite get_tab, hn_scale by assumption. reflexivity. }
    unfold ev. destruct nl.
    + destruct (HN eq_refl i Hi) as [A B]. apply d_voce_nl; [reflexivity|reflexivity|exact A|rewrite GH; exact B].
    + now apply d_voce_lin.
  - apply Nat.eqb_neq in E. apply (is_derive_ext (fun _ => fst (voce_getSdot1 (as_voce nl n P i) ev (get h i)))).
    { intros t. unfold a. rewrite (an_sdot nl n P ev _ i Hi). now rewrite with_entry_upd, get_upd_other by (congruence || (rewrite LH; assumption)). }
    apply (is_derive_const (V := R_NormedModule)).
Qed.
Lemma an_jac_entries n P g ho (dt : R) x i j : length g = n -> 0 < nth (6 + n) P 0 -> 0 <= nth 3 P 0 -> 0 <= dt -> (i < n)%nat -> (j < n)%nat ->
  let a := aniso_setParams false n P in let sd := aniso_getSdotN a (aniso_getEvolVals a g) in
  let J := get2 n (snd (hn_computeRJ n sd ho dt x)) i j in (i <> j -> J = 0) /\ (i = j -> 1 <= J).
Proof.
  intros HL HG H0 HD Hi Hj a sd J. assert (HG' : 0 < nth (6 + n + 0) P 0) by now rewrite Nat.add_0_r.
  unfold J, hn_computeRJ. set (h := tab n _). 
  assert (ED : get2 n (snd (sd h)) i j = if Nat.eqb i j then snd (voce_getSdot1 (as_voce false n P i) (shear_sum g, an_sat false n P (shear_sum g)) (get h i)) else 0).
  { unfold sd, a. rewrite (an_evol false n P g HL HG'). now apply an_dsdot. }
  destruct (sd h) as [s K] eqn:ES. cbn [snd] in *. rewrite get2_tab2 by assumption. rewrite ED.
  destruct (Nat.eqb i j) eqn:E.
  - apply Nat.eqb_eq in E. subst j. split; [congruence|intros _]. rewrite voce_sdot by reflexivity. cbn [snd].
    unfold hn_res_scale. rewrite get_tab, hn_scale by assumption. change (v_tausi (as_voce false n P i)) with (nth (4 + i) P 0).
    change (v_h0 (as_voce false n P i)) with (nth 3 P 0). set (sat := an_sat _ _ _ _).
    assert (PM : 0 < Rmax (get ho i) 1) by (pose proof (Rmax_r (get ho i) 1); lra).
    pose proof (shear_nonneg g) as PS. rops. destruct Rle_dec as [A|A]; [lra|].
    assert (I : 0 < / (sat - nth (4 + i) P 0)) by (apply Rinv_0_lt_compat; lra).
    replace (- (nth 3 P 0 / (sat - nth (4 + i) P 0) * shear_sum g) * (- Rmax (get ho i) 1 * (1 / Rmax (get ho i) 1) * dt) + 1)
      with (1 + nth 3 P 0 * / (sat - nth (4 + i) P 0) * shear_sum g * dt) by (field; split; lra).
    assert (0 <= nth 3 P 0 * / (sat - nth (4 + i) P 0) * shear_sum g * dt); [|lra].
    apply Rmult_le_pos; [|assumption]. apply Rmult_le_pos; [|assumption]. apply Rmult_le_pos; lra.
  - apply Nat.eqb_neq in E. split; [intros _|congruence]. rops. ring.
Qed.

(** ** slip rates *)
Lemma an_rates nl n P vals tau i : (i < n)%nat -> 0 < nth i vals 0 -> 0 <= nth 2 P 0 ->
  get (fst (fst (aniso_evalGdots (aniso_setParams nl n P) tau vals))) i = voce_law (nth 2 P 0) (nth 1 P 0) (nth i vals 0) (nth i tau 0).
Proof.
  intros Hi Hg Hw. unfold aniso_evalGdots. cbn [fst]. change (an_n (aniso_setParams nl n P)) with n. rewrite get_tab by assumption.
  destruct (voce_set nl P) as (A & B & C' & D & E).
  exact (gdot_law (an_v (aniso_setParams nl n P)) _ _ A B C' D E (nth i vals 0) (nth i tau 0) Hg Hw).
Qed.

(** ** parameters *)
Lemma an_getset n P : length P = (8 + n)%nat -> aniso_getParams (aniso_setParams false n P) = P.
Proof.
  intros L. unfold aniso_getParams, aniso_setParams. cbn [an_v an_n an_tausi v_mu v_xm v_gam_w v_h0 v_taus0 v_xms v_gamss0 v_hdn_init].
  apply list_get_ext.
  - rewrite !app_length, tab_length. cbn [length]. lia.
  - intros k Hk. rewrite !app_length, tab_length in Hk. cbn [length] in Hk. unfold get at 1.
    destruct (Nat.lt_ge_cases k 4) as [A|A].
    { rewrite app_nth1 by (cbn; lia). destruct k as [|[|[|[|k]]]]; try lia; reflexivity. }
    rewrite app_nth2 by (cbn; lia). cbn [length].
    destruct (Nat.lt_ge_cases (k - 4) n) as [B|B].
    { rewrite app_nth1 by (rewrite tab_length; lia). change (nth (k - 4) (tab n (get (sub P 4 n))) nundef) with (get (tab n (get (sub P 4 n))) (k - 4)).
      rewrite get_tab, get_sub by assumption. f_equal. lia. }
    rewrite app_nth2 by (rewrite tab_length; lia). rewrite tab_length. 
    assert (k = 4 + n \/ k = 5 + n \/ k = 6 + n \/ k = 7 + n)%nat as [ -> | [ -> | [ -> | -> ]]] by lia.
    + replace (4 + n - 4 - n)%nat with 0%nat by lia. reflexivity.
    + replace (5 + n - 4 - n)%nat with 1%nat by lia. reflexivity.
    + replace (6 + n - 4 - n)%nat with 2%nat by lia. reflexivity.
    + replace (7 + n - 4 - n)%nat with 3%nat by lia. reflexivity.
Qed.

(** ** in the update of one material point *)
Lemma an_shapes hs nl n P : kin_shapes (aniso_kinetics hs (aniso_setParams nl n P)) n.
Proof.
  split.
  - intros ho dt g h nf E. cbn [aniso_kinetics k_updateH k_nH] in *. unfold aniso_updateH in E.
    destruct (updateHN _ _ _ _ _) as [[h' m]|]; [|discriminate]. apply some_pair in E. destruct E as [<- _]. apply tab_length.
  - intros. cbn [aniso_kinetics k_evalGdots]. unfold aniso_evalGdots. cbn [fst]. apply tab_length.
Qed.
Lemma an_point solver lu m dt tol d w vr pt pt' hs nl n P :
  m_kin m = aniso_kinetics hs (aniso_setParams nl n P) -> sg_nslip (m_sg m) = n -> pt_shapes m pt ->
  getResponseSngl solver lu m dt tol d w vr pt = (Done, pt') ->
  (exists nf, aniso_updateH hs (aniso_setParams nl n P) (sub (pt_hist pt) 13 n) dt (sub (pt_hist pt) (13 + n) n) = Some (sub (pt_hist pt') 13 n, nf)) /\
  (forall i, (i < n)%nat -> 0 < nth i (sub (pt_hist pt') 13 n) 0).
Proof.
  intros EK EN SH H.
  destruct (sngl_done solver lu m dt tol d w vr pt pt') as (h_u & v & nf & gm & Rs); [rewrite EK, EN; apply an_shapes|assumption|assumption|].
  cbv zeta in Rs. destruct (r_updH _ _ _ _ _ _ _ _ _ _ _ _ _ _ Rs) as [k EU]. pose proof (r_H _ _ _ _ _ _ _ _ _ _ _ _ _ _ Rs) as EH.
  pose proof (r_valsOk _ _ _ _ _ _ _ _ _ _ _ _ _ _ Rs) as EV. rewrite EK in EV. cbn [aniso_kinetics k_valsOk] in EV.
  rewrite EK, EN in EU. rewrite EK in EH. cbn [aniso_kinetics k_updateH k_nH] in EU, EH.
  change (iHistLbGdot (an_n (aniso_setParams nl n P))) with (13 + n)%nat in EU. change iHistLbH with 13%nat in EU, EH.
  change (an_n (aniso_setParams nl n P)) with n in EU, EH. rewrite EH. split; [exists k; exact EU|].
  intros i Hi. unfold aniso_valsOk in EV. rewrite forallb_forall in EV.
  specialize (EV i). cbn beta in EV. assert (IN : In i (seq 0 (an_n (aniso_setParams nl n P)))) by (apply in_seq; cbn; lia).
  apply EV in IN. apply Rltb_true in IN. exact IN.
Qed.
(** ** in a material model *)
Lemma an_init hs nl c s opts pars strs : (2 <= c_nslip c)%nat -> fst (mm_init (aniso_class hs nl c) s opts pars strs) <> Done.
Proof.
  intros H. unfold mm_init. cbv zeta.
  destruct (negb _); [cbn; discriminate|]. destruct (negb _); [cbn; discriminate|]. destruct (Nat.ltb 1 _); [cbn; discriminate|].
  destruct (c_sgSet _ _); [|cbn; discriminate]. cbn [c_kinSet aniso_class]. cbv zeta.
  destruct (el_getBulkMod _); [|cbn; discriminate]. unfold eos_getInfo.
  match goal with |- context[negb (Nat.eqb ?x ?y)] => assert (E : Nat.eqb x y = false) end.
  { apply Nat.eqb_neq. unfold mm_histInfo, aniso_histInfo. rewrite !app_length, !map_length, !seq_length. cbn [length c_nslip aniso_class].
    unfold mm_numHist, numHist. cbn [c_nH c_nslip aniso_class]. unfold iHistLbGdot, iHistLbH. cbn -[Nat.add]. lia. }
  rewrite E. cbn. discriminate.
Qed.

Lemma sum_bounds n (f : nat -> R) lo hi : (forall i, (i < n)%nat -> lo <= f i <= hi) -> lo * INR n <= sum n f <= hi * INR n.
Proof.
  induction n as [|n IH]; intros H; [cbn; lra|]. rewrite sum_S_R, S_INR. pose proof (H n (Nat.lt_succ_diag_r n)).
  specialize (IH (fun i Hi => H i (Nat.lt_lt_succ_r _ _ Hi))). lra.
Qed.
Lemma an_scale hs nl n P p tK h : (0 < n)%nat ->
  let sc := snd (k_getVals (aniso_kinetics hs (aniso_setParams nl n P)) p tK h) in
  sc * INR n = fold_right Rplus 0 (map (fun i => nth i h 0) (seq 0 n)) /\
  forall lo hi, (forall i, (i < n)%nat -> lo <= nth i h 0 <= hi) -> lo <= sc <= hi.
Proof.
  intros Hn sc. assert (PN : 0 < INR n) by now apply lt_0_INR.
  assert (E : sc * INR n = sum n (fun i => nth i h 0)).
  { unfold sc, aniso_kinetics, aniso_getVals, aniso_setParams. cbn [k_getVals snd an_n]. rops. rewrite <- INR_IZR_INZ.
    change (sum n (fun i => nth i h 0)) with (sum n (get h)). unfold Rdiv. rewrite Rmult_assoc, Rinv_l, Rmult_1_r by lra. reflexivity. }
  split; [rewrite E; apply sum_fold|]. intros lo hi H. pose proof (sum_bounds n (fun i => nth i h 0) lo hi H). rewrite <- E in H0.
  split; apply (Rmult_le_reg_r (INR n)); lra.
Qed.
Lemma an_info hs nl c P : length P = aniso_nParams nl (c_nslip c) ->
  option_map snd (c_kinSet (aniso_class hs nl c) P) = Some [("h"%string, last P 0, true, true)].
Proof.
  intros L. unfold aniso_class, aniso_histInfo. cbn [c_kinSet option_map snd]. do 2 f_equal.
  unfold aniso_setParams. cbn [an_v v_hdn_init]. f_equal. f_equal. f_equal.
  destruct (exists_last (l := P)) as (l & x & ->); [intros ->; destruct nl; cbn in L; lia|]. rewrite last_last.
  rewrite app_length in L. cbn [length] in L. unfold get, aniso_nParams in *. rewrite app_nth2 by (destruct nl; lia).
  match goal with |- nth ?k _ _ = _ => replace k with 0%nat by (destruct nl; lia) end. reflexivity.
Qed.
Lemma an_info8 hs nl c P : c_kinNP (aniso_class hs nl c) = (8 + c_nslip c + if nl then 1 else 0)%nat /\
  (length P = (8 + c_nslip c + if nl then 1 else 0)%nat -> option_map snd (c_kinSet (aniso_class hs nl c) P) = Some [("h"%string, last P 0, true, true)]).
Proof. split; [reflexivity|]. intros L. apply an_info. exact L. Qed.
