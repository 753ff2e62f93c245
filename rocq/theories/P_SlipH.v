(** Slip-system geometry of hexagonal crystals, for every positive c/a. *)
From Coq Require Import List ZArith Bool Reals Lra Lia.
From Verif Require Import Num Arr NumR Util SlipGeom SpecTensor SpecSlip P_Tensor P_Slip.
Import ListNotations.
Local Open Scope R_scope.

Lemma hexnrm_xyz ca h k l : hexnrm ca (h, k, (- h - k)%Z, l) =
  mkV (IZR h) (s3 / 3 * (IZR h + 2 * IZR k)) (IZR l / ca).
Proof.
  unfold hexnrm, addv, lin3, ha1, ha2, ha3. cbn [v0 v1 v2]. rewrite !minus_IZR, !opp_IZR.
  change (sqrt 3) with s3. meq; [field|field|unfold Rdiv; ring].
Qed.
Lemma hexdir_xyz ca h k l : hexdir ca (h, k, (- h - k)%Z, l) =
  mkV (3 / 2 * IZR h) (s3 / 2 * (IZR h + 2 * IZR k)) (IZR l * ca).
Proof.
  unfold hexdir, addv, lin3, ha1, ha2, ha3. cbn [v0 v1 v2]. rewrite !minus_IZR, !opp_IZR.
  change (sqrt 3) with s3. meq; field.
Qed.
Lemma hexOK_form p : hexOK p -> exists h k l, p = (h, k, (- h - k)%Z, l).
Proof. destruct p as [[[h k] i] l]. unfold hexOK. intros H. exists h, k, l. repeat f_equal. lia. Qed.

Lemma hexnrm_sq ca p : hexOK p -> dotv (hexnrm ca p) (hexnrm ca p) = 2 / 3 * IZR (hk2 p) + IZR (idx4 p) / ca * (IZR (idx4 p) / ca).
Proof.
  intros H. destruct (hexOK_form p H) as (h & k & l & ->). rewrite hexnrm_xyz. unfold dotv, hk2, idx4. cbn [v0 v1 v2].
  rewrite !plus_IZR, !mult_IZR, !minus_IZR, !opp_IZR. unfold Rdiv. set (u := / ca).
  pose proof s3_sq as S. ring_simplify. replace (s3 ^ 2) with 3 by (rewrite <- S; ring). field.
Qed.
Lemma hexdir_sq ca p : hexOK p -> dotv (hexdir ca p) (hexdir ca p) = 3 / 2 * IZR (hk2 p) + IZR (idx4 p) * ca * (IZR (idx4 p) * ca).
Proof.
  intros H. destruct (hexOK_form p H) as (h & k & l & ->). rewrite hexdir_xyz. unfold dotv, hk2, idx4. cbn [v0 v1 v2].
  rewrite !plus_IZR, !mult_IZR, !minus_IZR, !opp_IZR. unfold Rdiv.
  pose proof s3_sq as S. ring_simplify. replace (s3 ^ 2) with 3 by (rewrite <- S; ring). field.
Qed.

Lemma normalize_unit x : vecsVNormalize 3 (ofV3 x) = ofV3 (unitv x).
Proof.
  unfold vecsVNormalize, vecsVsa. rewrite vecNorm3. cbn [nZ ndiv RNum]. set (n := norm3 x).
  unfold unitv. fold n. clearbody n. destruct x as [x y z]. spec. rarr. unfold Rdiv. rewrite Rmult_1_l. meq; ring.
Qed.
Lemma norm3_scale k x : 0 <= k -> norm3 (mkV (k * v0 x) (k * v1 x) (k * v2 x)) = k * norm3 x.
Proof.
  intros H. unfold norm3. rewrite <- (sqrt_square k H) at 7. rewrite <- sqrt_mult.
  - f_equal. unfold dotv. cbn [v0 v1 v2]. ring.
  - nra.
  - apply dotv_nonneg.
Qed.
Lemma unitv_scale k x : 0 < k -> 0 < norm3 x -> unitv (mkV (k * v0 x) (k * v1 x) (k * v2 x)) = unitv x.
Proof.
  intros H Hx. unfold unitv at 1. rewrite norm3_scale by lra. cbn [v0 v1 v2]. unfold unitv.
  set (n := norm3 x) in *. clearbody n. meq; field; lra.
Qed.

Definition pA : Z4i := (1, 0, -1, 1)%Z.
Definition ann1 : list R := [1; 0; -1; 1].
Lemma hexnrm_pos ca p : 0 < ca -> hexOK p -> (hk2 p <> 0 \/ idx4 p <> 0)%Z -> 0 < norm3 (hexnrm ca p).
Proof.
  intros Hc Hp H. apply norm3_pos. rewrite hexnrm_sq by assumption.
  assert (A : (0 <= hk2 p)%Z) by (destruct p as [[[a b] c] d]; unfold hk2; nia).
  apply IZR_le in A. set (t := IZR (idx4 p) / ca). assert (0 <= t * t) by nra.
  destruct H as [H|H].
  - assert (0 < IZR (hk2 p)) by (apply IZR_lt; apply le_IZR in A; lia). nra.
  - assert (t <> 0). { unfold t. intros E. apply not_0_IZR in H. apply H. unfold Rdiv in E.
      apply Rmult_integral in E. destruct E as [E|E]; [assumption|]. apply Rinv_neq_0_compat in E; [easy|lra]. }
    nra.
Qed.
Lemma hexdir_pos ca p : 0 < ca -> hexOK p -> (hk2 p <> 0)%Z -> 0 < norm3 (hexdir ca p).
Proof.
  intros Hc Hp H. apply norm3_pos. rewrite hexdir_sq by assumption.
  assert (A : (0 < hk2 p)%Z) by (destruct p as [[[a b] c] d]; unfold hk2 in *; nia).
  apply IZR_lt in A. nra.
Qed.

Lemma miller_core ca abb d : 0 < ca -> hexOK d -> (hk2 d <> 0)%Z -> zdot4 pA d = 0%Z ->
  abb = (let '(u, v, t, w) := d in [IZR u; IZR v; IZR t; IZR w]) ->
  miller_to_orthog_sngl ann1 abb ca = Some (ofV3 (unitv (hexnrm ca pA)), ofV3 (unitv (hexdir ca d))).
Proof.
  intros Hc Hd Hz Hzz ->. unfold miller_to_orthog_sngl.
  pose proof eps_sqrt_pos as He. assert (He1 : (idp_eps_sqrt : R) < 1) by (unfold idp_eps_sqrt; cbn; lra).
  set (eps := (idp_eps_sqrt : R)) in *.
  assert (S1 : vecsssum 3 ann1 = 0) by (unfold vecsssum, ann1; rarr; lra).
  assert (S2 : vecsssum 3 (let '(u, v, t, w) := d in [IZR u; IZR v; IZR t; IZR w]) = 0).
  { destruct (hexOK_form d Hd) as (h & k & l & ->). unfold vecsssum; rarr. rewrite minus_IZR, opp_IZR. lra. }
  assert (S3 : vecsssumabs 3 ann1 = 2).
  { unfold vecsssumabs, ann1; rarr. rewrite Rabs_R1, Rabs_R0, Rabs_left by lra. lra. }
  rewrite S1, S2, S3. cbn [nabs nltb RNum]. rewrite Rabs_R0.
  assert (B1 : Rltb eps 0 = false) by (apply Rltb_false; lra). rewrite B1.
  assert (B2 : Rltb 2 eps = false) by (apply Rltb_false; lra). rewrite B2.
  change (get ann1 0) with 1. change (get ann1 1) with 0. change (get ann1 2) with (-1). change (get ann1 3) with 1.
  rewrite Rabs_R1, Rabs_R0.
  assert (B3 : Rltb 1 eps = false) by (apply Rltb_false; lra). rewrite !B3.
  assert (B4 : Rltb 0 eps = true) by (apply Rltb_true; lra). rewrite B4.
  assert (Dd : m_to_o_dir (let '(u, v, t, w) := d in [IZR u; IZR v; IZR t; IZR w]) ca = ofV3 (hexdir ca d)).
  { destruct (hexOK_form d Hd) as (h & k & l & ->). rewrite hexdir_xyz. unfold m_to_o_dir. spec. rarr.
    rewrite minus_IZR, opp_IZR. meq; field. }
  rewrite Dd, normalize_unit.
  set (vm := vecsVNormalize 3 _).
  assert (Vm : vm = ofV3 (oppv (unitv (hexnrm ca pA)))).
  { unfold vm. match goal with |- vecsVNormalize 3 ?x = _ => assert (E : x = ofV3 (oppv (mkV (s3 * ca / 2 * v0 (hexnrm ca pA)) (s3 * ca / 2 * v1 (hexnrm ca pA)) (s3 * ca / 2 * v2 (hexnrm ca pA))))) end.
    { change pA with (1, 0, (- 1 - 0), 1)%Z. rewrite hexnrm_xyz. unfold vecCrossProd, m_to_o_dir, oppv. clear - Hc. spec. rarr.
      pose proof s3_sq as S. meq; field_simplify_eq; try lra; ring [S]. }
    rewrite E, normalize_unit, unitv_opp. f_equal. f_equal. apply unitv_scale.
    - pose proof s3_pos. nra.
    - apply hexnrm_pos; [assumption|reflexivity|right; discriminate]. }
  rewrite Vm.
  assert (Hn : 0 < norm3 (hexnrm ca pA)) by (apply hexnrm_pos; [assumption|reflexivity|right; discriminate]).
  assert (G2 : get (ofV3 (oppv (unitv (hexnrm ca pA)))) 2 = - (/ norm3 (hexnrm ca pA) * / ca)).
  { unfold oppv, unitv. unfold ofV3, get. cbn [nth v0 v1 v2]. change pA with (1, 0, (- 1 - 0), 1)%Z at 2. rewrite hexnrm_xyz. cbn [v2]. unfold Rdiv. ring. }
  rewrite G2. cbn [nmul nZ RNum].
  assert (B5 : Rltb (- (/ norm3 (hexnrm ca pA) * / ca) * 1) 0 = true).
  { apply Rltb_true. apply Rinv_0_lt_compat in Hn. pose proof (Rinv_0_lt_compat _ Hc). nra. }
  rewrite B5.
  assert (E : tab 3 (fun i => nopp (get (ofV3 (oppv (unitv (hexnrm ca pA)))) i)) = ofV3 (unitv (hexnrm ca pA))).
  { generalize (unitv (hexnrm ca pA)). intros [x y z]. clear. unfold oppv. spec. rarr. meq; ring. }
  rewrite E. rewrite dot_model. rewrite unit_dot0.
  - rewrite Rabs_R0, B1. reflexivity.
  - rewrite zone_law; [now rewrite Hzz | lra | reflexivity | assumption].
Qed.

(** ** The rows of the tables *)
Definition xyz (c0 c1 c2 : R) (p : Z4i) : V3 :=
  let '(h, k, _, l) := p in mkV (c0 * IZR h) (c1 * (IZR h + 2 * IZR k)) (c2 * IZR l).
Definition Kp (ca : R) := / sqrt (4 / 3 + 1 / ca * (1 / ca)).
Definition Kd (ca : R) := / sqrt (9 + 3 * ca * (3 * ca)).
Lemma Kp_pos ca : 0 < ca -> 0 < Kp ca /\ Kp ca * Kp ca * (4 / 3 + 1 / ca * (1 / ca)) = 1.
Proof.
  intros H. unfold Kp. set (t := 4 / 3 + _). assert (0 < t) by (unfold t; nra).
  pose proof (sqrt_lt_R0 t H0). split; [now apply Rinv_0_lt_compat|]. rewrite <- (sqrt_sqrt t) at 3 by lra. field. lra.
Qed.
Lemma Kd_pos ca : 0 < ca -> 0 < Kd ca /\ Kd ca * Kd ca * (9 + 3 * ca * (3 * ca)) = 1.
Proof.
  intros H. unfold Kd. set (t := 9 + _). assert (0 < t) by (unfold t; nra).
  pose proof (sqrt_lt_R0 t H0). split; [now apply Rinv_0_lt_compat|]. rewrite <- (sqrt_sqrt t) at 3 by lra. field. lra.
Qed.

Lemma unrm ca p k : hexOK p -> / norm3 (hexnrm ca p) = k -> unitv (hexnrm ca p) = xyz k (k * s3 / 3) (k / ca) p.
Proof.
  intros H E. unfold unitv. rewrite E. destruct (hexOK_form p H) as (h & k' & l & ->). rewrite hexnrm_xyz. cbn [v0 v1 v2 xyz].
  unfold Rdiv. meq; ring.
Qed.
Lemma udir ca p k : hexOK p -> / norm3 (hexdir ca p) = k -> unitv (hexdir ca p) = xyz (k * 3 / 2) (k * s3 / 2) (k * ca) p.
Proof.
  intros H E. unfold unitv. rewrite E. destruct (hexOK_form p H) as (h & k' & l & ->). rewrite hexdir_xyz. cbn [v0 v1 v2 xyz].
  unfold Rdiv. meq; ring.
Qed.
Lemma nrm_pyr ca p : hexOK p -> hk2 p = 2%Z -> (idx4 p * idx4 p = 1)%Z -> / norm3 (hexnrm ca p) = Kp ca.
Proof.
  intros H H1 H2. unfold norm3, Kp. rewrite hexnrm_sq, H1 by assumption. do 2 f_equal. f_equal; [lra|].
  unfold Rdiv. replace (IZR (idx4 p) * / ca * (IZR (idx4 p) * / ca)) with (IZR (idx4 p) * IZR (idx4 p) * (/ ca * / ca)) by ring.
  rewrite <- mult_IZR, H2. ring.
Qed.
Lemma nrm_prism ca p : hexOK p -> hk2 p = 2%Z -> idx4 p = 0%Z -> / norm3 (hexnrm ca p) = s3 / 2.
Proof.
  intros H H1 H2. unfold norm3. rewrite hexnrm_sq, H1, H2 by assumption.
  pose proof s3_sq as S. pose proof s3_pos as P.
  replace (2 / 3 * 2 + 0 / ca * (0 / ca)) with (2 * / s3 * (2 * / s3)).
  - rewrite sqrt_square; [field; lra|]. apply Rmult_le_pos; [lra|]. apply Rlt_le, Rinv_0_lt_compat; lra.
  - unfold Rdiv. rewrite !Rmult_0_l, Rplus_0_r. replace (/ s3) with (s3 * / 3) by (field_simplify_eq; lra).
    replace (2 * (s3 * / 3) * (2 * (s3 * / 3))) with (4 * / 9 * (s3 * s3)) by field. rewrite S. lra.
Qed.
Lemma nrm_basal ca p : 0 < ca -> hexOK p -> hk2 p = 0%Z -> (idx4 p * idx4 p = 1)%Z -> / norm3 (hexnrm ca p) = ca.
Proof.
  intros Hc H H1 H2. unfold norm3. rewrite hexnrm_sq, H1 by assumption.
  replace (2 / 3 * 0 + _) with (/ ca * / ca).
  - rewrite sqrt_square; [field; lra|]. apply Rlt_le, Rinv_0_lt_compat; lra.
  - unfold Rdiv. replace (IZR (idx4 p) * / ca * (IZR (idx4 p) * / ca)) with (IZR (idx4 p) * IZR (idx4 p) * (/ ca * / ca)) by ring.
    rewrite <- mult_IZR, H2. ring.
Qed.
Lemma dir_a ca p : hexOK p -> hk2 p = 6%Z -> idx4 p = 0%Z -> / norm3 (hexdir ca p) = / 3.
Proof.
  intros H H1 H2. unfold norm3. rewrite hexdir_sq, H1, H2 by assumption.
  replace (3 / 2 * 6 + 0 * ca * (0 * ca)) with (3 * 3) by field. rewrite sqrt_square by lra. reflexivity.
Qed.
Lemma dir_ca ca p : hexOK p -> hk2 p = 6%Z -> (idx4 p * idx4 p = 9)%Z -> / norm3 (hexdir ca p) = Kd ca.
Proof.
  intros H H1 H2. unfold norm3, Kd. rewrite hexdir_sq, H1 by assumption. do 2 f_equal. f_equal; [lra|].
  replace (IZR (idx4 p) * ca * (IZR (idx4 p) * ca)) with (IZR (idx4 p) * IZR (idx4 p) * (ca * ca)) by ring.
  rewrite <- mult_IZR, H2. ring.
Qed.

Lemma hcp_tables_eq ca : 0 < ca ->
  hcp_tables ca = Some (
    hcp_m [Kp ca; Kp ca * s3 / 3; Kp ca / ca] (Kp ca * s3 * 2 / 3) [Kp ca; Kp ca * s3 / 3; Kp ca / ca] (Kp ca * s3 * 2 / 3),
    hcp_s [/ 2; - (s3 / 2); 0] [- (Kd ca * 3 / 2); - (Kd ca * s3 * 3 / 2); Kd ca * 3 * ca] (3 * Kd ca)).
Proof.
  intros Hc. unfold hcp_tables.
  assert (E1 : [one; zero; nopp one; one] = ann1). { unfold ann1. rops. meq; try reflexivity; try lra. }
  rewrite E1.
  rewrite (miller_core ca _ (1, -2, 1, 0)%Z Hc) by first [reflexivity | discriminate | (rops; meq; lra)].
  rewrite (miller_core ca _ (-1, -1, 2, 3)%Z Hc) by first [reflexivity | discriminate | (rops; meq; lra)].
  rewrite (unrm ca pA (Kp ca)) by first [reflexivity | now apply nrm_pyr].
  rewrite (udir ca (1, -2, 1, 0)%Z (/ 3)) by first [reflexivity | now apply dir_a].
  rewrite (udir ca (-1, -1, 2, 3)%Z (Kd ca)) by first [reflexivity | now apply dir_ca].
  destruct (Kp_pos ca Hc) as [P1 P2]. destruct (Kd_pos ca Hc) as [D1 D2].
  set (K := Kp ca) in *. set (D := Kd ca) in *. clearbody K D.
  pose proof s3_sq as S. pose proof s3_pos as SP.
  unfold pA, xyz, ofV3. cbn [v0 v1 v2]. unfold get. cbn [nth].
  cbn [nsqrt nsub nmul nZ RNum].
  assert (Q1 : sqrt (1 - K / ca * 1 * (K / ca * 1)) = K * s3 * 2 / 3).
  { replace (1 - K / ca * 1 * (K / ca * 1)) with (K * s3 * 2 / 3 * (K * s3 * 2 / 3)).
    - apply sqrt_square. assert (0 < K * s3) by nra. lra.
    - rewrite <- P2 at 1. replace (K * s3 * 2 / 3 * (K * s3 * 2 / 3)) with (K * K * 4 / 9 * (s3 * s3)) by field. rewrite S. field. lra. }
  assert (Q2 : sqrt (1 - D * ca * 3 * (D * ca * 3)) = 3 * D).
  { replace (1 - D * ca * 3 * (D * ca * 3)) with (3 * D * (3 * D)); [apply sqrt_square; lra|]. rewrite <- D2. ring. }
  rewrite Q1, Q2. f_equal. f_equal.
  - f_equal; meq; field; lra.
  - f_equal; meq; field.
Qed.

Ltac hexrow Hc :=
  match goal with
  | |- _ = ofV3 (unitv (hexnrm ?ca ?p)) =>
    let p' := eval vm_compute in p in change p with p';
    first [ rewrite (unrm ca p' (Kp ca)) by first [reflexivity | now apply nrm_pyr]
          | rewrite (unrm ca p' (s3 / 2)) by first [reflexivity | now apply nrm_prism]
          | rewrite (unrm ca p' ca) by first [reflexivity | now apply nrm_basal] ]
  | |- _ = ofV3 (unitv (hexdir ?ca ?p)) =>
    let p' := eval vm_compute in p in change p with p';
    first [ rewrite (udir ca p' (/ 3)) by first [reflexivity | now apply dir_a]
          | rewrite (udir ca p' (Kd ca)) by first [reflexivity | now apply dir_ca] ]
  end;
  unfold row3, hcp_m, hcp_s, xyz, ofV3; rarr; cbn [v0 v1 v2];
  let E := fresh in pose proof s3_sq as E; meq; first [reflexivity | (unfold Rdiv; ring) | (field; lra) | (field_simplify_eq; first [ring [E] | lra])].

Definition hcpM ca : list R :=
  hcp_m [Kp ca; Kp ca * s3 / 3; Kp ca / ca] (Kp ca * s3 * 2 / 3) [Kp ca; Kp ca * s3 / 3; Kp ca / ca] (Kp ca * s3 * 2 / 3).
Definition hcpS ca : list R :=
  hcp_s [/ 2; - (s3 / 2); 0] [- (Kd ca * 3 / 2); - (Kd ca * s3 * 3 / 2); Kd ca * 3 * ca] (3 * Kd ca).
Lemma hcp_m_rows ca : 0 < ca -> forall i, (i < 24)%nat ->
  row3 (hcpM ca) i = ofV3 (unitv (hexnrm ca (fst (nth i sys_hcp d4)))).
Proof. intros Hc. do 24 (apply forall_lt_S; [unfold hcpM; hexrow Hc|]). apply forall_lt_0. Qed.
Lemma hcp_s_rows ca : 0 < ca -> forall i, (i < 24)%nat ->
  row3 (hcpS ca) i = ofV3 (unitv (hexdir ca (snd (nth i sys_hcp d4)))).
Proof. intros Hc. do 24 (apply forall_lt_S; [unfold hcpS; hexrow Hc|]). apply forall_lt_0. Qed.

Definition hexOKb (p : Z4i) : bool := let '(h, k, i, _) := p in (h + k + i =? 0)%Z.
Lemma hexOKb_ok p : hexOKb p = true -> hexOK p.
Proof. destruct p as [[[a b] c] d]. unfold hexOKb, hexOK. apply Z.eqb_eq. Qed.
Definition sysok4 (p : Z4i * Z4i) : bool :=
  hexOKb (fst p) && hexOKb (snd p) && (zdot4 (fst p) (snd p) =? 0)%Z && negb (hk2 (snd p) =? 0)%Z
  && (negb (hk2 (fst p) =? 0)%Z || negb (idx4 (fst p) =? 0)%Z).
Definition diff4 (p q : Z4i * Z4i) : bool := negb (par4 (fst p) (fst q) && par4 (snd p) (snd q)).

Lemma legal_hcp ca : 0 < ca ->
  legal_systems 24 (fun i => unitv (hexnrm ca (fst (nth i sys_hcp d4)))) (fun i => unitv (hexdir ca (snd (nth i sys_hcp d4)))).
Proof.
  intros Hc.
  assert (A : forallb sysok4 sys_hcp = true) by reflexivity.
  assert (B : allpairs diff4 sys_hcp = true) by reflexivity.
  assert (OK : forall i, (i < 24)%nat -> hexOK (fst (nth i sys_hcp d4)) /\ hexOK (snd (nth i sys_hcp d4)) /\
     zdot4 (fst (nth i sys_hcp d4)) (snd (nth i sys_hcp d4)) = 0%Z /\ (hk2 (snd (nth i sys_hcp d4)) <> 0)%Z /\
     (hk2 (fst (nth i sys_hcp d4)) <> 0 \/ idx4 (fst (nth i sys_hcp d4)) <> 0)%Z).
  { intros i Hi. rewrite forallb_forall in A. specialize (A _ (nth_In sys_hcp d4 Hi)). unfold sysok4 in A.
    rewrite !andb_true_iff, orb_true_iff, !negb_true_iff, !Z.eqb_eq, !Z.eqb_neq in A.
    destruct A as [[[[A1 A2] A3] A4] A5].
    exact (conj (hexOKb_ok _ A1) (conj (hexOKb_ok _ A2) (conj A3 (conj A4 A5)))). }
  apply legal_of.
  - intros i Hi. destruct (OK i Hi) as (O1 & O2 & O3 & O4 & O5).
    refine (conj (hexnrm_pos ca _ Hc O1 O5) (conj (hexdir_pos ca _ Hc O2 O4) _)).
    rewrite zone_law by (try assumption; lra). now rewrite O3.
  - intros i j Hij E1 E2. pose proof (allpairs_nth _ d4 _ B i j Hij) as D. unfold diff4 in D.
    destruct (OK i) as (O1 & O2 & _); [lia|]. destruct (OK j) as (P1 & P2 & _); [lia|].
    now rewrite (hexnrm_par ca _ _ Hc O1 P1 E1), (hexdir_par ca _ _ Hc O2 P2 E2) in D.
Qed.

Lemma geom_hcp ca : 0 < ca -> exists g, slipGeomHCP ca = Some g /\ sg_nslip g = 24%nat /\
  schmid_data (sg_P g) (sg_Q g) 24 (fun i => unitv (hexnrm ca (fst (nth i sys_hcp d4)))) (fun i => unitv (hexdir ca (snd (nth i sys_hcp d4)))) /\
  legal_systems 24 (fun i => unitv (hexnrm ca (fst (nth i sys_hcp d4)))) (fun i => unitv (hexdir ca (snd (nth i sys_hcp d4)))).
Proof.
  intros Hc. assert (L := legal_hcp ca Hc).
  destruct (fill_spec (hcpM ca) (hcpS ca) 24 _ _ (fun i Hi => conj (hcp_m_rows ca Hc i Hi) (conj (hcp_s_rows ca Hc i Hi) (proj2 (proj2 (proj1 L i Hi))))))
    as (g & G1 & G2 & G3).
  exists g. unfold slipGeomHCP. rewrite hcp_tables_eq by assumption. exact (conj G1 (conj G2 (conj G3 L))).
Qed.

(** ** Every system of the four families is present *)
Definition rng1 : list Z := [-1; 0; 1]%Z.
Definition allp : list Z4i := flat_map (fun h => flat_map (fun k => map (fun l => (h, k, (- h - k)%Z, l)) rng1) rng) rng.
Definition alld : list Z4i := flat_map (fun h => flat_map (fun k => map (fun l => (h, k, (- h - k)%Z, l)) rng) rng) rng.
Definition pm4b (p q : Z4i) : bool :=
  (let '(a, b, c, d) := p in let '(e, f, g, h) := q in
   ((a =? e) && (b =? f) && (c =? g) && (d =? h)) || ((a =? - e) && (b =? - f) && (c =? - g) && (d =? - h)))%Z%bool.
Lemma pm4b_ok p q : pm4b p q = true -> pm4 p q.
Proof.
  destruct p as [[[a b] c] d], q as [[[e f] g] h]. unfold pm4b, pm4, zneg4.
  rewrite orb_true_iff, !andb_true_iff, !Z.eqb_eq. intros [[[[-> ->] ->] ->]|[[[-> ->] ->] ->]]; [left|right]; reflexivity.
Qed.
Definition hexfamb (p d : Z4i) : bool :=
  ((zdot4 p d =? 0) && (hk2 d =? 6) &&
   (((hk2 p =? 0) && (Z.abs (idx4 p) =? 1) && (idx4 d =? 0)) ||
    ((hk2 p =? 2) && (idx4 p =? 0) && (idx4 d =? 0)) ||
    ((hk2 p =? 2) && (Z.abs (idx4 p) =? 1) && (idx4 d =? 0)) ||
    ((hk2 p =? 2) && (Z.abs (idx4 p) =? 1) && (Z.abs (idx4 d) =? 3))))%Z%bool.
Lemma hexfamb_iff p d : hexOK p -> hexOK d -> (hexfam p d <-> hexfamb p d = true).
Proof.
  intros Hp Hd. unfold hexfam, hexfamb. rewrite !andb_true_iff, !orb_true_iff, !andb_true_iff, !Z.eqb_eq. tauto.
Qed.
Lemma in_allp p : hexOK p -> (hk2 p <= 6)%Z -> (-1 <= idx4 p <= 1)%Z -> In p allp.
Proof.
  intros H H1 H2. destruct (hexOK_form p H) as (h & k & l & ->). unfold hk2, idx4 in *.
  unfold allp. apply in_flat_map. exists h. split; [apply in_rng; nia|]. apply in_flat_map. exists k. split; [apply in_rng; nia|].
  apply in_map_iff. exists l. split; [reflexivity|]. unfold rng1. cbn. lia.
Qed.
Lemma in_alld p : hexOK p -> (hk2 p <= 6)%Z -> (-3 <= idx4 p <= 3)%Z -> In p alld.
Proof.
  intros H H1 H2. destruct (hexOK_form p H) as (h & k & l & ->). unfold hk2, idx4 in *.
  unfold alld. apply in_flat_map. exists h. split; [apply in_rng; nia|]. apply in_flat_map. exists k. split; [apply in_rng; nia|].
  apply in_map_iff. exists l. split; [reflexivity|]. apply in_rng. lia.
Qed.
Lemma hcp_complete p d : hexfam p d -> exists i, (i < 24)%nat /\ pm4 p (fst (nth i sys_hcp d4)) /\ pm4 d (snd (nth i sys_hcp d4)).
Proof.
  intros H. assert (E : forallb (fun p => forallb (fun d => negb (hexfamb p d) || existsb (fun q => pm4b p (fst q) && pm4b d (snd q)) sys_hcp)
     alld) allp = true) by (vm_compute; reflexivity).
  pose proof H as (H1 & H2 & H3 & H4 & H5). rewrite forallb_forall in E. specialize (E p).
  assert (Ip : In p allp) by (apply in_allp; [assumption|lia|lia]).
  assert (Id : In d alld) by (apply in_alld; [assumption|lia|lia]).
  specialize (E Ip). rewrite forallb_forall in E. specialize (E d Id).
  apply (hexfamb_iff p d H1 H2) in H. rewrite H in E. cbn [negb orb] in E.
  apply existsb_exists in E. destruct E as (q & Hq & HH).
  apply andb_true_iff in HH as [A B]. destruct (In_nth _ _ d4 Hq) as (i & Hi & Ei).
  exists i. rewrite Ei. split; [exact Hi|]. split; now apply pm4b_ok.
Qed.
Lemma hcp_family i : (i < 24)%nat -> hexfam (fst (nth i sys_hcp d4)) (snd (nth i sys_hcp d4)).
Proof.
  intros Hi. assert (A : forallb (fun q => hexOKb (fst q) && hexOKb (snd q) && hexfamb (fst q) (snd q)) sys_hcp = true) by reflexivity.
  rewrite forallb_forall in A. specialize (A _ (nth_In sys_hcp d4 Hi)).
  rewrite !andb_true_iff in A. destruct A as [[A B] C]. apply hexfamb_iff; try assumption; now apply hexOKb_ok.
Qed.
