(** Elasticity over R: C34, C35, and the stress returned by a call. *)
From Coq Require Import List ZArith Bool Lia Reals Lra Psatz.
From Verif Require Import Num Arr NumR Util Elast Evptn SpecTensor SpecElast P_Tensor P_Sngl P_Sngl2.
Import ListNotations.
Local Open Scope R_scope.

Lemma s3_trace A : s3 * inner A (basis 5) = trace A.
Proof. destruct A. specR. field_s. Qed.

Ltac elast := unfold el_eval, cubic_setParams, hexag_setParams, vecsVAdiagB; cbn [el_hex el_K_diag el_K_sdax3 el_g_vecd2].

Lemma cubic_law c11 c12 c44 E p e : is_sym E ->
  el_eval (cubic_setParams [c11; c12; c44]) (vec6 E) p e = vec5 (hooke_cubic c11 c12 c44 E) ++ [- sqrt 3 * exp (trace E) * p].
Proof.
  intros H. fold s3. rewrite <- (s3_trace E). elast.
  set (t := inner E (basis 5)). assert (ET : vec6 E = vec5 E ++ [t]) by reflexivity. rewrite ET. clear ET.
  change (get (vec5 E ++ [t]) iSvecS) with t. clearbody t. cbn [nexp nmul nopp sqr3 RNum].
  set (J := exp (s3 * t)). clearbody J.
  symc E H. unfold hooke_cubic. specR. rarr. meq; field_s.
Qed.

Lemma hex_law c11 c12 c13 c33 c44 g E p e : is_sym E ->
  el_eval (hexag_setParams [c11; c12; c13; c33; c44; g]) (vec6 E) p e =
  vec5 (add3 (hooke_hex c11 c12 c13 c33 c44 E) (scal3 (- (exp (trace E) * g * e)) (basis 1)))
  ++ [- sqrt 3 * exp (trace E) * p + sqrt 2 / 3 * (c13 + c33 - c11 - c12) * inner E (basis 1)].
Proof.
  intros H. fold s3 s2. rewrite <- (s3_trace E). elast. unfold iTvecHex.
  assert (ET : vec6 E = vec5 E ++ [inner E (basis 5)]) by reflexivity. rewrite ET. clear ET.
  change (get (vec5 E ++ [inner E (basis 5)]) iSvecS) with (inner E (basis 5)).
  cbn [nexp nmul nopp sqr3 RNum].
  set (J := exp (s3 * inner E (basis 5))). clearbody J.
  symc E H. unfold hooke_hex. specR. rarr. meq; field_s.
Qed.

(** the spherical part of Hooke's law for the hexagonal crystal has the same coupling *)
Lemma hex_sph c11 c12 c13 c33 c44 E : is_sym E ->
  inner (hooke_hex c11 c12 c13 c33 c44 E) (basis 5) =
  (2 * (c11 + c12) + 4 * c13 + c33) / 3 * inner E (basis 5) + sqrt 2 / 3 * (c13 + c33 - c11 - c12) * inner E (basis 1).
Proof. intros H. fold s2. symc E H. unfold hooke_hex. specR. rarr. field_s. Qed.
Lemma cubic_sph c11 c12 c44 E : is_sym E ->
  inner (hooke_cubic c11 c12 c44 E) (basis 5) = (c11 + 2 * c12) * inner E (basis 5).
Proof. intros H. symc E H. unfold hooke_cubic. specR. rarr. field_s. Qed.

Lemma cubic_sym c11 c12 c44 : energy_law (hooke_cubic c11 c12 c44).
Proof. intros A B HA HB. destruct A, B. unfold hooke_cubic. spec. ring. Qed.
Lemma hex_sym c11 c12 c13 c33 c44 : energy_law (hooke_hex c11 c12 c13 c33 c44).
Proof. intros A B HA HB. destruct A, B. unfold hooke_hex. spec. ring. Qed.

Lemma nz6 a b c d e f : mk3 a d e d b f e f c <> Z3 -> 0 < a*a + b*b + c*c + d*d + e*e + f*f.
Proof.
  intros H. destruct (Req_dec (a*a + b*b + c*c + d*d + e*e + f*f) 0) as [E|E]; [|nra].
  exfalso. apply H. unfold Z3.
  assert (a = 0) by nra. assert (b = 0) by nra. assert (c = 0) by nra. assert (d = 0) by nra. assert (e = 0) by nra. assert (f = 0) by nra.
  subst. reflexivity.
Qed.

Lemma cubic_pd c11 c12 c44 : 0 < c11 - c12 -> 0 < c11 + 2 * c12 -> 0 < c44 -> pos_def (hooke_cubic c11 c12 c44).
Proof.
  intros H1 H2 H3 [a d e d' b f e' f' c] HA HN.
  unfold is_sym in HA; cbn in HA; injection HA as -> -> _ -> _ _.
  pose proof (nz6 a b c d e f HN) as P.
  assert (EQ : inner (mk3 a d e d b f e f c) (hooke_cubic c11 c12 c44 (mk3 a d e d b f e f c)) =
      (c11 - c12) / 3 * ((a-b)*(a-b) + (b-c)*(b-c) + (a-c)*(a-c)) + (c11 + 2*c12)/3 * ((a+b+c)*(a+b+c)) + 4 * c44 * (d*d+e*e+f*f))
      by (clear; unfold hooke_cubic; spec; field).
  rewrite EQ; clear EQ HN.
  assert (S : a*a+b*b+c*c = ((a-b)*(a-b) + (b-c)*(b-c) + (a-c)*(a-c))/3 + ((a+b+c)*(a+b+c))/3) by field.
  set (X := (a-b)*(a-b) + (b-c)*(b-c) + (a-c)*(a-c)) in *; set (Y := (a+b+c)*(a+b+c)) in *; set (Z := d*d+e*e+f*f).
  assert (0 <= X) by (unfold X; pose proof (Rle_0_sqr (a-b)); pose proof (Rle_0_sqr (b-c)); pose proof (Rle_0_sqr (a-c)); unfold Rsqr in *; lra).
  assert (0 <= Y) by (unfold Y; apply Rle_0_sqr).
  assert (0 <= Z) by (unfold Z; pose proof (Rle_0_sqr d); pose proof (Rle_0_sqr e); pose proof (Rle_0_sqr f); unfold Rsqr in *; lra).
  assert (0 < X + Y + Z) by (unfold Z in *; lra); clearbody X Y Z.
  assert (0 <= (c11 - c12) / 3 * X) by (apply Rmult_le_pos; lra).
  assert (0 <= (c11 + 2 * c12) / 3 * Y) by (apply Rmult_le_pos; lra).
  assert (0 <= 4 * c44 * Z) by (apply Rmult_le_pos; lra).
  destruct (Req_dec X 0); [|assert (0 < (c11 - c12) / 3 * X) by (apply Rmult_lt_0_compat; lra); lra].
  destruct (Req_dec Y 0); [|assert (0 < (c11 + 2 * c12) / 3 * Y) by (apply Rmult_lt_0_compat; lra); lra].
  assert (0 < 4 * c44 * Z) by (apply Rmult_lt_0_compat; lra); lra.
Qed.

Lemma hex_pd c11 c12 c13 c33 c44 : 0 < c11 - c12 -> 0 < c11 + c12 -> 2 * c13 * c13 < (c11 + c12) * c33 -> 0 < c44 ->
  pos_def (hooke_hex c11 c12 c13 c33 c44).
Proof.
  intros H1 H2 H3 H4 [a d e d' b f e' f' c] HA HN.
  unfold is_sym in HA; cbn in HA; injection HA as -> -> _ -> _ _.
  pose proof (nz6 a b c d e f HN) as P.
  assert (EQ : inner (mk3 a d e d b f e f c) (hooke_hex c11 c12 c13 c33 c44 (mk3 a d e d b f e f c)) =
      (c11 - c12) * ((a-b)*(a-b)/2 + 2*d*d) + 4 * c44 * (e*e+f*f) +
      / (2 * (c11 + c12)) * (((c11+c12)*(a+b) + 2*c13*c)*((c11+c12)*(a+b) + 2*c13*c)) +
      ((c11 + c12) * c33 - 2 * c13 * c13) / (c11 + c12) * (c * c))
      by (clear - H2; unfold hooke_hex; spec; field; lra).
  rewrite EQ; clear EQ HN.
  set (X := (c11+c12)*(a+b) + 2*c13*c).
  assert (K1 : 0 < / (2 * (c11 + c12))) by (apply Rinv_0_lt_compat; lra).
  assert (K2 : 0 < ((c11 + c12) * c33 - 2 * c13 * c13) / (c11 + c12)) by (apply Rdiv_lt_0_compat; lra).
  set (k1 := / (2 * (c11 + c12))) in *; set (k2 := ((c11 + c12) * c33 - 2 * c13 * c13) / (c11 + c12)) in *; clearbody k1 k2.
  assert (Q1 : 0 <= (a-b)*(a-b)/2 + 2*d*d) by (pose proof (Rle_0_sqr (a-b)); pose proof (Rle_0_sqr d); unfold Rsqr in *; lra).
  assert (Q2 : 0 <= e*e+f*f) by (pose proof (Rle_0_sqr e); pose proof (Rle_0_sqr f); unfold Rsqr in *; lra).
  assert (Q3 : 0 <= X * X) by (apply Rle_0_sqr). assert (Q4 : 0 <= c * c) by (apply Rle_0_sqr).
  assert (P1 : 0 <= (c11 - c12) * ((a-b)*(a-b)/2 + 2*d*d)) by (apply Rmult_le_pos; lra).
  assert (P2 : 0 <= 4 * c44 * (e*e+f*f)) by (apply Rmult_le_pos; lra).
  assert (P3 : 0 <= k1 * (X * X)) by (apply Rmult_le_pos; lra). assert (P4 : 0 <= k2 * (c * c)) by (apply Rmult_le_pos; lra).
  destruct (Req_dec (c*c) 0) as [Ec|Nc]; [|assert (0 < k2 * (c * c)) by (apply Rmult_lt_0_compat; lra); lra].
  destruct (Req_dec (e*e+f*f) 0) as [Eef|]; [|assert (0 < 4 * c44 * (e*e+f*f)) by (apply Rmult_lt_0_compat; lra); lra].
  destruct (Req_dec ((a-b)*(a-b)/2 + 2*d*d) 0) as [Ed|]; [|assert (0 < (c11 - c12) * ((a-b)*(a-b)/2 + 2*d*d)) by (apply Rmult_lt_0_compat; lra); lra].
  destruct (Req_dec (X * X) 0) as [EX|]; [|assert (0 < k1 * (X*X)) by (apply Rmult_lt_0_compat; lra); lra].
  assert (S2 : forall x, x * x = 0 -> x = 0) by (intros x Hx; destruct (Rmult_integral _ _ Hx); assumption).
  exfalso. assert (Hc : c = 0) by (apply S2; exact Ec).
  assert (Hd : d = 0) by (apply S2; pose proof (Rle_0_sqr (a-b)); pose proof (Rle_0_sqr d); unfold Rsqr in *; lra).
  assert (Hab : a - b = 0) by (apply S2; pose proof (Rle_0_sqr (a-b)); pose proof (Rle_0_sqr d); unfold Rsqr in *; lra).
  apply Rminus_diag_uniq in Hab.
  assert (X0 : X = 0) by (apply S2; exact EX). unfold X in X0. rewrite Hc, Hab in X0.
  assert (Hb : b = 0) by (clear - X0 H2; nra). rewrite Hab, Hb, Hd, Hc in P. clear - P Eef. nra.
Qed.

Lemma cubic_bulk c11 c12 c44 : el_K_bulkMod (cubic_setParams [c11; c12; c44]) = voigt_bulk (hooke_cubic c11 c12 c44).
Proof. unfold voigt_bulk, hooke_cubic, cubic_setParams. cbn [el_K_bulkMod]. spec. rarr. field. Qed.
Lemma hex_bulk c11 c12 c13 c33 c44 g :
  el_K_bulkMod (hexag_setParams [c11; c12; c13; c33; c44; g]) = voigt_bulk (hooke_hex c11 c12 c13 c33 c44).
Proof. unfold voigt_bulk, hooke_hex, hexag_setParams. cbn [el_K_bulkMod]. spec. rarr. field. Qed.

Lemma cubic_gmod c11 c12 c44 : el_K_gmod (cubic_setParams [c11; c12; c44]) = 2 * voigt_shear (hooke_cubic c11 c12 c44).
Proof. unfold voigt_shear, hooke_cubic, cubic_setParams. cbn [el_K_gmod]. specR. rarr. rewrite fifth_R. field_s. Qed.
Lemma hex_gmod c11 c12 c13 c33 c44 g :
  el_K_gmod (hexag_setParams [c11; c12; c13; c33; c44; g]) = voigt_shear (hooke_hex c11 c12 c13 c33 c44).
Proof.
  unfold voigt_shear, hooke_hex, hexag_setParams, vecsssum. cbn [el_K_gmod el_K_diag]. specR. rarr. rewrite fifth_R. field_s.
Qed.
Lemma iso_shear lam mu : voigt_shear (hooke_iso lam mu) = mu.
Proof. unfold voigt_shear, hooke_iso. specR. field_s. Qed.
Lemma iso_cubic lam mu E : hooke_cubic (lam + 2 * mu) lam mu E = hooke_iso lam mu E.
Proof. destruct E. unfold hooke_cubic, hooke_iso. spec. meq; ring. Qed.
Lemma iso_hex lam mu E : hooke_hex (lam + 2 * mu) lam lam (lam + 2 * mu) mu E = hooke_iso lam mu E.
Proof. destruct E. unfold hooke_hex, hooke_iso. spec. meq; ring. Qed.

Lemma bulk_some (e : Elast R) b : el_getBulkMod e = Some b -> b = el_K_bulkMod e /\ 0 < b.
Proof.
  unfold el_getBulkMod. change (@nleb R RNum (el_K_bulkMod e) (nZ 0)) with (Rleb (el_K_bulkMod e) 0).
  destruct (Rleb (el_K_bulkMod e) 0) eqn:L; intros E; [discriminate|]. injection E as <-. apply Rleb_false in L. auto.
Qed.
Lemma gmod_some (e : Elast R) b : el_getGmod e = Some b -> b = el_K_gmod e /\ 0 < b.
Proof.
  unfold el_getGmod. change (@nleb R RNum (el_K_gmod e) (nZ 0)) with (Rleb (el_K_gmod e) 0).
  destruct (Rleb (el_K_gmod e) 0) eqn:L; intros E; [discriminate|]. injection E as <-. apply Rleb_false in L. auto.
Qed.
Lemma some_bulk (e : Elast R) b : el_K_bulkMod e = b -> 0 < b -> el_getBulkMod e = Some b.
Proof.
  intros <- H. unfold el_getBulkMod. change (@nleb R RNum (el_K_bulkMod e) (nZ 0)) with (Rleb (el_K_bulkMod e) 0).
  rewrite (proj2 (Rleb_false _ _) H). reflexivity.
Qed.
Lemma some_gmod (e : Elast R) b : el_K_gmod e = b -> 0 < b -> el_getGmod e = Some b.
Proof.
  intros <- H. unfold el_getGmod. change (@nleb R RNum (el_K_gmod e) (nZ 0)) with (Rleb (el_K_gmod e) 0).
  rewrite (proj2 (Rleb_false _ _) H). reflexivity.
Qed.
Lemma cubic_bulk_some c11 c12 c44 b :
  el_getBulkMod (cubic_setParams [c11; c12; c44]) = Some b -> b = voigt_bulk (hooke_cubic c11 c12 c44) /\ 0 < b.
Proof. intros H. destruct (bulk_some _ _ H) as [-> P]. split; [apply cubic_bulk|assumption]. Qed.
Lemma hex_bulk_some c11 c12 c13 c33 c44 g b :
  el_getBulkMod (hexag_setParams [c11; c12; c13; c33; c44; g]) = Some b -> b = voigt_bulk (hooke_hex c11 c12 c13 c33 c44) /\ 0 < b.
Proof. intros H. destruct (bulk_some _ _ H) as [-> P]. split; [apply hex_bulk|assumption]. Qed.
Lemma cubic_gmod_some c11 c12 c44 b :
  el_getGmod (cubic_setParams [c11; c12; c44]) = Some b -> b = 2 * voigt_shear (hooke_cubic c11 c12 c44).
Proof. intros H. destruct (gmod_some _ _ H) as [-> _]. apply cubic_gmod. Qed.
Lemma hex_gmod_some c11 c12 c13 c33 c44 g b :
  el_getGmod (hexag_setParams [c11; c12; c13; c33; c44; g]) = Some b -> b = voigt_shear (hooke_hex c11 c12 c13 c33 c44).
Proof. intros H. destruct (gmod_some _ _ H) as [-> _]. apply hex_gmod. Qed.

Lemma pd_at C A : pos_def C -> is_sym A -> a00 A <> 0 \/ a11 A <> 0 \/ a22 A <> 0 \/ a01 A <> 0 \/ a02 A <> 0 -> 0 < inner A (C A).
Proof. intros H S N. apply H; [assumption|]. intros E. rewrite E in N. unfold Z3 in N. cbn in N. intuition. Qed.
Lemma cubic_pd_conv c11 c12 c44 : pos_def (hooke_cubic c11 c12 c44) -> 0 < c11 - c12 /\ 0 < c11 + 2 * c12 /\ 0 < c44.
Proof.
  intros H. pose proof (pd_at _ (mk3 1 0 0 0 (-1) 0 0 0 0) H eq_refl ltac:(left; cbn; lra)) as H1.
  pose proof (pd_at _ I3 H eq_refl ltac:(left; cbn; lra)) as H2.
  pose proof (pd_at _ (mk3 0 1 0 1 0 0 0 0 0) H eq_refl ltac:(cbn; right; right; right; left; lra)) as H3.
  unfold hooke_cubic, inner, I3 in *. cbn in *. repeat split; lra.
Qed.
Lemma hex_pd_conv c11 c12 c13 c33 c44 : pos_def (hooke_hex c11 c12 c13 c33 c44) ->
  0 < c11 - c12 /\ 0 < c11 + c12 /\ 2 * c13 * c13 < (c11 + c12) * c33 /\ 0 < c44.
Proof.
  intros H. pose proof (pd_at _ (mk3 1 0 0 0 (-1) 0 0 0 0) H eq_refl ltac:(left; cbn; lra)) as H1.
  pose proof (pd_at _ (mk3 1 0 0 0 1 0 0 0 0) H eq_refl ltac:(left; cbn; lra)) as H2.
  pose proof (pd_at _ (mk3 0 0 1 0 0 0 1 0 0) H eq_refl ltac:(cbn; right; right; right; right; lra)) as H3.
  assert (P : 0 < c11 + c12) by (unfold hooke_hex, inner in *; cbn in *; lra).
  pose proof (pd_at _ (mk3 c13 0 0 0 c13 0 0 0 (- (c11 + c12))) H eq_refl ltac:(right; right; left; cbn; lra)) as H4.
  unfold hooke_hex, inner in *. cbn in *. repeat split; try lra.
  assert (E : 0 < (c11 + c12) * ((c11 + c12) * c33 - 2 * c13 * c13)) by (clear - H4; lra).
  clear - E P. destruct (Rlt_or_le (2 * c13 * c13) ((c11 + c12) * c33)) as [L|L]; [assumption|].
  exfalso. set (X := (c11 + c12) * c33) in *. nra.
Qed.

Lemma elast_case : pos_def (hooke_cubic 3 1 1) /\ pos_def (hooke_hex 1.624 0.92 0.69 1.807 0.467) /\
  is_sym (mk3 1 2 3 2 4 5 3 5 6) /\
  el_getBulkMod (cubic_setParams [3; 1; 1]) = Some (5 / 3) /\
  el_getBulkMod (hexag_setParams [1.624; 0.92; 0.69; 1.807; 0.467; 0]) = Some ((2 * (1.624 + 0.92) + 4 * 0.69 + 1.807) / 9).
Proof.
  split; [apply cubic_pd; lra|]. split; [apply hex_pd; lra|]. split; [reflexivity|].
  split; apply some_bulk; try lra.
  - rewrite cubic_bulk. unfold voigt_bulk, hooke_cubic. spec. lra.
  - rewrite hex_bulk. unfold voigt_bulk, hooke_hex. spec. lra.
Qed.
Lemma gmod_case : exists b, el_getGmod (cubic_setParams [3; 1; 1]) = Some b.
Proof.
  eexists. apply some_gmod; [reflexivity|]. rewrite cubic_gmod.
  pose proof (iso_shear 1 1) as E. unfold voigt_shear in E.
  assert (I : voigt_shear (hooke_cubic 3 1 1) = 1).
  { transitivity (voigt_shear (hooke_iso 1 1)); [|apply iso_shear].
    assert (EE : forall E, hooke_cubic 3 1 1 E = hooke_iso 1 1 E) by (intros; rewrite <- iso_cubic; f_equal; ring).
    unfold voigt_shear. rewrite !EE. reflexivity. }
  rewrite I. lra.
Qed.
Lemma gmod_refuted : exists lam mu g1 g2, 0 < lam /\ 0 < mu /\
  (forall E, hooke_cubic (lam + 2 * mu) lam mu E = hooke_iso lam mu E) /\
  (forall E, hooke_hex (lam + 2 * mu) lam lam (lam + 2 * mu) mu E = hooke_iso lam mu E) /\
  el_getGmod (cubic_setParams [lam + 2 * mu; lam; mu]) = Some g1 /\
  el_getGmod (hexag_setParams [lam + 2 * mu; lam; lam; lam + 2 * mu; mu; 0]) = Some g2 /\
  g1 <> mu /\ g1 <> g2.
Proof.
  exists 1, 1, 2, 1. split; [lra|]. split; [lra|]. split; [apply iso_cubic|]. split; [apply iso_hex|].
  split; [|split; [|lra]].
  - apply some_gmod; [|lra]. rewrite cubic_gmod.
    replace (voigt_shear (hooke_cubic (1 + 2 * 1) 1 1)) with 1; [lra|].
    transitivity (voigt_shear (hooke_iso 1 1)); [symmetry; apply iso_shear|]. unfold voigt_shear. rewrite !iso_cubic. reflexivity.
  - apply some_gmod; [|lra]. rewrite hex_gmod. transitivity (voigt_shear (hooke_iso 1 1)); [|apply iso_shear]. unfold voigt_shear. rewrite !iso_hex. reflexivity.
Qed.
