(** The hexagonal model under the rotations of its lattice: slip systems, slip laws, elastic moduli (C22). *)
From Coq Require Import List ZArith Bool Lia PeanoNat Reals Lra Psatz String.
From Verif Require Import P_Demo.
From Verif Require Import Num Arr NumR Util SlipGeom Eos Hard KinVoce KinKMBalD Elast Evptn MatModel Cases SpecTensor
  SpecElast SpecSlip P_Tensor P_Elast P_Eos P_Sngl P_Sngl2 P_Sngl3 P_Batch P_Batch2 P_Batch3 P_Batch4 P_Api P_Builtin SpecApi P_Hist SpecStress P_Stress
  SpecKin SpecKinApi SpecStep P_KinV P_Kin4 P_Call P_Slip P_SlipH P_Step P_Step2 P_Energy SpecJac SpecSym P_Sym P_Sym1 P_Sym2 P_Sym3 P_Sym4.
Import ListNotations.
Local Open Scope R_scope.

Lemma rot_norm S x : is_orth S -> dotv (mulv S x) (mulv S x) = dotv x x.
Proof.
  intros [_ H]. destruct S as [e1 e2 e3 e4 e5 e6 e7 e8 e9], x as [x y z]. unfold mul3, tr3, I3 in H. cbn [a00 a01 a02 a10 a11 a12 a20 a21 a22] in H.
  injection H as E1 E2 E3 E4 E5 E6 E7 E8 E9. unfold dotv, mulv. cbn [a00 a01 a02 a10 a11 a12 a20 a21 a22 v0 v1 v2].
  transitivity (x * x * (e1 * e1 + e4 * e4 + e7 * e7) + y * y * (e2 * e2 + e5 * e5 + e8 * e8) + z * z * (e3 * e3 + e6 * e6 + e9 * e9)
    + 2 * x * y * (e1 * e2 + e4 * e5 + e7 * e8) + 2 * x * z * (e1 * e3 + e4 * e6 + e7 * e9) + 2 * y * z * (e2 * e3 + e5 * e6 + e8 * e9)); [ring|].
  rewrite E1, E2, E3, E5, E6, E9. ring.
Qed.
(** a rotation of the hexagonal lattice keeps or reverses the c axis and acts on the basal plane by an integer matrix *)
Definition Z4q := (Z * Z * Z * Z)%type.
Definition hdet (z : Z4q) : Z := let '(p, q, r, s) := z in (p * s - q * r)%Z.
Definition hok (z : Z4q) : bool := let '(p, q, r, s) := z in
  (p * p - p * q + q * q =? 1)%Z && (r * r - r * s + s * s =? 1)%Z && (2 * p * r - p * s - q * r + 2 * q * s =? -1)%Z && ((hdet z =? 1)%Z || (hdet z =? -1)%Z).
Definition all4 : list Z4q := filter hok (flat_map (fun p => flat_map (fun q => flat_map (fun r => map (fun s => (p, q, r, s)) tri) tri) tri) tri).
Definition hmat (z : Z4q) : M3 := let '(p, q, r, s) := z in
  mk3 (IZR p - IZR q / 2) ((2 * IZR r - IZR s + IZR p - IZR q / 2) / sqrt 3) 0 (IZR q * sqrt 3 / 2) (IZR s + IZR q / 2) 0 0 0 (IZR (hdet z)).
Lemma q3 : sqrt 3 * sqrt 3 = 3. Proof. apply sqrt_sqrt. lra. Qed.
Lemma q3p : 0 < sqrt 3. Proof. apply sqrt_lt_R0. lra. Qed.
Lemma hex_int S : hex_rot S -> exists z, In z all4 /\ S = hmat z.
Proof.
  intros ((HO & HD) & (p & q & P) & (r & s & R)). pose proof HO as [H1 H2]. pose proof q3 as B2. pose proof q3p as B0. 
  destruct S as [e1 e2 e3 e4 e5 e6 e7 e8 e9]. unfold mulv, lin3, ha1, ha2, ha3 in P, R. unfold mul3, tr3, I3 in H1, H2. unfold det3 in HD.
  cbn [a00 a01 a02 a10 a11 a12 a20 a21 a22 v0 v1 v2] in *. injection P as P1 P2 P3. injection R as R1 R2 R3.
  injection H1 as E1 E2 E3 E4 E5 E6 E7 E8 E9. injection H2 as F1 F2 F3 F4 F5 F6 F7 F8 F9.
  remember (sqrt 3) as b eqn:Eb.
  assert (X7 : e7 = 0) by lra. assert (X8 : e8 = 0). { assert (Y : b * e8 = 0) by lra. apply Rmult_integral in Y as [Y|Y]; lra. }
  subst e7 e8. assert (N9 : e9 <> 0) by (intros N; rewrite N in E9; lra).
  assert (X3 : e3 = 0). { assert (Y : e3 * e9 = 0) by lra. apply Rmult_integral in Y as [Y|Y]; [exact Y|contradiction]. }
  assert (X6 : e6 = 0). { assert (Y : e6 * e9 = 0) by lra. apply Rmult_integral in Y as [Y|Y]; [exact Y|contradiction]. }
  subst e3 e6. set (P' := IZR p) in *. set (Q' := IZR q) in *. set (R' := IZR r) in *. set (S' := IZR s) in *.
  assert (X1 : e1 = P' - Q' / 2) by lra. assert (X4 : e4 = Q' * b / 2) by lra.
  assert (X2 : e2 = (2 * R' - S' + P' - Q' / 2) / b). { apply (Rmult_eq_reg_r b); [|lra]. field_simplify; [|lra]. lra. }
  assert (X5 : e5 = S' + Q' / 2). { apply (Rmult_eq_reg_r b); [|lra]. lra. }
  assert (D : e9 = P' * S' - Q' * R').
  { assert (Y : e9 * (e1 * e5 - e2 * e4) = 1) by lra.
    assert (W : e1 * e5 - e2 * e4 = P' * S' - Q' * R') by (rewrite X1, X2, X4, X5; field; lra).
    rewrite W in Y. set (w := P' * S' - Q' * R') in *. assert (E : e9 * e9 = 1) by lra. 
    apply (Rmult_eq_reg_l e9); [lra|exact N9]. }
  assert (A1 : (p * p - p * q + q * q = 1)%Z).
  { apply eq_IZR. rewrite plus_IZR, minus_IZR, !mult_IZR. fold P' Q'. rewrite X1, X4 in F1.
    transitivity ((P' - Q' / 2) * (P' - Q' / 2) + (3) * Q' * Q' / 4); [field|]. rewrite <- B2. lra. }
  assert (A2 : (r * r - r * s + s * s = 1)%Z).
  { apply eq_IZR. rewrite plus_IZR, minus_IZR, !mult_IZR. fold R' S'.
    assert (Y : (- (1 / 2) * e1 + b / 2 * e2) * (- (1 / 2) * e1 + b / 2 * e2) + (- (1 / 2) * e4 + b / 2 * e5) * (- (1 / 2) * e4 + b / 2 * e5) = 1).
    { transitivity (1 / 4 * (e1 * e1 + e4 * e4) - b / 2 * (e1 * e2 + e4 * e5) + b * b / 4 * (e2 * e2 + e5 * e5)); [field|].
      replace (e1 * e1 + e4 * e4) with 1 by lra. replace (e1 * e2 + e4 * e5) with 0 by lra. replace (e2 * e2 + e5 * e5) with 1 by lra. rewrite B2. field. }
    replace (- (1 / 2) * e1 + b / 2 * e2) with (R' - S' / 2) in Y by lra. replace (- (1 / 2) * e4 + b / 2 * e5) with (S' * b / 2) in Y by lra.
    transitivity ((R' - S' / 2) * (R' - S' / 2) + (3) * S' * S' / 4); [field|]. rewrite <- B2. lra. }
  assert (A4 : (2 * p * r - p * s - q * r + 2 * q * s = -1)%Z).
  { apply eq_IZR. rewrite plus_IZR, !minus_IZR, !mult_IZR. fold P' Q' R' S'.
    assert (Y : e1 * (- (1 / 2) * e1 + b / 2 * e2) + e4 * (- (1 / 2) * e4 + b / 2 * e5) = - (1 / 2)).
    { transitivity (- (1 / 2) * (e1 * e1 + e4 * e4) + b / 2 * (e1 * e2 + e4 * e5)); [field|].
      replace (e1 * e1 + e4 * e4) with 1 by lra. replace (e1 * e2 + e4 * e5) with 0 by lra. field. }
    replace (- (1 / 2) * e1 + b / 2 * e2) with (R' - S' / 2) in Y by lra. replace (- (1 / 2) * e4 + b / 2 * e5) with (S' * b / 2) in Y by lra.
    rewrite X1, X4 in Y. transitivity (2 * ((P' - Q' / 2) * (R' - S' / 2) + (3) * Q' * S' / 4)); [field|]. rewrite <- B2. lra. }
  assert (A3 : (hdet (p, q, r, s) * hdet (p, q, r, s) = 1)%Z).
  { apply eq_IZR. unfold hdet. rewrite mult_IZR, minus_IZR, !mult_IZR. fold P' Q' R' S'. rewrite <- D. lra. }
  exists (p, q, r, s). split.
  - apply filter_In. split.
    + assert (T : forall x y, (x * x - x * y + y * y = 1)%Z -> In x tri /\ In y tri) by (intros x y H; split; apply in_tri; nia).
      destruct (T _ _ A1) as [T1 T2]. destruct (T _ _ A2) as [T3 T4].
      apply in_flat_map. exists p. split; [exact T1|]. apply in_flat_map. exists q. split; [exact T2|]. apply in_flat_map. exists r. split; [exact T3|].
      apply in_map_iff. exists s. split; [reflexivity|exact T4].
    + unfold hok. rewrite A1, A2, A4. cbn [Z.eqb Pos.eqb andb]. apply orb_true_iff. rewrite !Z.eqb_eq. nia.
  - unfold hmat. rewrite <- Eb. fold P' Q' R' S'. unfold hdet. rewrite minus_IZR, !mult_IZR. fold P' Q' R' S'. rewrite <- X1, <- X2, <- X4, <- X5, <- D. reflexivity.
Qed.

(** ** the table of slip systems; a four-index vector (h k i l) is (h - i) a1 + (k - i) a2 in the basal plane *)
Definition red (p : Z4i) : Z3i := let '(h, k, i, l) := p in (h - i, k - i, l)%Z.
Definition hv (al be : R) (u : Z3i) : V3 := let '(x, y, z) := u in addv (lin3 (al * IZR x) (al * IZR y) 0 ha1 ha2 ha3) (mkV 0 0 (be * IZR z)).
Lemma dir_red ca p : hexdir ca p = hv 1 ca (red p).
Proof. destruct p as [[[h k] i] l]. unfold hexdir, hv, red, addv, lin3, ha1, ha2, ha3. cbn [v0 v1 v2]. rewrite !minus_IZR. f_equal; lra. Qed.
Lemma nrm_red ca p : hexnrm ca p = hv (2 / 3) (/ ca) (red p).
Proof. destruct p as [[[h k] i] l]. unfold hexnrm, hv, red, addv, lin3, ha1, ha2, ha3, Rdiv. cbn [v0 v1 v2]. rewrite !minus_IZR. f_equal; [field|field|ring]. Qed.
(** transpose times vector *)
Definition ht (z : Z4q) (u : Z3i) : Z3i := let '(p, q, r, s) := z in let '(x, y, w) := u in let d := hdet z in
  (d * (s * x - r * y), d * (p * y - q * x), d * w)%Z.
Lemma ht_mulv z u al be : In z all4 -> is_orth (hmat z) -> mulv (tr3 (hmat z)) (hv al be u) = hv al be (ht z u).
Proof.
  intros I [_ HO]. apply filter_In in I as [_ I]. unfold hok in I. destruct z as [[[p q] r] s]. rewrite !andb_true_iff, orb_true_iff, !Z.eqb_eq in I. destruct I as (_ & I).
  assert (D : (hdet (p, q, r, s) * hdet (p, q, r, s) = 1)%Z) by (destruct I as [ -> | -> ]; reflexivity).
  assert (E : mulv (hmat (p, q, r, s)) (hv al be (ht (p, q, r, s) u)) = hv al be u).
  { clear HO. apply (f_equal IZR) in D. rewrite mult_IZR in D. destruct u as [[x y] w]. unfold hmat, ht, hv, addv, lin3, ha1, ha2, ha3, mulv. cbn [a00 a01 a02 a10 a11 a12 a20 a21 a22 v0 v1 v2].
    rewrite !mult_IZR, !minus_IZR, !mult_IZR. set (d := IZR (hdet (p, q, r, s))) in *. assert (Dd : d = IZR p * IZR s - IZR q * IZR r) by (unfold d, hdet; rewrite minus_IZR, !mult_IZR; reflexivity).
    clearbody d. set (P' := IZR p) in *. set (Q' := IZR q) in *. set (R' := IZR r) in *. set (S' := IZR s) in *. pose proof q3 as B2. pose proof q3p as B0. set (b := sqrt 3) in *. clearbody b P' Q' R' S'.
    set (X := IZR x). set (Y := IZR y). clearbody X Y. f_equal.
    - transitivity (al * (d * (P' * S' - Q' * R')) * (X - Y / 2)); [field; lra|]. rewrite <- Dd, D. field.
    - transitivity (al * (d * (P' * S' - Q' * R')) * (Y * b / 2)); [field; lra|]. rewrite <- Dd, D. field.
    - transitivity (be * (d * d) * IZR w); [ring|]. rewrite D. ring. }
  rewrite <- E at 1. set (v := hv al be (ht (p, q, r, s) u)). clearbody v. set (A := hmat (p, q, r, s)) in *. clearbody A.
  rewrite <- mulv_mul, HO. destruct v as [x y w]. unfold mulv, I3. cbn [a00 a01 a02 a10 a11 a12 a20 a21 a22 v0 v1 v2]. f_equal; ring.
Qed.
Definition hsys (z : Z4q) (k j : nat) : option bool :=
  match zsame (red (fst (nth j sys_hcp d4))) (ht z (red (fst (nth k sys_hcp d4)))), zsame (red (snd (nth j sys_hcp d4))) (ht z (red (snd (nth k sys_hcp d4)))) with
  | Some a, Some b => Some (Bool.eqb a b) | _, _ => None end.
Definition hfind (z : Z4q) (k : nat) : nat * bool :=
  match find (fun j => match hsys z k j with Some _ => true | None => false end) (seq 0 24) with
  | Some j => (j, match hsys z k j with Some a => a | None => true end) | None => (24%nat, true) end.
Definition closedh (z : Z4q) : bool :=
  forallb (fun k => match hsys z k (fst (hfind z k)) with Some a => Bool.eqb a (snd (hfind z k)) | None => false end &&
    (Nat.ltb (fst (hfind z k)) 24 && Nat.eqb (hex_family (fst (hfind z k))) (hex_family k))) (seq 0 24) &&
  nodup (map (fun k => fst (hfind z k)) (seq 0 24)).
Lemma hex_closed : List.length all4 = 12%nat /\ forallb closedh all4 = true.
Proof. vm_compute. split; reflexivity. Qed.
Lemma zsame_hv p q a al be : zsame p q = Some a -> unitv (hv al be p) = scv (sg1 a) (unitv (hv al be q)).
Proof.
  unfold zsame. destruct (zeq p q) eqn:E1; [|destruct (zeq p (zneg q)) eqn:E2; [|discriminate]]; intros X; apply some_inj in X; subst a.
  - apply zeq_eq in E1. rewrite E1. unfold scv, sg1. destruct (unitv (hv al be q)) as [x y z]. cbn [v0 v1 v2]. rewrite !Rmult_1_l. reflexivity.
  - apply zeq_eq in E2. rewrite E2. assert (X : hv al be (zneg q) = oppv (hv al be q)).
    { destruct q as [[x y] z]. unfold zneg, hv, oppv, addv, lin3, ha1, ha2, ha3. cbn [v0 v1 v2]. rewrite !opp_IZR. f_equal; ring. }
    rewrite X, unitv_opp. unfold scv, oppv, sg1. cbn [v0 v1 v2]. f_equal; ring.
Qed.
Lemma hex_match ca S : hex_rot S -> exists sg ep,
  matches 24 S sg ep (fun i => unitv (hexnrm ca (fst (nth i sys_hcp d4)))) (fun i => unitv (hexdir ca (snd (nth i sys_hcp d4)))) /\
  forall k, (k < 24)%nat -> hex_family (sg k) = hex_family k.
Proof.
  intros HS. destruct (hex_int S HS) as (z & Hz & ES). destruct hex_closed as [_ HC]. rewrite forallb_forall in HC. specialize (HC z Hz).
  unfold closedh in HC. apply andb_true_iff in HC as [H1 H2]. rewrite forallb_forall in H1.
  assert (K : forall k, (k < 24)%nat -> hsys z k (fst (hfind z k)) = Some (snd (hfind z k)) /\ (fst (hfind z k) < 24)%nat /\ hex_family (fst (hfind z k)) = hex_family k).
  { intros k Hk. specialize (H1 k). rewrite in_seq in H1. specialize (H1 ltac:(lia)). rewrite !andb_true_iff in H1. destruct H1 as [H3 [H4 H5]]. apply Nat.ltb_lt in H4. apply Nat.eqb_eq in H5. split; [|split; [exact H4|exact H5]].
    destruct (hsys z k (fst (hfind z k))) as [a|]; [|discriminate]. apply Bool.eqb_prop in H3. now rewrite H3. }
  exists (fun k => fst (hfind z k)), (fun k => sg1 (snd (hfind z k))). split; [|intros k Hk; exact (proj2 (proj2 (K k Hk)))]. split; [split|].
  - intros k Hk. exact (proj1 (proj2 (K k Hk))).
  - intros j k Hj Hk E. apply (nodup_inj _ H2 j k 0%nat); [rewrite map_length, seq_length; exact Hj|rewrite map_length, seq_length; exact Hk|].
    rewrite !(nth_indep _ 0%nat (fst (hfind z 0))) by (rewrite map_length, seq_length; assumption).
    rewrite !(map_nth (fun k => fst (hfind z k))), !seq_nth by assumption. exact E.
  - intros k Hk. split; [destruct (snd (hfind z k)); [left|right]; reflexivity|].
    destruct (K k Hk) as [E _]. unfold hsys in E.
    destruct (zsame (red (fst (nth (fst (hfind z k)) sys_hcp d4))) _) as [a|] eqn:EA; [|discriminate].
    destruct (zsame (red (snd (nth (fst (hfind z k)) sys_hcp d4))) _) as [b|] eqn:EB; [|discriminate]. apply some_inj in E.
    destruct HS as ((HO & _) & _). pose proof HO as HO2. rewrite ES in HO2.
    rewrite <- E, sg1_eqb, !dir_red, !nrm_red, (zsame_hv _ _ _ _ _ EA), (zsame_hv _ _ _ _ _ EB). rewrite <- !ht_mulv, <- ES by assumption.
    rewrite !unitv_turn by (apply orth_tr; exact HO). rewrite outer_scv. f_equal; ring.
Qed.

(** ** elastic moduli: the rotations of the hexagonal lattice do not mix the groups {0, 2}, {1}, {3, 4} of components *)
Lemma hex_axis S : hex_rot S -> a02 S = 0 /\ a12 S = 0 /\ a20 S = 0 /\ a21 S = 0 /\ a22 S * a22 S = 1 /\
  a00 S * a00 S + a01 S * a01 S = 1 /\ a10 S * a10 S + a11 S * a11 S = 1.
Proof.
  intros HS. destruct (hex_int S HS) as (z & _ & ES). destruct HS as (([H _] & _) & _).
  assert (A : a02 S = 0 /\ a12 S = 0 /\ a20 S = 0 /\ a21 S = 0) by (rewrite ES; destruct z as [[[p q] r] s]; repeat split).
  clear ES. destruct S as [e1 e2 e3 e4 e5 e6 e7 e8 e9]. unfold mul3, tr3, I3 in H. cbn [a00 a01 a02 a10 a11 a12 a20 a21 a22] in *.
  destruct A as (A1 & A2 & A3 & A4). subst. injection H as E1 E2 E3 E4 E5 E6 E7 E8 E9. repeat split; lra.
Qed.
Lemma hex_rmat1 S i : hex_rot S -> (i < 5)%nat ->
  get2 5 (rmat S) 1 i = (if Nat.eqb i 1 then 1 else 0) /\ get2 5 (rmat S) i 1 = (if Nat.eqb i 1 then 1 else 0).
Proof.
  intros HS Hi. destruct (hex_axis S HS) as (A1 & A2 & A3 & A4 & A5 & A6 & A7). clear HS. destruct S as [e1 e2 e3 e4 e5 e6 e7 e8 e9].
  cbn [a00 a01 a02 a10 a11 a12 a20 a21 a22] in *. subst.
  destruct i as [|[|[|[|[|]]]]]; [..|lia]; cbn [Nat.eqb]; split; unfold rmat, ofM3, get_rot_mat_vecd; rarr; cbn [a00 a01 a02 a10 a11 a12 a20 a21 a22]; try ring;
    rewrite Rmult_assoc, A5; rewrite ?thrhalf_R, ?onehalf_R; field.
Qed.
Lemma hex_HK S K i j : hex_rot S -> (i < 5)%nat -> (j < 5)%nat -> get K 2 = get K 0 -> get K 4 = get K 3 ->
  get2 5 (rmat S) j i * (get K i - get K j) = 0.
Proof.
  intros HS Hi Hj K2 K4. destruct (hex_axis S HS) as (A1 & A2 & A3 & A4 & _). clear HS. destruct S as [e1 e2 e3 e4 e5 e6 e7 e8 e9].
  cbn [a00 a01 a02 a10 a11 a12 a20 a21 a22] in *. subst.
  destruct i as [|[|[|[|[|]]]]]; [..|lia]; destruct j as [|[|[|[|[|]]]]]; try lia; rewrite ?K2, ?K4;
    unfold rmat, ofM3, get_rot_mat_vecd; rarr; cbn [a00 a01 a02 a10 a11 a12 a20 a21 a22]; ring.
Qed.

Lemma hex_el hs c pars : c = cls_HCP_A hs -> get (el_K_diag (el_of c pars)) 2 = get (el_K_diag (el_of c pars)) 0 /\
  get (el_K_diag (el_of c pars)) 4 = get (el_K_diag (el_of c pars)) 3 /\ c_nslip c = 24%nat.
Proof. intros ->. repeat split. Qed.

(** ** slip laws *)
Lemma km_at (k : KM R) vals a b tau : get vals (2 + a) = get vals (2 + b) -> get vals (2 + km_nVPer k + a) = get vals (2 + km_nVPer k + b) ->
  get (km_xn k) a = get (km_xn k) b -> get (km_xnn k) a = get (km_xnn k) b -> get (km_t_max k) a = get (km_t_max k) b -> get (km_t_min k) a = get (km_t_min k) b ->
  km_evalGdot k vals a tau = km_evalGdot k vals b tau.
Proof. intros E1 E2 E3 E4 E5 E6. unfold km_evalGdot. rewrite E1, E2, E3, E4, E5, E6. reflexivity. Qed.
Lemma get_app_l (l l' : list R) k : (k < List.length l)%nat -> get (l ++ l') k = get l k.
Proof. intros H. unfold get. now apply app_nth1. Qed.
Lemma get_app_r (l l' : list R) k : get (l ++ l') (List.length l + k) = get l' k.
Proof. unfold get. rewrite app_nth2 by lia. f_equal. lia. Qed.
Lemma law_symH hs c pars T h law ref pr kin hi sg ep : slip_law hs c pars T h law ref -> c = cls_HCP_A hs -> List.length pars = mm_nParams c ->
  c_kinSet c (sub pars (3 + c_sgNP c + c_elNP c) (c_kinNP c)) = Some (kin, hi) -> k_valsOk kin pr T [h] = true ->
  renumbers 24 sg -> (forall k, (k < 24)%nat -> ep k = 1 \/ ep k = -1) -> families_alike c pars -> (forall k, (k < 24)%nat -> hex_family (sg k) = hex_family k) ->
  forall tau tau', (forall k, (k < 24)%nat -> get tau' (sg k) = ep k * get tau k) -> forall k, (k < 24)%nat ->
  let vals := fst (k_getVals kin pr T [h]) in
  get (fst (fst (k_evalGdots kin tau' vals))) (sg k) = ep k * get (fst (fst (k_evalGdots kin tau vals))) k /\
  get (snd (fst (k_evalGdots kin tau' vals))) (sg k) = get (snd (fst (k_evalGdots kin tau vals))) k.
Proof.
  intros HLaw HC HL HK HV [Hsg _] Hep FA HF tau tau' Ht k Hk vals. pose proof (Hsg k Hk) as Hk'.
  assert (EN : c_nslip c = 24%nat) by (rewrite HC; reflexivity).
  destruct (law_data hs c pars T h law ref pr kin hi HLaw HL HK HV) as (_ & _ & R2). fold vals in R2. rewrite EN in R2.
  destruct (FA (sg k) k Hk' Hk (HF k Hk)) as (F1 & F2 & F3).
  assert (NP : c_kinNP c = 85%nat) by (rewrite HC; reflexivity).
  rewrite <- !kin_pars_nth in F1, F2, F3 by (rewrite NP; lia). clear FA HF. split.
  - rewrite !R2, !get_tab by assumption. rewrite (Ht k Hk).
    assert (X : law (sg k) = law k /\ forall x, law k (- x) = - law k x).
    { destruct HLaw as [H1 H2|H1 H2|H1 H2|H1 H2 H3]; [exfalso; destruct H1 as [H1|[H1|[H1|H1]]]; rewrite H1 in EN; discriminate|exfalso; rewrite H1 in EN; discriminate|exfalso; rewrite H1 in EN; discriminate|].
      split; [|intros x; apply km_odd]. f_equal. unfold km_spec, km_strength, km_exponent.
      change (8 + 24 + sg k)%nat with (32 + sg k)%nat. change (8 + 24 + 24 + sg k)%nat with (56 + sg k)%nat. change (8 + 24 + k)%nat with (32 + k)%nat. change (8 + 24 + 24 + k)%nat with (56 + k)%nat.
      rewrite F1, F2, F3. reflexivity. }
    rewrite (proj1 X). destruct (Hep k Hk) as [E|E]; rewrite E.
    + rewrite !Rmult_1_l. reflexivity.
    + replace (-1 * get tau k) with (- get tau k) by ring. rewrite (proj2 X). ring.
  - clear R2 HV. rewrite kin_pars_sub in HK by assumption.
    assert (TE : get tau' (sg k) = get tau k \/ get tau' (sg k) = - get tau k).
    { rewrite (Ht k Hk). destruct (Hep k Hk) as [E|E]; rewrite E; [left|right]; ring. }
    assert (EK : c_kinSet c = kinKM hs true true true true 24 24) by (rewrite HC; reflexivity).
    rewrite EK in HK. unfold kinKM in HK. destruct (_ && _); [|discriminate]. apply (f_equal (option_map fst)) in HK. cbn [option_map fst] in HK. apply some_inj in HK.
    unfold vals. clear vals. subst kin. cbn [km_kinetics k_evalGdots k_getVals]. unfold km_evalGdots. cbn [fst snd]. rewrite !get_tab by assumption.
    change (km_perSS (km_setParams true true true true 24 (kin_pars c pars))) with true. cbv iota.
    set (K := km_setParams true true true true 24 (kin_pars c pars)). set (vals := fst (km_getVals K pr T [h])).
    assert (GP : forall o j, (j < 24)%nat -> get (sub (kin_pars c pars) o 24) j = nth (o + j) (kin_pars c pars) 0) by (intros o j Hj; rewrite get_sub by exact Hj; reflexivity).
    assert (V1 : forall j, (j < 24)%nat -> get vals (2 + j) = nth (32 + j) (kin_pars c pars) 0 + nth (56 + j) (kin_pars c pars) 0 * sqrt h).
    { intros j Hj. unfold vals, km_getVals. cbn [fst]. change (2 + j)%nat with (List.length [0; 0] + j)%nat. rewrite (get_app_r [_; _]), get_app_l by (rewrite tab_length; exact Hj).
      rewrite get_tab by exact Hj. change (get (sub (kin_pars c pars) 32 24) j + get (sub (kin_pars c pars) 56 24) j * sqrt h = nth (32 + j) (kin_pars c pars) 0 + nth (56 + j) (kin_pars c pars) 0 * sqrt h). rewrite !GP by exact Hj. reflexivity. }
    assert (V2 : forall j, (j < 24)%nat -> get vals (2 + km_nVPer K + j) = nth (2 + j) (kin_pars c pars) 0 / T).
    { intros j Hj. unfold vals, km_getVals. cbn [fst]. change (2 + km_nVPer K + j)%nat with (List.length [0; 0] + (24 + j))%nat. rewrite (get_app_r [_; _]).
      match goal with |- get (?A ++ ?B) _ = _ => pose proof (get_app_r A B j) as Y end. rewrite tab_length in Y. refine (eq_trans Y _). clear Y.
      rewrite get_tab by exact Hj. change (get (sub (kin_pars c pars) 2 24) j / T = nth (2 + j) (kin_pars c pars) 0 / T). rewrite GP by exact Hj. reflexivity. }
    assert (X : forall j, (j < 24)%nat -> get (km_c_1 K) j = nth (2 + j) (kin_pars c pars) 0) by (intros j Hj; exact (GP 2%nat j Hj)).
    assert (E : km_evalGdot K vals (sg k) (get tau' (sg k)) = km_evalGdot K vals k (get tau' (sg k))).
    { apply km_at; [rewrite !V1 by assumption; rewrite F2, F3; reflexivity|rewrite !V2 by assumption; rewrite F1; reflexivity|..];
        unfold K, km_setParams; cbn [km_xn km_xnn km_t_max km_t_min]; rewrite !get_tab by assumption;
        change (get (sub (kin_pars c pars) 2 24)) with (get (km_c_1 K)); rewrite (X (sg k) Hk'), (X k Hk), F1; reflexivity. }
    rewrite E. destruct TE as [E0|E0]; rewrite E0; [reflexivity|]. apply km_even.
Qed.
