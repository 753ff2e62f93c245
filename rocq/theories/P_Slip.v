(** Slip-system geometry: the stored tables are the crystallographic systems. *)
From Coq Require Import List ZArith Bool Reals Lra Lia.
From Verif Require Import Num Arr NumR Util SlipGeom SpecTensor SpecSlip P_Tensor.
Import ListNotations.
Local Open Scope R_scope.

(** ** Generic: fillFromMS *)
Lemma outer_model s m : vecsMaTb 3 (ofV3 s) (ofV3 m) = ofM3 (outer s m).
Proof. destruct s, m. spec. rarr. reflexivity. Qed.

Lemma eps_sqrt_pos : 0 < (idp_eps_sqrt : R).
Proof. unfold idp_eps_sqrt. cbn. lra. Qed.

Lemma dot_model m s : vecsyadotb 3 (ofV3 m) (ofV3 s) = dotv m s.
Proof. destruct m, s. unfold vecsyadotb. spec. rarr. ring. Qed.

Lemma fill_spec mV sV n (m s : nat -> V3) :
  (forall i, (i < n)%nat -> row3 mV i = ofV3 (m i) /\ row3 sV i = ofV3 (s i) /\ dotv (m i) (s i) = 0) ->
  exists g, fillFromMS mV sV n = Some g /\ sg_nslip g = n /\ schmid_data (sg_P g) (sg_Q g) n m s.
Proof.
  intros H. unfold fillFromMS.
  assert (E : existsb (fun iS => (idp_eps_sqrt <? nabs (vecsyadotb 3 (row3 mV iS) (row3 sV iS)))%num) (seq 0 n) = false).
  { apply not_true_iff_false. intros Ex. apply existsb_exists in Ex. destruct Ex as (i & Hi & Hx).
    apply in_seq in Hi. destruct (H i) as (H1 & H2 & H3); [lia|].
    rewrite H1, H2, dot_model, H3 in Hx. cbn [nabs nltb RNum] in Hx. rewrite Rabs_R0 in Hx.
    apply Rltb_true in Hx. pose proof eps_sqrt_pos. lra. }
  rewrite E. eexists. split; [reflexivity|]. split; [reflexivity|]. cbn [sg_P sg_Q sg_nslip].
  split; [apply tab2_length|]. split; [apply tab2_length|].
  intros i Hi. destruct (H i Hi) as (H1 & H2 & _).
  assert (EP : schmidPQ (row3 mV i) (row3 sV i) = matToPQ (ofM3 (outer (s i) (m i)))).
  { unfold schmidPQ. now rewrite H1, H2, outer_model. }
  destruct (matToPQ_spec (outer (s i) (m i))) as [S1 S2].
  split.
  - intros k Hk.
    change (get2 n (tab2 5 n (fun iT iS => get (fst (schmidPQ (row3 mV iS) (row3 sV iS))) iT)) k i = inner (symp (outer (s i) (m i))) (basis k)).
    rewrite get2_tab2 by assumption. rewrite EP, S1. now apply vec5_get.
  - rewrite <- S2, <- EP. unfold toV3.
    assert (G : forall k, (k < 3)%nat -> nth (k * n + i) (tab2 3 n (fun iW iS => get (snd (schmidPQ (row3 mV iS) (row3 sV iS))) iW)) 0
               = get (snd (schmidPQ (row3 mV i) (row3 sV i))) k).
    { intros k Hk. exact (get2_tab2 3 n _ k i Hk Hi). }

    f_equal. f_equal.
    + exact (G 0%nat ltac:(lia)).
    + replace (n + i)%nat with (1 * n + i)%nat by lia. exact (G 1%nat ltac:(lia)).
    + exact (G 2%nat ltac:(lia)).
Qed.

(** ** Generic: different Miller indices give different systems *)
Lemma outer_same s m s' m' e : dotv m m = 1 -> dotv s s = 1 -> dotv m' m' = 1 -> dotv s' s' = 1 ->
  e * e = 1 -> outer s m = scal3 e (outer s' m') ->
  (s = s' \/ s = oppv s') /\ (m = m' \/ m = oppv m').
Proof.
  intros Hm Hs Hm' Hs' He H.
  set (a := e * dotv m' m). set (b := e * dotv s' s).
  assert (E1 : s = mkV (a * v0 s') (a * v1 s') (a * v2 s')).
  { assert (F : mulv (outer s m) m = s).
    { destruct s as [x y z]. replace (mkV x y z) with (mkV (x * dotv m m) (y * dotv m m) (z * dotv m m)) at 2
        by (rewrite Hm; meq; ring). clear. m3. meq; ring. }
    rewrite <- F, H. unfold a. clear. m3. meq; ring. }
  assert (E2 : m = mkV (b * v0 m') (b * v1 m') (b * v2 m')).
  { assert (F : mulv (tr3 (outer s m)) s = m).
    { destruct m as [x y z]. replace (mkV x y z) with (mkV (x * dotv s s) (y * dotv s s) (z * dotv s s)) at 2
        by (rewrite Hs; meq; ring). clear. m3. meq; ring. }
    rewrite <- F, H. unfold b. clear. m3. meq; ring. }
  clearbody a b.
  assert (A1 : a * a = 1).
  { assert (dotv s s = a * a * dotv s' s') by (rewrite E1 at 1 2; clear; m3; ring). rewrite Hs, Hs' in H0. lra. }
  assert (B1 : b * b = 1).
  { assert (dotv m m = b * b * dotv m' m') by (rewrite E2 at 1 2; clear; m3; ring). rewrite Hm, Hm' in H0. lra. }
  assert (R1 : forall x, x * x = 1 -> x = 1 \/ x = -1).
  { intros x Hx. assert (Hf : (x - 1) * (x + 1) = 0) by lra. apply Rmult_integral in Hf. destruct Hf; [left|right]; lra. }
  split.
  - rewrite E1. destruct (R1 a A1) as [-> | ->]; [left|right]; destruct s' as [x y z]; unfold oppv; cbn [v0 v1 v2]; meq; ring.
  - rewrite E2. destruct (R1 b B1) as [-> | ->]; [left|right]; destruct m' as [x y z]; unfold oppv; cbn [v0 v1 v2]; meq; ring.
Qed.

Lemma unit_scale x : 0 < norm3 x -> x = mkV (norm3 x * v0 (unitv x)) (norm3 x * v1 (unitv x)) (norm3 x * v2 (unitv x)).
Proof. intros H. destruct x as [x y z]. unfold unitv. cbn [v0 v1 v2]. set (n := norm3 _) in *. clearbody n. meq; field; lra. Qed.
Lemma unit_par x y : 0 < norm3 x -> 0 < norm3 y -> unitv x = unitv y \/ unitv x = oppv (unitv y) ->
  crossv x y = mkV 0 0 0.
Proof.
  intros Hx Hy H. rewrite (unit_scale x Hx), (unit_scale y Hy).
  set (a := norm3 x). set (b := norm3 y).
  destruct H as [-> | ->]; destruct (unitv y) as [p q r]; unfold crossv, oppv; cbn [v0 v1 v2]; meq; ring.
Qed.
Lemma norm3_pos x : dotv x x <> 0 -> 0 < norm3 x.
Proof. intros H. unfold norm3. apply sqrt_lt_R0. pose proof (dotv_nonneg x). lra. Qed.

(** proportional index vectors *)
Definition par3 (p q : Z3i) : bool :=
  (let '(a, b, c) := p in let '(d, e, f) := q in
   (a * e =? b * d) && (a * f =? c * d) && (b * f =? c * e))%Z%bool.
Definition par4 (p q : Z4i) : bool :=
  let '(h, k, _, l) := p in let '(h', k', _, l') := q in par3 (h, k, l) (h', k', l').

Lemma cub_par p q : crossv (cub p) (cub q) = mkV 0 0 0 -> par3 p q = true.
Proof.
  destruct p as [[a b] c], q as [[d e] f]. unfold cub, crossv, par3. cbn [v0 v1 v2]. intros H.
  assert (forall x y z w : Z, IZR x * IZR y - IZR z * IZR w = 0 -> (x * y = z * w)%Z).
  { intros. apply eq_IZR. rewrite !mult_IZR. lra. }
  apply (f_equal v0) in H as H0'. apply (f_equal v1) in H as H1'. apply (f_equal v2) in H as H2'.
  cbn [v0 v1 v2] in *. apply H0 in H0', H1', H2'.
  rewrite !andb_true_iff, !Z.eqb_eq. repeat split; lia.
Qed.
Lemma par_core k1 k2 k3 (h k l h' k' l' : Z) : k1 <> 0 -> k2 <> 0 -> k3 <> 0 ->
  k1 * (IZR h * IZR k' - IZR k * IZR h') = 0 ->
  k2 * (IZR h * IZR l' - IZR l * IZR h') = 0 ->
  k3 * ((IZR h + 2 * IZR k) * IZR l' - IZR l * (IZR h' + 2 * IZR k')) = 0 ->
  par3 (h, k, l) (h', k', l') = true.
Proof.
  intros K1 K2 K3 H1 H2 H3.
  apply Rmult_integral in H1, H2, H3. destruct H1 as [|H1]; [easy|]. destruct H2 as [|H2]; [easy|]. destruct H3 as [|H3]; [easy|].
  assert (IZR (h * k') = IZR (k * h')) by (rewrite !mult_IZR; lra).
  assert (IZR (h * l') = IZR (l * h')) by (rewrite !mult_IZR; lra).
  assert (IZR (k * l') = IZR (l * k')) by (rewrite !mult_IZR in *; lra).
  apply eq_IZR in H, H0, H4. unfold par3. rewrite !andb_true_iff, !Z.eqb_eq. repeat split; lia.
Qed.
Lemma hexdir_par ca p q : 0 < ca -> hexOK p -> hexOK q ->
  crossv (hexdir ca p) (hexdir ca q) = mkV 0 0 0 -> par4 p q = true.
Proof.
  destruct p as [[[h k] i] l], q as [[[h' k'] i'] l']. unfold hexOK. intros Hc Hp Hq H.
  assert (i = - h - k)%Z by lia. assert (i' = - h' - k')%Z by lia. subst i i'. clear Hp Hq.
  unfold hexdir, addv, lin3, ha1, ha2, ha3, crossv in H. cbn [v0 v1 v2] in H. rewrite !minus_IZR, !opp_IZR in H.
  apply (f_equal v0) in H as H0'. apply (f_equal v1) in H as H1'. apply (f_equal v2) in H as H2'. clear H.
  cbn [v0 v1 v2] in *. pose proof s3_pos as S. unfold s3 in S. set (b := sqrt 3) in *. clearbody b.
  unfold par4. apply (par_core (3 * b / 2) (3 / 2 * ca) (b / 2 * ca)); try (apply Rgt_not_eq; nra).
  - rewrite <- H2'. field.
  - apply Ropp_eq_0_compat in H1'. rewrite <- H1'. field.
  - rewrite <- H0'. field.
Qed.
Lemma hexnrm_par ca p q : 0 < ca -> hexOK p -> hexOK q ->
  crossv (hexnrm ca p) (hexnrm ca q) = mkV 0 0 0 -> par4 p q = true.
Proof.
  destruct p as [[[h k] i] l], q as [[[h' k'] i'] l']. unfold hexOK. intros Hc Hp Hq H.
  assert (i = - h - k)%Z by lia. assert (i' = - h' - k')%Z by lia. subst i i'. clear Hp Hq.
  unfold hexnrm, addv, lin3, ha1, ha2, ha3, crossv in H. cbn [v0 v1 v2] in H. rewrite !minus_IZR, !opp_IZR in H.
  apply (f_equal v0) in H as H0'. apply (f_equal v1) in H as H1'. apply (f_equal v2) in H as H2'. clear H.
  cbn [v0 v1 v2] in *. pose proof s3_pos as S. unfold s3 in S. set (b := sqrt 3) in *. clearbody b.
  assert (Hi : 0 < / ca) by now apply Rinv_0_lt_compat.
  unfold par4. apply (par_core (2 * b / 3) (/ ca) (b / 3 * / ca)); try (apply Rgt_not_eq; nra).
  - rewrite <- H2'. field.
  - apply Ropp_eq_0_compat in H1'. rewrite <- H1'. field. lra.
  - rewrite <- H0'. field. lra.
Qed.

(** all pairs of a table *)
Fixpoint allpairs {A} (t : A -> A -> bool) (l : list A) : bool :=
  match l with [] => true | x :: r => forallb (t x) r && allpairs t r end.
Lemma allpairs_nth {A} (t : A -> A -> bool) d : forall l, allpairs t l = true ->
  forall i j, (i < j < length l)%nat -> t (nth i l d) (nth j l d) = true.
Proof.
  induction l as [|x r IH]; cbn; intros H i j Hij; [lia|].
  apply andb_true_iff in H as [H1 H2]. destruct j as [|j]; [lia|]. destruct i as [|i].
  - rewrite forallb_forall in H1. apply H1, nth_In. lia.
  - apply IH; [assumption|lia].
Qed.

Definition nzZ (p : Z3i) : bool := negb (zdot p p =? 0)%Z.
Lemma cub_dot p q : dotv (cub p) (cub q) = IZR (zdot p q).
Proof. destruct p as [[a b] c], q as [[d e] f]. unfold dotv, cub, zdot. cbn [v0 v1 v2]. now rewrite !plus_IZR, !mult_IZR. Qed.
Lemma cub_norm p : nzZ p = true -> 0 < norm3 (cub p).
Proof.
  intros H. apply norm3_pos. rewrite cub_dot. unfold nzZ in H. apply negb_true_iff, Z.eqb_neq in H. now apply not_0_IZR.
Qed.
Lemma unit_dot0 x y : dotv x y = 0 -> dotv (unitv x) (unitv y) = 0.
Proof.
  intros H. assert (E : dotv (unitv x) (unitv y) = / norm3 x * / norm3 y * dotv x y).
  { destruct x as [x y' z], y as [p q r]. unfold dotv, unitv. cbn [v0 v1 v2]. ring. }
  rewrite E, H. ring.
Qed.

Definition sysok3 (p : Z3i * Z3i) : bool := nzZ (fst p) && nzZ (snd p) && (zdot (fst p) (snd p) =? 0)%Z.
Definition diff3 (p q : Z3i * Z3i) : bool := negb (par3 (fst p) (fst q) && par3 (snd p) (snd q)).

Lemma legal_of (n : nat) (m s : nat -> V3) :
  (forall i, (i < n)%nat -> 0 < norm3 (m i) /\ 0 < norm3 (s i) /\ dotv (m i) (s i) = 0) ->
  (forall i j, (i < j < n)%nat -> crossv (m i) (m j) = mkV 0 0 0 -> crossv (s i) (s j) = mkV 0 0 0 -> False) ->
  legal_systems n (fun i => unitv (m i)) (fun i => unitv (s i)).
Proof.
  intros H1 H2.
  assert (U : forall i, (i < n)%nat -> dotv (unitv (m i)) (unitv (m i)) = 1 /\ dotv (unitv (s i)) (unitv (s i)) = 1
     /\ dotv (unitv (m i)) (unitv (s i)) = 0).
  { intros i Hi. destruct (H1 i Hi) as (A & B & C).
    refine (conj (unitv_unit _ A) (conj (unitv_unit _ B) (unit_dot0 _ _ C))). }
  split; [exact U|]. intros i j Hij.
  destruct (U i ltac:(lia)) as (A1 & B1 & _). destruct (U j ltac:(lia)) as (A2 & B2 & _).
  destruct (H1 i ltac:(lia)) as (N1 & M1 & _). destruct (H1 j ltac:(lia)) as (N2 & M2 & _).
  assert (G : forall e, e * e = 1 -> outer (unitv (s i)) (unitv (m i)) = scal3 e (outer (unitv (s j)) (unitv (m j))) -> False).
  { intros e He E. destruct (outer_same _ _ _ _ e A1 B1 A2 B2 He E) as [Es Em].
    apply (H2 i j Hij); apply unit_par; assumption. }
  split.
  - intros E. apply (G 1); [ring|]. rewrite E. clear. set (A := outer _ _). clearbody A. m3. meq; ring.
  - intros E. apply (G (-1)); [ring|]. exact E.
Qed.

Lemma legal_cub (t : list (Z3i * Z3i)) : forallb sysok3 t = true -> allpairs diff3 t = true ->
  legal_systems (length t) (fun i => unitv (cub (fst (nth i t d3)))) (fun i => unitv (cub (snd (nth i t d3)))).
Proof.
  intros H1 H2. apply legal_of.
  - intros i Hi. rewrite forallb_forall in H1. specialize (H1 _ (nth_In _ d3 Hi)).
    unfold sysok3 in H1. apply andb_true_iff in H1 as [H1 H3]. apply andb_true_iff in H1 as [H0 H1].
    refine (conj (cub_norm _ H0) (conj (cub_norm _ H1) _)). rewrite cub_dot. apply Z.eqb_eq in H3. now rewrite H3.
  - intros i j Hij E1 E2. pose proof (allpairs_nth _ d3 _ H2 i j Hij) as D. unfold diff3 in D.
    now rewrite (cub_par _ _ E1), (cub_par _ _ E2) in D.
Qed.

(** ** Cubic tables *)
Lemma cub_unit p r : / sqrt (IZR (zdot p p)) = r ->
  ofV3 (unitv (cub p)) = let '(a, b, c) := p in [r * IZR a; r * IZR b; r * IZR c].
Proof. intros <-. unfold unitv, norm3. rewrite cub_dot. destruct p as [[a b] c]. reflexivity. Qed.

Ltac cubrow :=
  match goal with |- ?l = ofV3 (unitv (cub ?p)) =>
    let p' := eval vm_compute in p in
    change p with p';
    let k := eval vm_compute in (zdot p' p') in
    lazymatch k with
    | 3%Z => rewrite (cub_unit p' (s3 / 3) inv_s3)
    | 2%Z => rewrite (cub_unit p' (s2 / 2) inv_s2)
    | 6%Z => rewrite (cub_unit p' (s2 * s3 / 6) sqrt6_s)
    | 14%Z => rewrite (cub_unit p' (/ sqrt 14) eq_refl)
    end
  end; unfold row3; rarr; unfold Rdiv; meq; ring.

Lemma forall_lt_S (P : nat -> Prop) n : P n -> (forall i, (i < n)%nat -> P i) -> forall i, (i < S n)%nat -> P i.
Proof. intros H1 H2 i Hi. destruct (Nat.eq_dec i n) as [-> | ]; [assumption | apply H2; lia]. Qed.
Lemma forall_lt_0 (P : nat -> Prop) : forall i, (i < 0)%nat -> P i.
Proof. intros; lia. Qed.

Lemma fcc_m_rows : forall i, (i < 12)%nat -> row3 fcc_m i = ofV3 (unitv (cub (fst (nth i sys_fcc d3)))).
Proof. do 12 (apply forall_lt_S; [unfold fcc_m; cubrow|]). apply forall_lt_0. Qed.
Lemma fcc_s_rows : forall i, (i < 12)%nat -> row3 fcc_s i = ofV3 (unitv (cub (snd (nth i sys_fcc d3)))).
Proof. do 12 (apply forall_lt_S; [unfold fcc_s; cubrow|]). apply forall_lt_0. Qed.
Lemma bcc_m_rows : forall i, (i < 48)%nat -> row3 (bcc_m 48) i = ofV3 (unitv (cub (fst (nth i (sys_bcc 48) d3)))).
Proof. do 48 (apply forall_lt_S; [unfold bcc_m, bcc_m0, bcc_mA, bcc_mB; cubrow|]). apply forall_lt_0. Qed.
Lemma bcc_s_rows : forall i, (i < 48)%nat -> row3 (bcc_s 48) i = ofV3 (unitv (cub (snd (nth i (sys_bcc 48) d3)))).
Proof. do 48 (apply forall_lt_S; [unfold bcc_s, bcc_s0, bcc_sB; cubrow|]). apply forall_lt_0. Qed.
Lemma bcc_m_rows12 : forall i, (i < 12)%nat -> row3 (bcc_m 12) i = ofV3 (unitv (cub (fst (nth i (sys_bcc 12) d3)))).
Proof. do 12 (apply forall_lt_S; [unfold bcc_m, bcc_m0; cubrow|]). apply forall_lt_0. Qed.
Lemma bcc_s_rows12 : forall i, (i < 12)%nat -> row3 (bcc_s 12) i = ofV3 (unitv (cub (snd (nth i (sys_bcc 12) d3)))).
Proof. do 12 (apply forall_lt_S; [unfold bcc_s, bcc_s0; cubrow|]). apply forall_lt_0. Qed.
Lemma bcc_m_rows24 : forall i, (i < 24)%nat -> row3 (bcc_m 24) i = ofV3 (unitv (cub (fst (nth i (sys_bcc 24) d3)))).
Proof. do 24 (apply forall_lt_S; [unfold bcc_m, bcc_m0, bcc_mA; cubrow|]). apply forall_lt_0. Qed.
Lemma bcc_s_rows24 : forall i, (i < 24)%nat -> row3 (bcc_s 24) i = ofV3 (unitv (cub (snd (nth i (sys_bcc 24) d3)))).
Proof. do 24 (apply forall_lt_S; [unfold bcc_s, bcc_s0; cubrow|]). apply forall_lt_0. Qed.

Lemma geom_fcc : exists g, slipGeomFCC = Some g /\ sg_nslip g = 12%nat /\
  schmid_data (sg_P g) (sg_Q g) 12 (fun i => unitv (cub (fst (nth i sys_fcc d3)))) (fun i => unitv (cub (snd (nth i sys_fcc d3)))) /\
  legal_systems 12 (fun i => unitv (cub (fst (nth i sys_fcc d3)))) (fun i => unitv (cub (snd (nth i sys_fcc d3)))).
Proof.
  assert (L := legal_cub sys_fcc eq_refl eq_refl). change (length sys_fcc) with 12%nat in L.
  destruct (fill_spec fcc_m fcc_s 12 _ _ (fun i Hi => conj (fcc_m_rows i Hi) (conj (fcc_s_rows i Hi) (proj2 (proj2 (proj1 L i Hi))))))
    as (g & G1 & G2 & G3).
  exists g. exact (conj G1 (conj G2 (conj G3 L))).
Qed.
Lemma bcc_sizes {T} {N : Num T} n (g : SlipGeom T) : slipGeomBCC n = Some g -> n = 12%nat \/ n = 24%nat \/ n = 48%nat.
Proof.
  unfold slipGeomBCC, bcc_nslip_ok. intros H.
  destruct (Nat.eqb_spec n 12); [auto|]. destruct (Nat.eqb_spec n 24); [auto|]. destruct (Nat.eqb_spec n 48); [auto|]. discriminate H.
Qed.
Lemma geom_bcc n : n = 12%nat \/ n = 24%nat \/ n = 48%nat -> exists g, slipGeomBCC n = Some g /\ sg_nslip g = n /\
  schmid_data (sg_P g) (sg_Q g) n (fun i => unitv (cub (fst (nth i (sys_bcc n) d3)))) (fun i => unitv (cub (snd (nth i (sys_bcc n) d3)))) /\
  legal_systems n (fun i => unitv (cub (fst (nth i (sys_bcc n) d3)))) (fun i => unitv (cub (snd (nth i (sys_bcc n) d3)))).
Proof.
  intros Hn.
  assert (L : legal_systems n (fun i => unitv (cub (fst (nth i (sys_bcc n) d3)))) (fun i => unitv (cub (snd (nth i (sys_bcc n) d3))))).
  { replace n with (length (sys_bcc n)) at 1 by (destruct Hn as [-> | [-> | ->]]; reflexivity).
    apply legal_cub; destruct Hn as [-> | [-> | ->]]; vm_compute; reflexivity. }
  assert (RM : forall i, (i < n)%nat -> row3 (bcc_m n) i = ofV3 (unitv (cub (fst (nth i (sys_bcc n) d3))))).
  { destruct Hn as [-> | [-> | ->]]; [exact bcc_m_rows12 | exact bcc_m_rows24 | exact bcc_m_rows]. }
  assert (RS : forall i, (i < n)%nat -> row3 (bcc_s n) i = ofV3 (unitv (cub (snd (nth i (sys_bcc n) d3))))).
  { destruct Hn as [-> | [-> | ->]]; [exact bcc_s_rows12 | exact bcc_s_rows24 | exact bcc_s_rows]. }
  destruct (fill_spec (bcc_m n) (bcc_s n) n _ _ (fun i Hi => conj (RM i Hi) (conj (RS i Hi) (proj2 (proj2 (proj1 L i Hi))))))
    as (g & G1 & G2 & G3).
  exists g. split; [|exact (conj G2 (conj G3 L))].
  unfold slipGeomBCC. replace (bcc_nslip_ok n) with true by (destruct Hn as [-> | [-> | ->]]; reflexivity). exact G1.
Qed.

(** ** Completeness of the families, by enumeration of small index vectors *)
Definition rng : list Z := [-3; -2; -1; 0; 1; 2; 3]%Z.
Definition cube : list Z3i := flat_map (fun a => flat_map (fun b => map (fun c => (a, b, c)) rng) rng) rng.
Lemma in_rng a : (-3 <= a <= 3)%Z -> In a rng.
Proof. intros H. unfold rng. cbn. lia. Qed.
Lemma in_cube a b c : (-3 <= a <= 3)%Z -> (-3 <= b <= 3)%Z -> (-3 <= c <= 3)%Z -> In (a, b, c) cube.
Proof.
  intros. unfold cube. apply in_flat_map. exists a. split; [now apply in_rng|].
  apply in_flat_map. exists b. split; [now apply in_rng|]. apply in_map_iff. exists c. split; [reflexivity | now apply in_rng].
Qed.
Lemma sq_bound x k : (x * x <= k -> k <= 15 -> -3 <= x <= 3)%Z.
Proof. nia. Qed.
Lemma fam_cube k p : (k <= 15)%Z -> fam k p -> In p cube.
Proof.
  destruct p as [[a b] c]. unfold fam, sq3, zdot. intros Hk H.
  pose proof (Z.square_nonneg a). pose proof (Z.square_nonneg b). pose proof (Z.square_nonneg c).
  apply in_cube; eapply sq_bound; try eassumption; lia.
Qed.
Definition eqZ3 (p q : Z3i) : bool :=
  (let '(a, b, c) := p in let '(d, e, f) := q in (a =? d) && (b =? e) && (c =? f))%Z%bool.
Lemma eqZ3_true p q : eqZ3 p q = true -> p = q.
Proof.
  destruct p as [[a b] c], q as [[d e] f]. cbn. rewrite !andb_true_iff, !Z.eqb_eq. intros [[-> ->] ->]. reflexivity.
Qed.
Definition pmb (p q : Z3i) : bool := eqZ3 p q || eqZ3 p (zneg q).
Lemma pmb_pm p q : pmb p q = true -> pm p q.
Proof. unfold pmb, pm. rewrite orb_true_iff. intros [H|H]; apply eqZ3_true in H; auto. Qed.
Definition complete3 (k l : Z) (t : list (Z3i * Z3i)) : bool :=
  forallb (fun p => forallb (fun d => negb (zdot p d =? 0)%Z || existsb (fun q => pmb p (fst q) && pmb d (snd q)) t)
             (filter (fun d => (sq3 d =? l)%Z) cube)) (filter (fun p => (sq3 p =? k)%Z) cube).
Lemma complete3_ok k l t : (k <= 15)%Z -> (l <= 15)%Z -> complete3 k l t = true ->
  forall p d, fam k p -> fam l d -> zdot p d = 0%Z ->
  exists i, (i < length t)%nat /\ pm p (fst (nth i t d3)) /\ pm d (snd (nth i t d3)).
Proof.
  intros Hk Hl H p d Hp Hd Hz. unfold complete3 in H. rewrite forallb_forall in H.
  specialize (H p). rewrite filter_In in H. specialize (H (conj (fam_cube k p Hk Hp) (proj2 (Z.eqb_eq _ _) Hp))).
  rewrite forallb_forall in H. specialize (H d). rewrite filter_In in H.
  specialize (H (conj (fam_cube l d Hl Hd) (proj2 (Z.eqb_eq _ _) Hd))).
  rewrite Hz in H. cbn [negb Z.eqb orb] in H. apply existsb_exists in H. destruct H as (q & Hq & HH).
  apply andb_true_iff in HH as [A B]. destruct (In_nth _ _ d3 Hq) as (i & Hi & E).
  exists i. rewrite E. split; [assumption|]. split; now apply pmb_pm.
Qed.
Definition infam (k l : Z) (t : list (Z3i * Z3i)) : bool := forallb (fun q => (sq3 (fst q) =? k)%Z && (sq3 (snd q) =? l)%Z) t.
Lemma infam_ok k l t : infam k l t = true -> forall i, (i < length t)%nat -> fam k (fst (nth i t d3)) /\ fam l (snd (nth i t d3)).
Proof.
  intros H i Hi. unfold infam in H. rewrite forallb_forall in H. specialize (H _ (nth_In _ d3 Hi)).
  apply andb_true_iff in H as [A B]. apply Z.eqb_eq in A, B. now split.
Qed.
Lemma fcc_complete p d : fam 3 p -> fam 2 d -> zdot p d = 0%Z ->
  exists i, (i < 12)%nat /\ pm p (fst (nth i sys_fcc d3)) /\ pm d (snd (nth i sys_fcc d3)).
Proof. exact (complete3_ok 3 2 sys_fcc ltac:(lia) ltac:(lia) eq_refl p d). Qed.
Lemma nth_bcc0 n i : (i < 12)%nat -> nth i (sys_bcc n) d3 = nth i sys_bcc110 d3.
Proof. intros H. unfold sys_bcc. now rewrite app_nth1 by exact H. Qed.
Lemma nth_bcc1 n i : (24 <= n)%nat -> (i < 12)%nat -> nth (12 + i) (sys_bcc n) d3 = nth i sys_bcc112 d3.
Proof.
  intros H Hi. unfold sys_bcc. apply Nat.leb_le in H. rewrite H. rewrite app_nth2 by (cbn [length map sys_bcc110 sys_fcc]; lia).
  rewrite app_nth1; [f_equal; cbn [length map sys_bcc110 sys_fcc]; lia|]. cbn [length map sys_bcc110 sys_fcc sys_bcc112]. lia.
Qed.
Lemma nth_bcc2 i : (i < 24)%nat -> nth (24 + i) (sys_bcc 48) d3 = nth i sys_bcc123 d3.
Proof.
  intros Hi. unfold sys_bcc. cbn [Nat.leb]. rewrite app_nth2 by (cbn [length map sys_bcc110 sys_fcc]; lia).
  rewrite app_nth2 by (cbn [length map sys_bcc110 sys_fcc sys_bcc112]; lia). f_equal. cbn [length map sys_bcc110 sys_fcc sys_bcc112]. lia.
Qed.
Lemma bcc_complete n p d : fam 3 d -> zdot p d = 0%Z ->
  (fam 2 p /\ (12 <= n)%nat) \/ (fam 6 p /\ (24 <= n)%nat) \/ (fam 14 p /\ n = 48%nat) ->
  exists i, (i < n)%nat /\ pm p (fst (nth i (sys_bcc n) d3)) /\ pm d (snd (nth i (sys_bcc n) d3)).
Proof.
  intros Hd Hz [[Hp Hn]|[[Hp Hn]|[Hp ->]]].
  - destruct (complete3_ok 2 3 sys_bcc110 ltac:(lia) ltac:(lia) eq_refl p d Hp Hd Hz) as (i & Hi & H).
    change (length sys_bcc110) with 12%nat in Hi. exists i. rewrite nth_bcc0 by assumption. split; [lia|assumption].
  - destruct (complete3_ok 6 3 sys_bcc112 ltac:(lia) ltac:(lia) eq_refl p d Hp Hd Hz) as (i & Hi & H).
    change (length sys_bcc112) with 12%nat in Hi. exists (12 + i)%nat. rewrite nth_bcc1 by assumption. split; [lia|assumption].
  - destruct (complete3_ok 14 3 sys_bcc123 ltac:(lia) ltac:(lia) eq_refl p d Hp Hd Hz) as (i & Hi & H).
    change (length sys_bcc123) with 24%nat in Hi. exists (24 + i)%nat. rewrite nth_bcc2 by assumption. split; [lia|assumption].
Qed.
Lemma fcc_family i : (i < 12)%nat -> fam 3 (fst (nth i sys_fcc d3)) /\ fam 2 (snd (nth i sys_fcc d3)).
Proof. exact (infam_ok 3 2 sys_fcc eq_refl i). Qed.
Lemma bcc_family n i : n = 12%nat \/ n = 24%nat \/ n = 48%nat -> (i < n)%nat ->
  fam 3 (snd (nth i (sys_bcc n) d3)) /\
  fam (if Nat.ltb i 12 then 2 else if Nat.ltb i 24 then 6 else 14)%Z (fst (nth i (sys_bcc n) d3)).
Proof.
  intros Hn Hi. destruct (Nat.ltb_spec i 12) as [H|H].
  - rewrite nth_bcc0 by assumption. apply and_comm, (infam_ok 2 3 sys_bcc110 eq_refl i H).
  - destruct (Nat.ltb_spec i 24) as [H'|H'].
    + replace i with (12 + (i - 12))%nat by lia. rewrite nth_bcc1 by lia.
      apply and_comm, (infam_ok 6 3 sys_bcc112 eq_refl (i - 12)%nat). change (length sys_bcc112) with 12%nat. lia.
    + assert (n = 48%nat) by lia. subst n. replace i with (24 + (i - 24))%nat by lia. rewrite nth_bcc2 by lia.
      apply and_comm, (infam_ok 14 3 sys_bcc123 eq_refl (i - 24)%nat). change (length sys_bcc123) with 24%nat. lia.
Qed.
