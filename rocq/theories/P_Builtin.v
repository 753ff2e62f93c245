(** Built-in models over R: what any reachable object contains and what a successful batch call means. *)
From Coq Require Import List ZArith Bool Lia PeanoNat Reals Lra String.
From Verif Require Import Num Arr NumR Util SlipGeom Eos Hard KinVoce KinKMBalD Elast Evptn MatModel Cases
  P_Sngl P_Sngl2 P_Batch P_Batch2 P_Batch3 P_Api P_Eos.
Import ListNotations.
Local Open Scope R_scope.

(** ** Parts of built-in classes *)
Lemma fill_nslip {T} {N : Num T} (m s : list T) n g : fillFromMS m s n = Some g -> sg_nslip g = n.
Proof. unfold fillFromMS. destruct existsb; [discriminate|]. intros H. apply (f_equal (option_map sg_nslip)) in H. cbn [option_map sg_nslip] in H. congruence. Qed.

Lemma bulk_pos (e : Elast R) b : el_getBulkMod e = Some b -> 0 < b.
Proof.
  unfold el_getBulkMod. cbn [nleb nZ RNum]. destruct Rleb eqn:E; [discriminate|].
  intros H. injection H as <-. now apply Rleb_false in E.
Qed.
Lemma gmod_pos (e : Elast R) b : el_getGmod e = Some b -> 0 < b.
Proof.
  unfold el_getGmod. cbn [nleb nZ RNum]. destruct Rleb eqn:E; [discriminate|].
  intros H. injection H as <-. now apply Rleb_false in E.
Qed.

(** a material whose parts fit together *)
Definition mat_ok (c : MClass R) (m : Mat R) : Prop :=
  sg_nslip (m_sg m) = c_nslip c /\ k_nH (m_kin m) = c_nH c /\ kin_shapes (m_kin m) (sg_nslip (m_sg m)) /\
  exists rho bulk cv gamma ec0, 0 < bulk /\ m_eos m = eos_setParams (c_iso c) [rho; bulk; cv; gamma; ec0].

Lemma builtin_parts {T} {N : Num T} (hs : Solver T) c : builtin hs c ->
  (forall p sg, c_sgSet c p = Some sg -> sg_nslip sg = c_nslip c) /\
  (forall p k h, c_kinSet c p = Some (k, h) -> k_nH k = c_nH c /\ kin_shapes k (c_nslip c)) /\ c_iso c = false.
Proof.
  assert (V : forall nl p k h, kinVoce hs nl 12 p = Some (k, h) -> k_nH k = 1%nat /\ kin_shapes k 12).
  { intros nl p k h H. unfold kinVoce in H. apply (f_equal (option_map fst)) in H. cbn [option_map fst] in H.
    assert (E : k = voce_kinetics hs (voce_setParams nl p) 12) by congruence. subst k. split; [reflexivity | apply voce_shapes]. }
  assert (K : forall a b c d nv ns p k h, kinKM hs a b c d nv ns p = Some (k, h) -> k_nH k = 1%nat /\ kin_shapes k ns).
  { intros a b c' d nv ns p k h H. unfold kinKM in H. destruct andb; [|discriminate].
    apply (f_equal (option_map fst)) in H. cbn [option_map fst] in H.
    assert (E : k = km_kinetics hs (km_setParams a b c' d nv p) ns) by congruence. subst k. split; [reflexivity | apply km_shapes]. }
  intros [ -> | [ -> | [ -> | [ -> | [ -> | [ -> | -> ]]]]]]; (split; [|split; [|reflexivity]]); cbn [c_sgSet c_kinSet c_nslip c_nH cls_FCC_A cls_FCC_AH cls_FCC_B cls_BCC_A cls_HCP_A cls_BCC_B cls_BCC_BH];
    try (intros p k h H; first [eapply V; exact H | eapply K; exact H]);
    intros p sg H; unfold slipGeomFCC, slipGeomBCC, slipGeomHCP in H;
    [exact (fill_nslip _ _ _ _ H) .. |].
  destruct (hcp_tables (get p 0)) as [[mm ss]|]; [|discriminate]. exact (fill_nslip _ _ _ _ H).
Qed.

Lemma ready_ok hs c s mat tol : builtin hs c -> comp_inv c s -> mm_ready s = Some (mat, tol) -> mat_ok c mat.
Proof.
  intros HB (I1 & I2 & I3 & I4) H. destruct (builtin_parts hs c HB) as (B1 & B2 & B3).
  unfold mm_ready in H.
  destruct (mm_sg s) as [sg|] eqn:E1; [|discriminate]. destruct (mm_kin s) as [kin|] eqn:E2; [|discriminate].
  destruct (mm_el s) as [el|] eqn:E3; [|discriminate]. destruct (mm_eos s) as [eos|] eqn:E4; [|discriminate].
  destruct (mm_tol s) as [tl|]; [|discriminate].
  apply (f_equal (option_map fst)) in H. cbn [option_map fst] in H.
  assert (E : mat = {| m_sg := sg; m_kin := kin; m_el := el; m_eos := eos |}) by congruence. subst mat. clear H.
  destruct (I1 _ eq_refl) as (p1 & H1). destruct (I2 _ eq_refl) as (p2 & h2 & H2).
  destruct (I4 _ eq_refl) as (el' & bulk & rho & cv & tl' & H4 & H5 & H6).
  specialize (B1 _ _ H1). destruct (B2 _ _ _ H2) as [B4 B5].
  unfold mat_ok. cbn [m_sg m_kin m_eos]. split; [assumption|]. split; [assumption|]. rewrite B1.
  split; [assumption|].
  destruct tl' as [|gamma [|ec0 [|]]]; try discriminate H5.
  exists rho, bulk, cv, gamma, ec0. split; [exact (bulk_pos _ _ H4) | exact H6].
Qed.

(** ** Batch calls on reachable objects *)
Lemma reach_strides_ok {T} {N : Num T} (c : MClass T) s mtan : reachable c s ->
  strides_ok (mm_strides s) (c_nH c) (c_nslip c) mtan.
Proof.
  intros H. destruct (reach_inv c s H) as [_ [ -> | (st & s0 & E & ->)]].
  - intros a. destruct a; cbn; unfold mm_numHist; try lia. destruct mtan; lia.
  - unfold mm_newStrides in E. cbn [Nat.eqb negb] in E.
    repeat match goal with H : (if Nat.ltb ?a ?b then _ else _) = _ |- _ => destruct (Nat.ltb_spec a b); [discriminate|] end.
    assert (G : forall k, (k < 8)%nat -> gstride (firstn 8 st) k = gstride st k).
    { intros k Hk. unfold gstride. rewrite <- (firstn_skipn 8 st) at 2.
      destruct (Nat.lt_ge_cases k (List.length (firstn 8 st))).
      - now rewrite app_nth1.
      - rewrite nth_overflow by assumption. rewrite firstn_length in H8.
        rewrite nth_overflow; [reflexivity|]. rewrite firstn_skipn. lia. }
    intros a. destruct a; cbn [per_point stride_of];
      rewrite ?G by (unfold st_def_rate, st_spin, st_vol_ratio, st_int_eng, st_stress, st_history, st_tkelv, st_sdd; lia);
      try assumption. destruct mtan; lia.
Qed.

(** the caller's side of a batch call: index range and buffer sizes *)
Definition batch_ok {T} (c : MClass T) (s : MM T) (mtan : bool) (n : nat) (m : Mem T) : Prop :=
  no_wrap (mm_strides s) mtan n /\ buffers_ok (mm_strides s) (c_nH c) (c_nslip c) mtan n m.

Definition pt_of {T} {N : Num T} (c : MClass T) (s : MM T) (mtan : bool) (m : Mem T) (i : nat) : Pt T :=
  pt_at (mm_strides s) (c_nH c) (c_nslip c) mtan m i.
Definition cell_of {T} (c : MClass T) (s : MM T) (mtan : bool) (m : Mem T) (a : arr) (i : nat) : list T :=
  cell (mm_strides s) (c_nH c) (c_nslip c) mtan m a i.


Lemma pair_eq {A B} (x : A * B) a b : fst x = a -> b = snd x -> x = (a, b).
Proof. destruct x; cbn; congruence. Qed.

Lemma seq_split n pre k post : seq 0 n = pre ++ k :: post ->
  pre = seq 0 k /\ (k < n)%nat /\ post = seq (S k) (n - S k).
Proof.
  intros E1.
  assert (L : n = (List.length pre + S (List.length post))%nat).
  { apply (f_equal (@List.length nat)) in E1. rewrite seq_length, app_length in E1. exact E1. }
  assert (E2 : seq 0 n = seq 0 (List.length pre) ++ seq (List.length pre) (S (List.length post))) by (rewrite L at 1; apply seq_app).
  rewrite E1 in E2.
  assert (E3 : pre = seq 0 (List.length pre) /\ k :: post = seq (List.length pre) (S (List.length post))).
  { revert E2. generalize (seq (List.length pre) (S (List.length post))) as b. intros b E2.
    assert (LL : List.length pre = List.length (seq 0 (List.length pre))) by now rewrite seq_length.
    revert LL E2. generalize (seq 0 (List.length pre)) as a. clear. intros a. revert pre.
    induction a as [|x a IH]; intros [|y p] LL E; try discriminate LL; cbn in *; [auto|].
    injection E as -> E. injection LL as LL. destruct (IH p LL E) as [-> ->]. auto. }
  destruct E3 as [E3 E4]. cbn [seq] in E4. injection E4 as -> E5.
  split; [assumption|]. split; [lia|]. rewrite E5. f_equal. lia.
Qed.

Lemma api_batch {T} {N : Num T} (c : MClass T) s solver lu dt mtan n m mat tol :
  reachable c s -> mm_complete s = true -> mm_ready s = Some (mat, tol) -> batch_ok c s mtan n m ->
  exists o m1, mm_getResponse solver lu c s dt mtan (Z.of_nat n) m = (BRet o, m1) /\
    untouched (mm_strides s) (c_nH c) (c_nslip c) mtan n m m1 /\
    let pr i := getResponseSngl solver lu mat dt tol (cell_of c s mtan m AD i) (cell_of c s mtan m AW i)
                  (cell_of c s mtan m AV i) (pt_of c s mtan m i) in
    match o with
    | Done => forall i, (i < n)%nat -> pr i = (Done, pt_of c s mtan m1 i)
    | _ => exists k, (k < n)%nat /\ pr k = (o, pt_of c s mtan m1 k) /\
           (forall i, (i < k)%nat -> pr i = (Done, pt_of c s mtan m1 i)) /\
           (forall i, (k < i < n)%nat -> pt_of c s mtan m1 i = pt_of c s mtan m i)
    end.
Proof.
  intros HR HC HM [HW HB]. pose proof (reach_strides_ok c s mtan HR) as HS.
  unfold mm_getResponse. rewrite HC. cbn [negb]. rewrite Nat2Z.id.
  destruct (seq_batch solver lu mat dt tol (mm_strides s) (c_nH c) (c_nslip c) mtan n HS HW (seq 0 n) m) as (o & m1 & E & U & A & R).
  { apply seq_NoDup. } { intros i Hi. apply in_seq in Hi. lia. } { assumption. }
  exists o, m1. split.
  { destruct (seq 0 n) eqn:ES; [exact E|]. rewrite HM. exact E. }
  split; [assumption|]. cbv zeta.
  assert (G : forall o', o' <> Done ->
     (exists pre k post, seq 0 n = pre ++ k :: post /\
       fst (resp solver lu mat dt tol (mm_strides s) (c_nH c) (c_nslip c) mtan m k) = o' /\
       pt_at (mm_strides s) (c_nH c) (c_nslip c) mtan m1 k = snd (resp solver lu mat dt tol (mm_strides s) (c_nH c) (c_nslip c) mtan m k) /\
       (forall i, In i pre -> point_done solver lu mat dt tol (mm_strides s) (c_nH c) (c_nslip c) mtan m m1 i) /\
       (forall i, In i post -> agree (ownN (mm_strides s) (c_nH c) (c_nslip c) mtan n i) m1 m)) ->
     exists k, (k < n)%nat /\ getResponseSngl solver lu mat dt tol (cell_of c s mtan m AD k) (cell_of c s mtan m AW k)
                  (cell_of c s mtan m AV k) (pt_of c s mtan m k) = (o', pt_of c s mtan m1 k) /\
           (forall i, (i < k)%nat -> getResponseSngl solver lu mat dt tol (cell_of c s mtan m AD i) (cell_of c s mtan m AW i)
                  (cell_of c s mtan m AV i) (pt_of c s mtan m i) = (Done, pt_of c s mtan m1 i)) /\
           (forall i, (k < i < n)%nat -> pt_of c s mtan m1 i = pt_of c s mtan m i)).
  { intros o' _ (pre & k & post & E1 & R1 & R2 & R3 & R4).
    destruct (seq_split _ _ _ _ E1) as (P1 & P3 & P4). exists k. split; [assumption|]. split; [|split].
    - now apply pair_eq.
    - intros i Hi. destruct (R3 i) as [R5 R6]; [rewrite P1; apply in_seq; lia|]. now apply pair_eq.
    - intros i Hi. apply (pt_agree solver lu mat dt tol (mm_strides s) (c_nH c) (c_nslip c) mtan n m1 m i); [lia|].
      apply R4. rewrite P4. apply in_seq. lia. }
  destruct o.
  - intros i Hi. destruct (R i) as [R1 R2]; [apply in_seq; lia|]. now apply pair_eq.
  - apply G; [discriminate|exact R].
  - apply G; [discriminate|exact R].
Qed.

(** A successful call: every point succeeded on its own *)
Lemma api_done hs (c : MClass R) s solver lu dt mtan n m m1 :
  builtin hs c -> reachable c s -> batch_ok c s mtan n m ->
  mm_getResponse solver lu c s dt mtan (Z.of_nat n) m = (BRet Done, m1) ->
  untouched (mm_strides s) (c_nH c) (c_nslip c) mtan n m m1 /\ (n = 0%nat \/
  exists mat tol, mm_ready s = Some (mat, tol) /\ mat_ok c mat /\
    forall i, (i < n)%nat -> pt_shapes mat (pt_of c s mtan m i) /\
      getResponseSngl solver lu mat dt tol (cell_of c s mtan m AD i) (cell_of c s mtan m AW i)
                  (cell_of c s mtan m AV i) (pt_of c s mtan m i) = (Done, pt_of c s mtan m1 i)).
Proof.
  intros HB HR HO H. pose proof (reach_inv c s HR) as [HI _].
  destruct (mm_complete s) eqn:EC.
  2:{ unfold mm_getResponse in H. rewrite EC in H. cbn [negb] in H. discriminate. }
  destruct (mm_ready s) as [[mat tol]|] eqn:EM.
  2:{ unfold mm_getResponse in H. rewrite EC, EM, Nat2Z.id in H. cbn [negb] in H.
      destruct n as [|n]; [|discriminate]. cbn [seq] in H. apply (f_equal snd) in H. cbn [snd] in H. subst m1.
      split; [split; auto|]. now left. }
  destruct (api_batch c s solver lu dt mtan n m mat tol HR EC EM HO) as (o & m1' & E & U & P).
  rewrite H in E. assert (m1' = m1) by congruence. assert (o = Done) by congruence. subst.
  split; [assumption|]. right. exists mat, tol. split; [reflexivity|].
  pose proof (ready_ok hs c s mat tol HB HI EM) as MO. split; [assumption|].
  intros i Hi. split; [|now apply P].
  destruct MO as (M1 & M2 & _). destruct HO as [HW HBu].
  unfold pt_shapes, pt_of, pt_at. cbn [pt_eInt pt_stress pt_hist pt_sdd pt_mtan]. rewrite M1, M2.
  assert (L : forall a, (0 < width (c_nH c) (c_nslip c) mtan a)%nat -> List.length (cell (mm_strides s) (c_nH c) (c_nslip c) mtan m a i) = width (c_nH c) (c_nslip c) mtan a).
  { intros a Ha. apply sub_length. rewrite (offs_eq (mm_strides s) mtan n HW) by assumption. rewrite width_eq in *. now apply HBu. }
  split; [apply (L AE); cbn; lia|]. split; [apply (L AS); cbn; lia|]. split; [apply (L AH); cbn; lia|]. split; [apply (L AB); cbn; lia|].
  intros mt E2. destruct mtan; [|discriminate]. assert (EE : mt = cell (mm_strides s) (c_nH c) (c_nslip c) true m AM i) by congruence.
  rewrite EE. apply (L AM). cbn; lia.
Qed.
