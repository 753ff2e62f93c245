(** Loops over points that write disjoint blocks, and the data conversions of the mini-app. *)
From Coq Require Import List ZArith Bool Lia PeanoNat Reals Lra Permutation.
From Verif Require Import Num Arr NumR Util Hard Elast Evptn MatModel Cases Miniapp SpecTensor SpecApi SpecStep SpecMini
  P_Batch3 P_Api P_Builtin.
Import ListNotations.
Local Open Scope R_scope.

(** ** Disjoint blocks *)
Section Blocks.
  Context {T : Type} {N : Num T}.
  Variables (w o b : nat) (f : nat -> list T).
  Definition blocks (qs : list nat) (l : list T) : list T := fold_left (fun l q => updl l (q * w + o) (f q)) qs l.
  Hypothesis HB : (o + b <= w)%nat.
  Hypothesis HF : forall q, length (f q) = b.

  Lemma blocks_cons q r l : blocks (q :: r) l = blocks r (updl l (q * w + o) (f q)).
  Proof. reflexivity. Qed.
  Lemma blocks_length qs : forall l, length (blocks qs l) = length l.
  Proof. induction qs as [|q r IH]; intros l; [reflexivity|]. rewrite blocks_cons, IH. apply updl_length. Qed.

  Lemma blocks_out qs : forall l j, (forall q, In q qs -> ~ (q * w + o <= j < q * w + o + b)%nat) ->
    get (blocks qs l) j = get l j.
  Proof.
    induction qs as [|q r IH]; intros l j H; [reflexivity|]. rewrite blocks_cons, IH by (intros; apply H; now right).
    apply get_updl_out. rewrite HF. specialize (H q (or_introl eq_refl)). lia.
  Qed.

  Lemma blocks_in qs : forall l q k, NoDup qs -> In q qs -> (k < b)%nat -> (q * w + o + b <= length l)%nat ->
    get (blocks qs l) (q * w + o + k) = get (f q) k.
  Proof.
    induction qs as [|p r IH]; intros l q k ND HI Hk HL; [destruct HI|]. inversion ND as [|? ? NI ND']. subst.
    rewrite blocks_cons.
    destruct HI as [HI|HI].
    - subst p. rewrite blocks_out.
      + rewrite get_updl_in by (rewrite ?HF; lia). f_equal. lia.
      + intros q' HQ. assert (q' <> q) by congruence. nia.
    - apply IH; try assumption. rewrite updl_length. lia.
  Qed.
End Blocks.

Lemma visits_in n qs q : visits n qs -> ((q < n)%nat <-> In q qs).
Proof.
  intros H. split; intros A.
  - apply (Permutation_in _ (Permutation_sym H)). apply in_seq. lia.
  - apply (Permutation_in _ H) in A. apply in_seq in A. lia.
Qed.
Lemma visits_nodup n qs : visits n qs -> NoDup qs.
Proof. intros H. apply (Permutation_NoDup (Permutation_sym H)). apply seq_NoDup. Qed.

(** ** What the loops leave in each array *)
Section Setup.
  Context {T : Type} {N : Num T}.
  Variables (nst : nat) (dt : T) (a : App T).
  Let st q k := get (ap_m a AH) (q * nst + k).
  Definition s_block (x : arr) (q : nat) : list T :=
    match x with
    | AT => [nZ 300]
    | AM => tab 36 (fun _ => nZ 0)
    | AE => [get (ap_m a AH) (q * nst + (nst - 1 + 0))]
    | AW => setup_w (ap_vgrad a) q
    | AD => setup_d (ap_vgrad a) q
    | AV => setup_vol (get (ap_m a AH) (q * nst + (nst - 1 - 1))) (get (setup_d (ap_vgrad a) q) 6) dt
    | AS => setup_stress (sub (ap_stress a) (q * 6) 6)
    | _ => []
    end.
  Definition width_of (x : arr) : nat :=
    match x with AD => 7 | AW => 3 | AV => 4 | AE => 1 | AS => 7 | AH => nst | AT => 1 | AB => 2 | AM => 36 end.

  Lemma s_block_len x q : x <> AH -> x <> AB -> length (s_block x q) = width_of x.
  Proof. destruct x; try congruence; intros; try reflexivity. Qed.

  (** the arrays that the loop reads are not changed *)
  Lemma setup_point_reads a0 q : ap_vgrad (setup_point nst dt a0 q) = ap_vgrad a0 /\
    ap_stress (setup_point nst dt a0 q) = ap_stress a0 /\
    ap_m (setup_point nst dt a0 q) AH = ap_m a0 AH /\ ap_m (setup_point nst dt a0 q) AB = ap_m a0 AB.
  Proof. repeat split; reflexivity. Qed.

  Lemma setup_arr x qs : x <> AH -> x <> AB -> forall a0,
    ap_vgrad a0 = ap_vgrad a -> ap_stress a0 = ap_stress a -> ap_m a0 AH = ap_m a AH ->
    ap_m (setup_data nst dt qs a0) x = blocks (width_of x) 0 (s_block x) qs (ap_m a0 x).
  Proof.
    intros X1 X2. induction qs as [|q r IH]; intros a0 E1 E2 E3; [reflexivity|].
    rewrite blocks_cons. cbn [setup_data fold_left]. change (fold_left (setup_point nst dt) r (setup_point nst dt a0 q)) with (setup_data nst dt r (setup_point nst dt a0 q)).
    rewrite IH by assumption. f_equal. rewrite Nat.add_0_r.
    destruct x; try congruence; cbn [setup_point ap_m put mset arr_eqb width_of s_block];
      unfold put, mset, ne, nsvec, nwvec, nsvp, nvr, iSvecP; cbn [arr_eqb];
      rewrite ?E1, ?E2, ?E3; try reflexivity.
    - f_equal. lia.
    - f_equal. lia.
  Qed.
  Lemma setup_same qs : forall a0, ap_vgrad (setup_data nst dt qs a0) = ap_vgrad a0 /\
    ap_stress (setup_data nst dt qs a0) = ap_stress a0 /\
    ap_m (setup_data nst dt qs a0) AH = ap_m a0 AH /\ ap_m (setup_data nst dt qs a0) AB = ap_m a0 AB.
  Proof.
    induction qs as [|q r IH]; intros a0; [repeat split; reflexivity|].
    cbn [setup_data fold_left]. destruct (IH (setup_point nst dt a0 q)) as (A & B & C & D).
    destruct (setup_point_reads a0 q) as (A1 & B1 & C1 & D1). unfold setup_data in *.
    rewrite A, B, C, D. repeat split; assumption.
  Qed.
End Setup.

(** ** Retrieval *)
Section Retrieve.
  Context {T : Type} {N : Num T}.
  Variables (nst : nat) (a : App T).
  Hypothesis HN : (2 <= nst)%nat.
  Definition r_state (q : nat) : list T := [get (ap_m a AV) (q * 4 + 1); get (ap_m a AE) (q * 1 + 0)].
  Definition r_stress (q : nat) : list T := retrieve_stress (sub (ap_m a AS) (q * 7) 7).

  Lemma retrieve_other x qs : x <> AH -> forall a0, ap_m (retrieve_data nst qs a0) x = ap_m a0 x.
  Proof.
    intros X. induction qs as [|q r IH]; intros a0; [reflexivity|].
    cbn [retrieve_data fold_left].
    change (fold_left (retrieve_point nst) r (retrieve_point nst a0 q)) with (retrieve_data nst r (retrieve_point nst a0 q)).
    rewrite IH. destruct x; try congruence; reflexivity.
  Qed.
  Lemma retrieve_vgrad qs : forall a0, ap_vgrad (retrieve_data nst qs a0) = ap_vgrad a0.
  Proof. induction qs as [|q r IH]; intros a0; [reflexivity|]. exact (IH (retrieve_point nst a0 q)). Qed.
  Lemma retrieve_state qs : forall a0, ap_m a0 AV = ap_m a AV -> ap_m a0 AE = ap_m a AE ->
    ap_m (retrieve_data nst qs a0) AH = blocks nst (nst - 2) r_state qs (ap_m a0 AH).
  Proof.
    induction qs as [|q r IH]; intros a0 E1 E2; [reflexivity|].
    rewrite blocks_cons. cbn [retrieve_data fold_left].
    change (fold_left (retrieve_point nst) r (retrieve_point nst a0 q)) with (retrieve_data nst r (retrieve_point nst a0 q)).
    rewrite IH by assumption. f_equal.
    cbn [retrieve_point ap_m]. unfold put, mset, ne, nvr. cbn [arr_eqb]. rewrite E1, E2.
    unfold r_state. cbn [tab map seq updl].
    replace (nst - 1 - 1)%nat with (nst - 2)%nat by lia.
    replace (q * nst + (nst - 1))%nat with (S (q * nst + (nst - 2))) by lia. reflexivity.
  Qed.
  Lemma retrieve_stresses qs : forall a0, ap_m a0 AS = ap_m a AS ->
    ap_stress (retrieve_data nst qs a0) = blocks 6 0 r_stress qs (ap_stress a0).
  Proof.
    induction qs as [|q r IH]; intros a0 E; [reflexivity|].
    rewrite blocks_cons. cbn [retrieve_data fold_left].
    change (fold_left (retrieve_point nst) r (retrieve_point nst a0 q)) with (retrieve_data nst r (retrieve_point nst a0 q)).
    rewrite IH by assumption. f_equal. cbn [retrieve_point ap_stress]. rewrite E, Nat.add_0_r. reflexivity.
  Qed.
End Retrieve.

(** ** In terms of the caller's view *)
Definition app_view {T} (nst : nat) (s : MM T) : Prop := mm_strides s = [7; 3; 4; 1; 7; nst; 1; 2]%nat.
Lemma view_stride {T} nst (s : MM T) x : app_view nst s -> stride_of (mm_strides s) x = width_of nst x.
Proof. intros E. unfold app_view in E. rewrite E. destruct x; reflexivity. Qed.

Lemma getR (l : list R) k : get l k = nth k l 0.
Proof. reflexivity. Qed.

(** the conversions as formulas *)
Section Forms.
  Variables (v : list R) (q : nat).
  Let L i j := nth (i + 3 * j + 9 * q) v 0.
  Lemma setup_w_form : setup_w v q =
    [(L 2 1 - L 1 2) / 2; (L 0 2 - L 2 0) / 2; (L 1 0 - L 0 1) / 2].
  Proof.
    unfold setup_w, vgrad_view. rewrite !getR. unfold onehalf. rewrite lit_half. cbn [nmul nsub RNum].
    unfold L. repeat (apply f_equal2; [field|]). reflexivity.
  Qed.
  Lemma setup_d_form : setup_d v q =
    let t := ((L 0 0 + L 1 1 + L 2 2) / 3) in
    [L 0 0 - t; L 1 1 - t; L 2 2 - t; (L 2 1 + L 1 2) / 2; (L 2 0 + L 0 2) / 2; (L 1 0 + L 0 1) / 2; L 0 0 + L 1 1 + L 2 2].
  Proof.
    cbv zeta. unfold setup_d, vgrad_view. rewrite !getR. unfold onehalf, onethird, one, three. rewrite lit_half.
    cbn [nmul nsub nadd nopp ndiv nZ RNum]. fold (L 0 0) (L 0 1) (L 0 2) (L 1 0) (L 1 1) (L 1 2) (L 2 0) (L 2 1) (L 2 2).
    clearbody L. repeat (apply f_equal2; [field|]). reflexivity.
  Qed.
End Forms.
Lemma setup_vol_form (x d dt : R) : setup_vol x d dt =
  [x; x * exp (dt * d); (x * exp (dt * d) - x) / (dt * ((x + x * exp (dt * d)) / 2)); x * exp (dt * d) - x].
Proof.
  unfold setup_vol, onehalf. rewrite lit_half. cbn [nmul nsub nadd ndiv nexp RNum]. rewrite (Rmult_comm d dt).
  set (y := x * exp (dt * d)). apply f_equal2; [reflexivity|]. apply f_equal2; [reflexivity|]. apply f_equal2; [|reflexivity].
  unfold Rdiv. apply (f_equal (fun z => (y - x) * / z)). ring.
Qed.
Lemma setup_stress_form (l : list R) : setup_stress l =
  let p := - ((get l 0 + get l 1 + get l 2) / 3) in
  [get l 0 + p; get l 1 + p; get l 2 + p; get l 3; get l 4; get l 5; p].
Proof.
  cbv zeta. unfold setup_stress, onethird, one, three. cbn [nmul nsub nadd nopp ndiv nZ RNum].
  repeat (apply f_equal2; [try reflexivity; field|]). reflexivity.
Qed.

Section Sizes.
  Context {T : Type} {N : Num T}.
  Variables (nst n : nat).
  Lemma sized_width (a : App T) : sized nst n a -> forall x, length (ap_m a x) = (n * width_of nst x)%nat.
  Proof. intros (_ & _ & H) x. exact (H x). Qed.

  Lemma setup_sized dt qs a : sized nst n a -> sized nst n (setup_data nst dt qs a).
  Proof.
    intros SZ. destruct (setup_same nst dt qs a) as (A & B & C & D).
    destruct SZ as (S1 & S2 & S3). split; [now rewrite A|]. split; [now rewrite B|]. intros x.
    assert (G : x <> AH -> x <> AB -> length (ap_m (setup_data nst dt qs a) x) = length (ap_m a x)).
    { intros X1 X2. rewrite (setup_arr nst dt a x qs X1 X2 a eq_refl eq_refl eq_refl). apply blocks_length. }
    destruct x; try (rewrite G by discriminate; apply S3); [rewrite C|rewrite D]; apply S3.
  Qed.
  Hypothesis HN : (2 <= nst)%nat.
  Lemma retrieve_sized qs a : sized nst n a -> sized nst n (retrieve_data nst qs a).
  Proof.
    intros (S1 & S2 & S3). split; [now rewrite retrieve_vgrad|].
    split; [rewrite (retrieve_stresses nst a qs a eq_refl), blocks_length; exact S2|].
    intros x. destruct x; try (rewrite retrieve_other by discriminate; apply S3).
    rewrite (retrieve_state nst a HN qs a eq_refl eq_refl), blocks_length. apply S3.
  Qed.
End Sizes.

Section View.
  Variables (nst n : nat) (s : MM R).
  Hypothesis HN : (2 <= nst)%nat.
  Hypothesis HS : app_view nst s.

  Lemma val_setup dt qs a x q k : sized nst n a -> visits n qs -> (q < n)%nat -> x <> AH -> x <> AB ->
    (k < width_of nst x)%nat -> val s (ap_m (setup_data nst dt qs a)) x q k = nth k (s_block nst dt a x q) 0.
  Proof.
    intros SZ HV Hq X1 X2 Hk. unfold val. rewrite (view_stride nst s x HS), <- getR.
    rewrite (setup_arr nst dt a x qs X1 X2 a eq_refl eq_refl eq_refl).
    replace (width_of nst x * q + k)%nat with (q * width_of nst x + 0 + k)%nat by lia.
    rewrite (blocks_in (width_of nst x) 0 (width_of nst x) (s_block nst dt a x)); try reflexivity; try assumption.
    - intros p. now apply s_block_len.
    - exact (visits_nodup _ _ HV).
    - now apply (visits_in n qs q HV).
    - rewrite (sized_width nst n a SZ x). nia.
  Qed.


  Lemma setup_given dt qs a q : sized nst n a -> visits n qs -> (q < n)%nat ->
    given nst dt a s (ap_m (setup_data nst dt qs a)) q.
  Proof.
    intros SZ HV Hq. set (m := ap_m (setup_data nst dt qs a)).
    assert (V : forall x k, x <> AH -> x <> AB -> (k < width_of nst x)%nat -> val s m x q k = nth k (s_block nst dt a x q) 0).
    { intros x k X1 X2 Hk. exact (val_setup dt qs a x q k SZ HV Hq X1 X2 Hk). }
    assert (WW : forall k, (k < 3)%nat -> val s m AW q k = nth k (setup_w (ap_vgrad a) q) 0).
    { intros k Hk. apply (V AW); try discriminate. exact Hk. }
    assert (DD : forall k, (k < 7)%nat -> val s m AD q k = nth k (setup_d (ap_vgrad a) q) 0).
    { intros k Hk. apply (V AD); try discriminate. exact Hk. }
    assert (SS : forall k, (k < 7)%nat -> val s m AS q k = nth k (setup_stress (sub (ap_stress a) (q * 6) 6)) 0).
    { intros k Hk. apply (V AS); try discriminate. exact Hk. }
    assert (EE : val s m AE q 0 = energy nst a q).
    { rewrite (V AE) by (try discriminate; cbn; lia). cbn [s_block nth]. unfold energy, stored. rewrite getR. f_equal. lia. }
    assert (TT : val s m AT q 0 = 300).
    { rewrite (V AT) by (try discriminate; cbn; lia). reflexivity. }
    assert (HH : forall k, val s m AH q k = stored nst a q k).
    { intros k. unfold val, m. rewrite (view_stride nst s AH HS). destruct (setup_same nst dt qs a) as (_ & _ & C & _).
      rewrite C. reflexivity. }
    assert (SB : forall k, (k < 6)%nat -> get (sub (ap_stress a) (q * 6) 6) k = nth (6 * q + k) (ap_stress a) 0).
    { intros k Hk. rewrite get_sub by assumption. rewrite getR. f_equal. lia. }
    assert (V1 : get (ap_m a AH) (q * nst + (nst - 1 - 1)) = volume nst a q).
    { unfold volume, stored. rewrite getR. f_equal. lia. }
    rewrite setup_stress_form, !SB in SS by lia. cbv zeta in SS. rewrite setup_w_form in WW. rewrite setup_d_form in DD. cbv zeta in DD.
    assert (D6 : val s m AD q 6 = trace (velGrad a q)).
    { rewrite DD by lia. reflexivity. }
    assert (VV : forall k, (k < 4)%nat -> val s m AV q k = nth k (setup_vol (volume nst a q) (trace (velGrad a q)) dt) 0).
    { intros k Hk. rewrite (V AV) by (try discriminate; exact Hk). cbn [s_block]. rewrite V1. f_equal. f_equal.
      rewrite setup_d_form. reflexivity. }
    rewrite setup_vol_form in VV. clearbody m. clear V V1 SB.
    unfold given. refine (conj _ (conj _ (conj _ (conj _ (conj _ (conj _ (conj _ (conj _ (conj EE (conj TT _)))))))))).
    - rewrite D6. unfold devRate, sym6, spin. rewrite !DD, !WW by lia. cbn [nth]. unfold velGrad, trace. clear.
      unfold add3, scal3, axial, I3. cbn [a00 a01 a02 a10 a11 a12 a20 a21 a22 v0 v1 v2].
      f_equal; field.
    - unfold devRate, sym6, trace. cbn [a00 a11 a22]. rewrite !DD by lia. cbn [nth]. field.
    - unfold cauchy, devStress, sym6, pres. rewrite !SS by lia. cbn [nth]. unfold add3, scal3, I3.
      cbn [a00 a01 a02 a10 a11 a12 a20 a21 a22]. f_equal; ring.
    - unfold devStress, sym6, trace. cbn [a00 a11 a22]. rewrite !SS by lia. cbn [nth]. field.
    - unfold vOld. rewrite VV by lia. reflexivity.
    - unfold vNew. rewrite VV by lia. reflexivity.
    - unfold vNew, vOld, delv. rewrite !VV by lia. reflexivity.
    - unfold vNew, vOld, delv. rewrite !VV by lia. reflexivity.
    - intros k _. apply HH.
  Qed.

  Lemma retrieve_taken qs a q : sized nst n a -> visits n qs -> (q < n)%nat ->
    taken nst (retrieve_data nst qs a) s (ap_m a) q.
  Proof.
    intros SZ HV Hq. pose proof (visits_nodup _ _ HV) as ND. pose proof (proj1 (visits_in n qs q HV) Hq) as HI.
    destruct SZ as (S1 & S2 & S3).
    assert (ST : forall k, (k < 6)%nat -> nth (6 * q + k) (ap_stress (retrieve_data nst qs a)) 0 = nth k (r_stress a q) 0).
    { intros k Hk. rewrite <- getR, (retrieve_stresses nst a qs a eq_refl).
      replace (6 * q + k)%nat with (q * 6 + 0 + k)%nat by lia.
      change (nth k (r_stress a q) 0) with (get (r_stress a q) k).
      apply (blocks_in 6 0 6 (r_stress a)); try assumption; try reflexivity. rewrite S2. lia. }
    assert (HW : forall k, (k < 2)%nat -> stored nst (retrieve_data nst qs a) q (nst - 2 + k) = nth k (r_state a q) 0).
    { intros k Hk. unfold stored. rewrite <- getR, (retrieve_state nst a HN qs a eq_refl eq_refl).
      replace (nst * q + (nst - 2 + k))%nat with (q * nst + (nst - 2) + k)%nat by lia.
      change (nth k (r_state a q) 0) with (get (r_state a q) k).
      apply (blocks_in nst (nst - 2) 2 (r_state a)); try assumption; try reflexivity; try lia.
      rewrite (S3 AH). nia. }
    assert (HK : forall k, (k < nst - 2)%nat -> stored nst (retrieve_data nst qs a) q k = stored nst a q k).
    { intros k Hk. unfold stored. rewrite <- !getR, (retrieve_state nst a HN qs a eq_refl eq_refl).
      apply (blocks_out nst (nst - 2) 2 (r_state a)); [lia | reflexivity |].
      intros p _. assert (p < q \/ p = q \/ q < p)%nat as [?|[?|?]] by lia; nia. }
    assert (SB : forall k, (k < 7)%nat -> get (sub (ap_m a AS) (q * 7) 7) k = val s (ap_m a) AS q k).
    { intros k Hk. rewrite get_sub by assumption. rewrite getR. unfold val. rewrite (view_stride nst s AS HS). cbn [width_of]. f_equal. lia. }
    unfold taken. refine (conj _ (conj _ (conj _ _))).
    - unfold cauchy, devStress, sym6, pres. rewrite !ST by lia. unfold r_stress, retrieve_stress, iSvecP.
      rewrite !SB by lia. cbn [nth nadd nopp RNum]. unfold add3, scal3, I3.
      cbn [a00 a01 a02 a10 a11 a12 a20 a21 a22]. f_equal; ring.
    - unfold volume. replace (nst - 2)%nat with (nst - 2 + 0)%nat by lia. rewrite HW by lia. cbn [nth r_state].
      unfold vNew, val. rewrite (view_stride nst s AV HS), getR. cbn [width_of]. f_equal. lia.
    - unfold energy. replace (nst - 1)%nat with (nst - 2 + 1)%nat by lia. rewrite HW by lia. cbn [nth r_state].
      unfold eInt, val. rewrite (view_stride nst s AE HS), getR. cbn [width_of]. f_equal. lia.
    - intros k Hk. rewrite HK by assumption. unfold stored, val. rewrite (view_stride nst s AH HS). reflexivity.
  Qed.
End View.
