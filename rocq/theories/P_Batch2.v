(** The per-point program of getResponseECM: footprint, effect, and what a batch computes. *)
From Coq Require Import List ZArith Bool Lia PeanoNat.
From Verif Require Import Num Arr Util SlipGeom Eos Hard Elast Evptn MatModel P_Batch.
Import ListNotations.

Section B.
  Context {T : Type} {N : Num T}.

  (** every call keeps the sizes of the arrays, whatever its outcome *)
  Definition same_shape (p q : Pt T) : Prop :=
    length (pt_eInt q) = length (pt_eInt p) /\ length (pt_stress q) = length (pt_stress p) /\
    length (pt_hist q) = length (pt_hist p) /\ length (pt_sdd q) = length (pt_sdd p) /\
    match pt_mtan p with
    | None => pt_mtan q = None
    | Some l => exists l', pt_mtan q = Some l' /\ length l' = length l
    end.

  Lemma hist_out_length nH (hist e q h : list T) v dt f n : length (hist_out nH hist e q h v dt f n) = length hist.
  Proof. unfold hist_out. cbv zeta. now rewrite !upd_length, !updl_length. Qed.

  Lemma sngl_shape solver lu m dt tol d w vr pt :
    same_shape pt (snd (getResponseSngl solver lu m dt tol d w vr pt)).
  Proof.
    unfold getResponseSngl. cbv zeta.
    assert (S0 : forall tk, same_shape pt {| pt_eInt := pt_eInt pt; pt_stress := pt_stress pt; pt_hist := pt_hist pt;
              pt_tkelv := tk; pt_sdd := pt_sdd pt; pt_mtan := pt_mtan pt |}).
    { intros. repeat split. cbn [pt_mtan]. destruct (pt_mtan pt); eauto. }
    destruct k_updateH as [[h_u nh]|]; [|apply S0].
    destruct k_valsOk; cbn [negb]; [|apply S0].
    set (p := snglProb m dt d w vr pt h_u). set (r := solver _ _ _ _ _).
    destruct (so_converged r); cbn [negb]; [|apply S0].
    destruct (pt_mtan pt) as [old|] eqn:EM.
    - destruct (mtan_vecds lu p (so_x r)); [|apply S0].
      destruct (stateFromX p (so_x r)) as [e_u q_u].
      destruct (el_getGmod (m_el m)); cbn [snd]; unfold same_shape;
        cbn [pt_eInt pt_stress pt_hist pt_tkelv pt_sdd pt_mtan]; rewrite EM; rewrite ?upd_length, ?updl_length;
        (repeat split; [destruct nltb; rewrite ?updl_length; apply hist_out_length | eexists; split; [reflexivity | apply updl_length]]).
    - destruct (stateFromX p (so_x r)) as [e_u q_u].
      destruct (el_getGmod (m_el m)); cbn [snd]; unfold same_shape;
        cbn [pt_eInt pt_stress pt_hist pt_tkelv pt_sdd pt_mtan]; rewrite EM; rewrite ?upd_length, ?updl_length;
        repeat split; destruct nltb; rewrite ?updl_length; apply hist_out_length.
  Qed.

  Section P.
  Variables (solver : Solver T) (lu : LUSolver T) (mat : Mat T) (dt tol : T).
  Variables (st : list nat) (nH ns : nat) (mtan : bool).
  Let nh := numHist nH ns.
  Let body := pointProg solver lu mat dt tol st nH ns mtan.

  (** offset of point i in each buffer *)
  Definition offs (a : arr) (i : nat) : nat :=
    match a with
    | AD => addr (gstride st st_def_rate) i | AW => addr (gstride st st_spin) i
    | AV => addr (gstride st st_vol_ratio) i | AE => addr (gstride st st_int_eng) i
    | AS => addr (gstride st st_stress) i | AH => addr (gstride st st_history) i
    | AT => addr (gstride st st_tkelv) i | AB => addr (gstride st st_sdd) i
    | AM => (36 * i)%nat
    end.
  Definition width (a : arr) : nat :=
    match a with AD => 7 | AW => 3 | AV => 4 | AE => 1 | AS => 7 | AH => nh | AT => 1 | AB => 2
               | AM => if mtan then 36 else 0 end.
  Definition own (i : nat) : region := fun a j => ~ ro a /\ (offs a i <= j < offs a i + width a)%nat.

  (** contents of the buffers for point i *)
  Definition cell (m : Mem T) (a : arr) (i : nat) : list T := sub (m a) (offs a i) (width a).
  Definition pt_at (m : Mem T) (i : nat) : Pt T :=
    {| pt_eInt := cell m AE i; pt_stress := cell m AS i; pt_hist := cell m AH i; pt_tkelv := get (cell m AT i) 0;
       pt_sdd := cell m AB i; pt_mtan := if mtan then Some (cell m AM i) else None |}.
  Definition resp (m : Mem T) (i : nat) : outcome * Pt T :=
    getResponseSngl solver lu mat dt tol (cell m AD i) (cell m AW i) (cell m AV i) (pt_at m i).

  Definition inb (m : Mem T) (i : nat) : Prop :=
    (forall a, 0 < width a -> offs a i + width a <= length (m a))%nat /\ (mtan = true -> (36 * Z.of_nat i <= 2147483647)%Z).

  Lemma own_wr i : own_writable (own i).
  Proof. intros a j [H _]. exact H. Qed.
  Lemma own_dec i a j : own i a j \/ ~ own i a j.
  Proof using.
    clear body.
    unfold own, ro. assert (D : (a = AD \/ a = AW \/ a = AV) \/ ~ (a = AD \/ a = AW \/ a = AV)).
    { destruct a; try (left; tauto); right; intros [|[|]]; discriminate. }
    destruct D; [right; tauto|].
    destruct (le_lt_dec (offs a i) j); [|right; lia].
    destruct (le_lt_dec (offs a i + width a) j); [right; lia | left; split; [assumption|lia]].
  Qed.

  Ltac notro := let H := fresh in intros H; unfold ro in H; destruct H as [H|[H|H]]; discriminate H.

  Lemma body_conf i : conf (own i) (body i).
  Proof.
    assert (G : forall (oM : nat) (mt0 : option (list T)),
      (mtan = true -> oM = (36 * i)%nat) ->
      match mt0 with None => mtan = false | Some l => mtan = true /\ length l = 36%nat end ->
      conf (own i)
       (readL AD (offs AD i) 7 (fun d => readL AW (offs AW i) 3 (fun w => readL AV (offs AV i) 4 (fun vr =>
        readL AE (offs AE i) 1 (fun e => readL AS (offs AS i) 7 (fun s => readL AH (offs AH i) nh (fun h =>
        readL AT (offs AT i) 1 (fun t => readL AB (offs AB i) 2 (fun b =>
        let '(o, pt) := getResponseSngl solver lu mat dt tol d w vr
            {| pt_eInt := e; pt_stress := s; pt_hist := h; pt_tkelv := get t 0; pt_sdd := b; pt_mtan := mt0 |} in
        writeL AT (offs AT i) [pt_tkelv pt] (writeL AM oM (match pt_mtan pt with Some l => l | None => [] end)
          (writeL AH (offs AH i) (pt_hist pt) (writeL AS (offs AS i) (pt_stress pt) (writeL AE (offs AE i) (pt_eInt pt)
            (writeL AB (offs AB i) (pt_sdd pt) (Ret (BRet o))))))))))))))))).
    { intros oM mt0 HoM Hmt.
      apply conf_readL; [intros; left; unfold ro; auto|]. intros d Ld.
      apply conf_readL; [intros; left; unfold ro; auto|]. intros w Lw.
      apply conf_readL; [intros; left; unfold ro; auto|]. intros vr Lv.
      apply conf_readL; [intros; right; split; [notro | cbn [width]; lia]|]. intros e Le.
      apply conf_readL; [intros; right; split; [notro | cbn [width]; lia]|]. intros s Ls.
      apply conf_readL; [intros; right; split; [notro | cbn [width]; lia]|]. intros h Lh.
      apply conf_readL; [intros; right; split; [notro | cbn [width]; lia]|]. intros t Lt.
      apply conf_readL; [intros; right; split; [notro | cbn [width]; lia]|]. intros b Lb.
      set (pt0 := {| pt_eInt := e; pt_stress := s; pt_hist := h; pt_tkelv := get t 0; pt_sdd := b; pt_mtan := mt0 |}).
      pose proof (sngl_shape solver lu mat dt tol d w vr pt0) as (S1 & S2 & S3 & S4 & S5).
      destruct (getResponseSngl solver lu mat dt tol d w vr pt0) as [o pt]. cbn [snd] in *.
      unfold pt0 in S1, S2, S3, S4, S5. cbn [pt_eInt pt_stress pt_hist pt_sdd pt_mtan] in S1, S2, S3, S4, S5.
      apply conf_writeL; [intros j Hj; split; [notro | cbn [width length] in *; lia]|].
      apply conf_writeL.
      { intros j Hj. split; [notro|]. cbn [width offs]. destruct mt0 as [l|].
        - destruct Hmt as [-> Hl]. destruct S5 as (l' & E & L'). rewrite E in Hj. rewrite HoM in Hj by reflexivity. lia.
        - rewrite S5 in Hj. cbn in Hj. lia. }
      apply conf_writeL; [intros j Hj; split; [notro | cbn [width length] in *; lia]|].
      apply conf_writeL; [intros j Hj; split; [notro | cbn [width length] in *; lia]|].
      apply conf_writeL; [intros j Hj; split; [notro | cbn [width length] in *; lia]|].
      apply conf_writeL; [intros j Hj; split; [notro | cbn [width length] in *; lia]|].
      exact I. }
    unfold body, pointProg. cbv zeta.
    destruct mtan eqn:Emt.
    - destruct (mtan_addr i) as [oM|] eqn:EA; [|exact I].
      assert (EoM : oM = (36 * i)%nat).
      { unfold mtan_addr in EA. destruct Z.leb; [now injection EA|discriminate]. }
      apply conf_readL.
      + intros j Hj. right. split; [notro|]. cbn [offs width]. rewrite Emt. lia.
      + intros mt Lmt. apply G; [now intros|]. split; auto.
    - apply G; [discriminate|reflexivity].
  Qed.

  Lemma sub_updl_self (l : list T) v j n : length v = n -> (j + n <= length l)%nat -> sub (updl l j v) j n = v.
  Proof. intros <- H. now apply sub_updl_same. Qed.

  Lemma pt_eta (p : Pt T) : p = {| pt_eInt := pt_eInt p; pt_stress := pt_stress p; pt_hist := pt_hist p;
     pt_tkelv := pt_tkelv p; pt_sdd := pt_sdd p; pt_mtan := pt_mtan p |}.
  Proof. destruct p; reflexivity. Qed.

  (** what the program of point i does to a memory in which its cells exist *)
  Lemma body_exec i m : inb m i ->
    exists m', exec (body i) m = (BRet (fst (resp m i)), m') /\ pt_at m' i = snd (resp m i).
  Proof.
    intros [HB HM].
    assert (Hnh : (0 < nh)%nat) by (unfold nh, numHist, iHistLbH; lia).
    pose proof (HB AD ltac:(cbn; lia)) as B1. pose proof (HB AW ltac:(cbn; lia)) as B2. pose proof (HB AV ltac:(cbn; lia)) as B3.
    pose proof (HB AE ltac:(cbn; lia)) as B4. pose proof (HB AS ltac:(cbn; lia)) as B5. pose proof (HB AH Hnh) as B6.
    pose proof (HB AT ltac:(cbn; lia)) as B7. pose proof (HB AB ltac:(cbn; lia)) as B8.
    assert (B9 : mtan = true -> (offs AM i + 36 <= length (m AM))%nat).
    { intros E. specialize (HB AM). cbn [width] in HB. rewrite E in HB. apply HB. lia. }
    cbn [width] in B1, B2, B3, B4, B5, B6, B7, B8. clear HB.
    assert (G : forall oM, (mtan = true -> oM = (36 * i)%nat) ->
      exists m', exec
       (readL AD (offs AD i) 7 (fun d => readL AW (offs AW i) 3 (fun w => readL AV (offs AV i) 4 (fun vr =>
        readL AE (offs AE i) 1 (fun e => readL AS (offs AS i) 7 (fun s => readL AH (offs AH i) nh (fun h =>
        readL AT (offs AT i) 1 (fun t => readL AB (offs AB i) 2 (fun b =>
        let '(o, pt) := getResponseSngl solver lu mat dt tol d w vr
            {| pt_eInt := e; pt_stress := s; pt_hist := h; pt_tkelv := get t 0; pt_sdd := b;
               pt_mtan := if mtan then Some (cell m AM i) else None |} in
        writeL AT (offs AT i) [pt_tkelv pt] (writeL AM oM (match pt_mtan pt with Some l => l | None => [] end)
          (writeL AH (offs AH i) (pt_hist pt) (writeL AS (offs AS i) (pt_stress pt) (writeL AE (offs AE i) (pt_eInt pt)
            (writeL AB (offs AB i) (pt_sdd pt) (Ret (BRet o)))))))))))))))) m
        = (BRet (fst (resp m i)), m') /\ pt_at m' i = snd (resp m i)).
    { intros oM HoM.
      rewrite exec_readL by assumption. rewrite exec_readL by assumption. rewrite exec_readL by assumption.
      rewrite exec_readL by assumption. rewrite exec_readL by assumption. rewrite exec_readL by assumption.
      rewrite exec_readL by assumption. rewrite exec_readL by assumption.
      change (getResponseSngl solver lu mat dt tol (sub (m AD) (offs AD i) 7) (sub (m AW) (offs AW i) 3) (sub (m AV) (offs AV i) 4) _)
        with (resp m i).
      pose proof (sngl_shape solver lu mat dt tol (cell m AD i) (cell m AW i) (cell m AV i) (pt_at m i)) as Sh.
      fold (resp m i) in Sh. destruct (resp m i) as [o pt]. cbn [fst snd] in *.
      destruct Sh as (S1 & S2 & S3 & S4 & S5). cbn [pt_at pt_eInt pt_stress pt_hist pt_sdd pt_mtan] in S1, S2, S3, S4, S5.
      unfold cell in S1, S2, S3, S4. rewrite sub_length in S1, S2, S3, S4 by (cbn [width]; assumption).
      cbn [width] in S1, S2, S3, S4.
      set (mtl := match pt_mtan pt with Some l => l | None => [] end).
      assert (LM : (oM + length mtl <= length (m AM))%nat \/ mtl = []).
      { unfold mtl. destruct mtan eqn:Emt.
        - destruct S5 as (l' & -> & L'). left. rewrite HoM by reflexivity.
          unfold cell in L'. rewrite sub_length in L' by (cbn [width]; rewrite Emt; now apply B9).
          cbn [width] in L'. rewrite Emt in L'. specialize (B9 eq_refl). cbn [offs] in B9. lia.
        - rewrite S5. now right. }
      destruct (exec_writeL AT [pt_tkelv pt] (offs AT i) (writeL AM oM mtl (writeL AH (offs AH i) (pt_hist pt)
          (writeL AS (offs AS i) (pt_stress pt) (writeL AE (offs AE i) (pt_eInt pt) (writeL AB (offs AB i) (pt_sdd pt) (Ret (BRet o))))))) m)
        as (m1 & -> & E1 & F1); [cbn [length]; lia|].
      assert (W2 : exists m2, exec (writeL AM oM mtl (writeL AH (offs AH i) (pt_hist pt)
          (writeL AS (offs AS i) (pt_stress pt) (writeL AE (offs AE i) (pt_eInt pt) (writeL AB (offs AB i) (pt_sdd pt) (Ret (BRet o))))))) m1
          = exec (writeL AH (offs AH i) (pt_hist pt) (writeL AS (offs AS i) (pt_stress pt)
             (writeL AE (offs AE i) (pt_eInt pt) (writeL AB (offs AB i) (pt_sdd pt) (Ret (BRet o)))))) m2
          /\ m2 AM = updl (m1 AM) oM mtl /\ forall b, b <> AM -> m2 b = m1 b).
      { destruct LM as [LM | LM]; [apply exec_writeL; rewrite F1 by discriminate; assumption|].
        rewrite LM. exists m1. auto. }
      destruct W2 as (m2 & -> & E2 & F2).
      destruct (exec_writeL AH (pt_hist pt) (offs AH i) (writeL AS (offs AS i) (pt_stress pt)
          (writeL AE (offs AE i) (pt_eInt pt) (writeL AB (offs AB i) (pt_sdd pt) (Ret (BRet o))))) m2)
        as (m3 & -> & E3 & F3); [rewrite F2, F1 by discriminate; lia|].
      destruct (exec_writeL AS (pt_stress pt) (offs AS i)
          (writeL AE (offs AE i) (pt_eInt pt) (writeL AB (offs AB i) (pt_sdd pt) (Ret (BRet o)))) m3)
        as (m4 & -> & E4 & F4); [rewrite F3, F2, F1 by discriminate; lia|].
      destruct (exec_writeL AE (pt_eInt pt) (offs AE i) (writeL AB (offs AB i) (pt_sdd pt) (Ret (BRet o))) m4)
        as (m5 & -> & E5 & F5); [rewrite F4, F3, F2, F1 by discriminate; lia|].
      destruct (exec_writeL AB (pt_sdd pt) (offs AB i) (Ret (BRet o)) m5)
        as (m6 & -> & E6 & F6); [rewrite F5, F4, F3, F2, F1 by discriminate; lia|].
      exists m6. split; [reflexivity|].
      rewrite (pt_eta pt). unfold pt_at, cell. cbn [width].
      rewrite E6. rewrite (F6 AE), (F6 AS), (F6 AH), (F6 AT), (F6 AM) by discriminate.
      rewrite E5, (F5 AS), (F5 AH), (F5 AT), (F5 AM), (F5 AB) by discriminate.
      rewrite E4, (F4 AH), (F4 AT), (F4 AM), (F4 AE), (F4 AB) by discriminate.
      rewrite E3, (F3 AT), (F3 AM), (F3 AS), (F3 AE), (F3 AB) by discriminate.
      rewrite E2, (F2 AT), (F2 AH), (F2 AS), (F2 AE), (F2 AB) by discriminate.
      rewrite E1, (F1 AM), (F1 AH), (F1 AS), (F1 AE), (F1 AB) by discriminate.
      f_equal; try (apply sub_updl_self; lia).
      - rewrite sub_updl_self by (try reflexivity; lia). reflexivity.
      - unfold mtl in *. destruct mtan eqn:Emt.
        + destruct S5 as (l' & -> & L'). f_equal. rewrite HoM by reflexivity. cbn [offs].
          unfold cell in L'. rewrite sub_length in L' by (cbn [width]; rewrite Emt; now apply B9).
          cbn [width] in L'. rewrite Emt in L'. apply sub_updl_self; [assumption|]. specialize (B9 eq_refl). cbn [offs] in B9. lia.
        + now rewrite S5. }
    unfold body, pointProg. cbv zeta.
    destruct mtan eqn:Emt.
    - replace (mtan_addr i) with (Some (36 * i)%nat)
        by (unfold mtan_addr; replace (36 * Z.of_nat i <=? 2147483647)%Z with true by (symmetry; apply Z.leb_le; now apply HM); reflexivity).
      rewrite exec_readL by (now apply B9).
      replace (sub (m AM) (36 * i) 36) with (cell m AM i) by (unfold cell; cbn [offs width]; now rewrite Emt).
      apply G. reflexivity.
    - apply G. discriminate.
  Qed.
  End P.
End B.
