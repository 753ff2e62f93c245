(** Which cells the loop body can touch; an accepted stride for which 32-bit offsets go wrong (C29); examples for C26 - C28. *)
From Coq Require Import List ZArith Bool Lia PeanoNat Reals Lra String.
From Verif Require Import Num Arr NumR Util SlipGeom Eos Hard Elast Evptn MatModel Cases
  P_Sngl P_Batch P_Batch2 P_Batch3 P_Api P_Builtin SpecApi P_Hist P_Demo SpecBatch P_Batch4.
Import ListNotations.
Local Open Scope nat_scope.

Lemma body_within {T} {N : Num T} (solver : Solver T) (lu : LUSolver T) (mat : Mat T) (dt tol : T)
    (st : list nat) (nH ns : nat) (mtan : bool) (i : nat) (P : region) :
  (forall a j, offs st a i <= j < offs st a i + width nH ns mtan a -> P a j) ->
  within P (pointProg solver lu mat dt tol st nH ns mtan i).
Proof.
  intros HP.
  assert (G : forall (oM : nat) (mt0 : option (list T)),
      (mtan = true -> oM = (36 * i)%nat) ->
      match mt0 with None => mtan = false | Some l => mtan = true /\ List.length l = 36%nat end ->
      within P
       (readL AD (offs st AD i) 7 (fun d => readL AW (offs st AW i) 3 (fun w => readL AV (offs st AV i) 4 (fun vr =>
        readL AE (offs st AE i) 1 (fun e => readL AS (offs st AS i) 7 (fun s => readL AH (offs st AH i) (numHist nH ns) (fun h =>
        readL AT (offs st AT i) 1 (fun t => readL AB (offs st AB i) 2 (fun b =>
        let '(o, pt) := getResponseSngl solver lu mat dt tol d w vr
            {| pt_eInt := e; pt_stress := s; pt_hist := h; pt_tkelv := get t 0; pt_sdd := b; pt_mtan := mt0 |} in
        writeL AT (offs st AT i) [pt_tkelv pt] (writeL AM oM (match pt_mtan pt with Some l => l | None => [] end)
          (writeL AH (offs st AH i) (pt_hist pt) (writeL AS (offs st AS i) (pt_stress pt) (writeL AE (offs st AE i) (pt_eInt pt)
            (writeL AB (offs st AB i) (pt_sdd pt) (Ret (BRet o))))))))))))))))).
  { intros oM mt0 HoM Hmt.
    do 8 (apply within_readL; [intros; apply HP; cbn [width]; assumption|]; intros ? ?).
    match goal with |- context [getResponseSngl solver lu mat dt tol ?d ?w ?vr ?p] =>
      pose proof (sngl_shape solver lu mat dt tol d w vr p) as (S1 & S2 & S3 & S4 & S5);
      destruct (getResponseSngl solver lu mat dt tol d w vr p) as [o pt] end.
    cbn [snd pt_eInt pt_stress pt_hist pt_sdd pt_mtan] in *.
    apply within_writeL; [intros j Hj; apply HP; cbn [width List.length] in *; lia|].
    apply within_writeL.
    { intros j Hj. apply HP. cbn [width offs]. destruct mt0 as [q|].
      - destruct Hmt as [-> Hl]. destruct S5 as (l' & E & L'). rewrite E in Hj. rewrite HoM in Hj by reflexivity. lia.
      - rewrite S5 in Hj. cbn in Hj. lia. }
    apply within_writeL; [intros j Hj; apply HP; cbn [width] in *; lia|].
    apply within_writeL; [intros j Hj; apply HP; cbn [width] in *; lia|].
    apply within_writeL; [intros j Hj; apply HP; cbn [width] in *; lia|].
    apply within_writeL; [intros j Hj; apply HP; cbn [width] in *; lia|].
    exact I. }
  unfold pointProg. cbv zeta.
  destruct mtan eqn:Emt.
  - destruct (mtan_addr i) as [oM|] eqn:EA; [|exact I].
    assert (EoM : oM = (36 * i)%nat).
    { unfold mtan_addr in EA. destruct Z.leb; [now injection EA|discriminate]. }
    apply within_readL.
    + intros j Hj. apply HP. cbn [offs width]. lia.
    + intros mt Lmt. apply G; [now intros|]. split; auto.
  - apply G; [discriminate|reflexivity].
Qed.

(** an object whose deformation rates are 2^31 apart *)
Lemma far_sig : {n : nat | Z.of_nat n = 2147483648%Z}.
Proof. exists (Z.to_nat 2147483648). apply Z2Nat.id. lia. Qed.
Definition far : nat := proj1_sig far_sig.
Lemma far_Z : Z.of_nat far = 2147483648%Z.
Proof. exact (proj2_sig far_sig). Qed.
Definition far_strides : list nat := [far; 3; 4; 1; 7; 26; 1; 2].
Definition far_s : MM R := fst (mm_run demo_c (mm_base far_strides) [OInit [] demo_pars []; OComplete]).
Lemma far_new : mm_newStrides demo_c far_strides 8 = Some (mm_base far_strides).
Proof.
  destruct (proj2 (newStrides_iff demo_c far_strides eq_refl 8)) as [s0 H].
  - split; [reflexivity|]. pose proof far_Z. unfold far_strides. repeat constructor; lia.
  - rewrite H. destruct (newStrides_spec _ _ _ _ H) as [-> _]. reflexivity.
Qed.
Lemma far_in_use : in_use demo_c far_s demo_pars.
Proof.
  destruct demo_init as [s1 H]. destruct (init_done _ _ _ _ _ _ H) as (HC & a & HP & HL & _).
  destruct (init_done_conv demo_c (mm_base far_strides) [] demo_pars [] a HC HP HL) as [s2 H2].
  assert (E : far_s = fst (mm_run demo_c s2 [OComplete])).
  { unfold far_s. rewrite mm_run_cons. cbn [mm_step]. rewrite H2. reflexivity. }
  rewrite E. econstructor; [exact (reach_strides demo_c _ _ _ [] far_new)|exact H2|]. repeat constructor.
Qed.
Lemma far_complete : mm_complete far_s = true.
Proof. unfold far_s. now rewrite run_complete. Qed.
Lemma far_st : mm_strides far_s = far_strides.
Proof. unfold far_s. now rewrite run_strides. Qed.

Lemma far_blind solver lu dt m m' :
  (forall a, List.length (m a) = List.length (m' a)) ->
  (forall a j, (a = AD -> j < far * 2) -> nth_error (m a) j = nth_error (m' a) j) ->
  let r := mm_getResponse solver lu demo_c far_s dt false 3 m in
  let r' := mm_getResponse solver lu demo_c far_s dt false 3 m' in
  fst r = fst r' /\ forall a, a <> AD -> snd r a = snd r' a.
Proof.
  intros HL HE. cbv zeta. unfold mm_getResponse. rewrite far_complete. cbn [negb].
  assert (SS : same (fun a j => a = AD -> j < far * 2) m m') by (split; assumption).
  assert (FIN : forall x x' : Mem R, same (fun a j => a = AD -> j < far * 2) x x' -> forall a, a <> AD -> x a = x' a).
  { intros x x' [_ E] a Ha. apply lext. intros j. apply E. intros Hc. contradiction. }
  change (seq 0 (Z.to_nat 3)) with [0; 1; 2].
  destruct (mm_ready far_s) as [[mat tol]|].
  2:{ cbn [fst snd]. split; [reflexivity|]. exact (FIN _ _ SS). }
  destruct (within_runSeq (fun a j => a = AD -> j < far * 2)
     (pointProg solver lu mat dt tol (mm_strides far_s) (c_nH demo_c) (c_nslip demo_c) false) [0; 1; 2]) with (m := m) (m' := m') as [E1 E2].
  - intros i Hi. apply body_within. intros a j Hj Ea. subst a. cbn [offs width] in Hj. rewrite far_st in Hj.
    assert (B : addr (gstride far_strides st_def_rate) i <= far).
    { unfold addr, gstride, far_strides, st_def_rate. cbn [nth]. rewrite far_Z. pose proof far_Z.
      destruct Hi as [<-|[<-|[<-|[]]]]; cbn [Z.of_nat Pos.of_succ_nat Pos.succ].
      - change ((2147483648 * 0) mod 2 ^ 32)%Z with 0%Z. lia.
      - change ((2147483648 * 1) mod 2 ^ 32)%Z with 2147483648%Z. lia.
      - change ((2147483648 * 2) mod 2 ^ 32)%Z with 0%Z. lia. }
    pose proof far_Z. lia.
  - exact SS.
  - split; [exact E1|]. exact (FIN _ _ E2).
Qed.

(** ** examples *)
Definition demo_tasks : list (prog R) :=
  match mm_tasks echo noLU demo_c demo_s 1%R false 2 with Some l => l | None => [] end.
Lemma demo_tasks_ok : mm_tasks echo noLU demo_c demo_s 1%R false 2 = Some demo_tasks.
Proof.
  destruct demo_ready as (sg & _ & HM). unfold demo_tasks, mm_tasks. rewrite demo_complete, HM. reflexivity.
Qed.
Lemma demo_run : exists m1, mm_getResponse echo noLU demo_c demo_s 1%R false 2 demo_m = (BRet Done, m1) /\
  psteps (demo_tasks, demo_m) ([Ret (BRet Done); Ret (BRet Done)], m1).
Proof.
  destruct demo_m_pos as [H1 H2].
  destruct (demo_done 2 1%R demo_m (demo_batch demo_m H1) H2) as [m1 E]. change (Z.of_nat 2) with 2%Z in E.
  exists m1. split; [exact E|].
  destruct demo_ready as (sg & _ & HM). unfold demo_tasks, mm_tasks. rewrite demo_complete, HM. cbn [negb].
  unfold mm_getResponse in E. rewrite demo_complete, HM in E. cbn [negb] in E.
  change (seq 0 (Z.to_nat 2)) with [0; 1] in *.
  exact (runSeq_psteps _ [0; 1] [] demo_m m1 E).
Qed.
