(** C42: initialisation and whole calls of getResponseECM on defined numbers. *)
From Coq Require Import List ZArith Bool Lia PeanoNat Reals Lra String FunctionalExtensionality.
From Verif Require Import Num Arr NumR NumO Util SlipGeom Eos Hard KinVoce KinKMBalD Elast Evptn MatModel Cases SpecTensor SpecApi SpecDef SpecDefApi
  P_Batch P_Batch2 P_Batch3 P_Builtin P_Hist P_Sngl2 P_Def P_Def2 P_Def3 P_Def4.
Import ListNotations.
Local Open Scope R_scope.

Section Def5.
Variable u : bool.
Local Notation ON := (P_Def.ON u).
Local Hint Extern 0 (Num (option R)) => exact (P_Def.ON u) : typeclass_instances.

(** ** Memory *)
Lemma read_lift a j n (ko : list (option R) -> prog (option R)) (kr : list R -> prog R) (m : Mem R) :
  (j + n <= List.length (m a))%nat ->
  exec (ko (L (sub (m a) j n))) (liftM m) = liftB (exec (kr (sub (m a) j n)) m) ->
  exec (readL a j n ko) (liftM m) = liftB (exec (readL a j n kr) m).
Proof.
  intros H E. rewrite !exec_readL; [|exact H|unfold liftM; rewrite L_length; exact H].
  unfold liftM at 1. rewrite sub_L. exact E.
Qed.
Lemma mset_lift (m : Mem R) a l : mset (liftM m) a (L l) = liftM (mset m a l).
Proof. apply functional_extensionality. intros b. unfold mset, liftM. destruct arr_eqb; reflexivity. Qed.
Lemma write_lift a (po : prog (option R)) (pr : prog R) : (forall m, exec po (liftM m) = liftB (exec pr m)) ->
  forall l j m, exec (writeL a j (L l) po) (liftM m) = liftB (exec (writeL a j l pr) m).
Proof.
  intros HP. induction l as [|v l IH]; intros j m; [apply HP|]. cbn [L map writeL exec].
  unfold liftM at 1. rewrite L_length. destruct (Nat.ltb j (List.length (m a))); [|reflexivity].
  unfold liftM at 2. rewrite upd_L, mset_lift. apply IH.
Qed.

(** ** One point of a batch *)
Record MatDef (mo : Mat (option R)) (mr : Mat R) : Prop := {
  md_sg : m_sg mo = liftSg (m_sg mr); md_el : m_el mo = liftEl (m_el mr); md_eos : m_eos mo = liftEos (m_eos mr);
  md_kin : exists hnew, KinDef (m_kin mo) (m_kin mr) hnew;
  md_ns : k_nslip (m_kin mr) = sg_nslip (m_sg mr); md_P : List.length (sg_P (m_sg mr)) = (5 * sg_nslip (m_sg mr))%nat;
  md_Q : List.length (sg_Q (m_sg mr)) = (3 * sg_nslip (m_sg mr))%nat; md_K : List.length (el_K_diag (m_el mr)) = 5%nat }.

Section Batch.
Variables (so : Solver (option R)) (sr : Solver R) (luo : LUSolver (option R)) (lur : LUSolver R).
Hypothesis HS : same_solver so sr.
Hypothesis HL : same_lu luo lur.
Variables (mo : Mat (option R)) (mr : Mat R).
Hypothesis MD : MatDef mo mr.
Variables (dt tol : R).
Hypothesis Hdt : dt <> 0.
Variables (st : list nat) (nH ns : nat) (mtan : bool).
Hypothesis HnH : k_nH (m_kin mr) = nH.
Hypothesis Hns : k_nslip (m_kin mr) = ns.
Local Notation cl m a i := (cell st nH ns mtan m a i).
Definition vcell (m : Mem R) (i : nat) : Prop :=
  get (cl m AV i) 0 <> 0 /\ 0 < get (cl m AV i) 1 /\ vecNorm 4 (sub (cl m AH i) 9 4) <> 0 /\
  0 < snd (evalPT (m_eos mr) (get (cl m AV i) 0) (get (cl m AE i) 0)).

Lemma body_lift i m : inb st nH ns mtan m i -> vcell m i ->
  exec (pointProg so luo mo (Some dt) (Some tol) st nH ns mtan i) (liftM m) = liftB (exec (pointProg sr lur mr dt tol st nH ns mtan i) m).
Proof.
  intros [HB HM] (V1 & V2 & V3 & V4).
  assert (Hnh : (0 < numHist nH ns)%nat) by (unfold numHist, iHistLbH; lia).
  pose proof (HB AD ltac:(cbn; lia)) as B1. pose proof (HB AW ltac:(cbn; lia)) as B2. pose proof (HB AV ltac:(cbn; lia)) as B3.
  pose proof (HB AE ltac:(cbn; lia)) as B4. pose proof (HB AS ltac:(cbn; lia)) as B5. pose proof (HB AH Hnh) as B6.
  pose proof (HB AT ltac:(cbn; lia)) as B7. pose proof (HB AB ltac:(cbn; lia)) as B8.
  cbn [width] in B1, B2, B3, B4, B5, B6, B7, B8.
  assert (B9 : mtan = true -> (offs st AM i + 36 <= List.length (m AM))%nat).
  { intros E. specialize (HB AM). cbn [width] in HB. rewrite E in HB. apply HB. lia. }
  assert (G : forall oM (mt0 : option (list R)), exec
     (readL AD (offs st AD i) 7 (fun d => readL AW (offs st AW i) 3 (fun w => readL AV (offs st AV i) 4 (fun vr =>
      readL AE (offs st AE i) 1 (fun e => readL AS (offs st AS i) 7 (fun s => readL AH (offs st AH i) (numHist nH ns) (fun h =>
      readL AT (offs st AT i) 1 (fun t => readL AB (offs st AB i) 2 (fun b =>
      let '(o, pt) := getResponseSngl so luo mo (Some dt) (Some tol) d w vr
          {| pt_eInt := e; pt_stress := s; pt_hist := h; pt_tkelv := get t 0; pt_sdd := b; pt_mtan := option_map L mt0 |} in
      writeL AT (offs st AT i) [pt_tkelv pt] (writeL AM oM (match pt_mtan pt with Some l => l | None => [] end)
        (writeL AH (offs st AH i) (pt_hist pt) (writeL AS (offs st AS i) (pt_stress pt) (writeL AE (offs st AE i) (pt_eInt pt)
          (writeL AB (offs st AB i) (pt_sdd pt) (Ret (BRet o)))))))))))))))) (liftM m) =
     liftB (exec
     (readL AD (offs st AD i) 7 (fun d => readL AW (offs st AW i) 3 (fun w => readL AV (offs st AV i) 4 (fun vr =>
      readL AE (offs st AE i) 1 (fun e => readL AS (offs st AS i) 7 (fun s => readL AH (offs st AH i) (numHist nH ns) (fun h =>
      readL AT (offs st AT i) 1 (fun t => readL AB (offs st AB i) 2 (fun b =>
      let '(o, pt) := getResponseSngl sr lur mr dt tol d w vr
          {| pt_eInt := e; pt_stress := s; pt_hist := h; pt_tkelv := get t 0; pt_sdd := b; pt_mtan := mt0 |} in
      writeL AT (offs st AT i) [pt_tkelv pt] (writeL AM oM (match pt_mtan pt with Some l => l | None => [] end)
        (writeL AH (offs st AH i) (pt_hist pt) (writeL AS (offs st AS i) (pt_stress pt) (writeL AE (offs st AE i) (pt_eInt pt)
          (writeL AB (offs st AB i) (pt_sdd pt) (Ret (BRet o)))))))))))))))) m)).
  { intros oM mt0. do 8 (apply read_lift; [assumption|]).
    change (sub (m AD) (offs st AD i) 7) with (cl m AD i). change (sub (m AW) (offs st AW i) 3) with (cl m AW i).
    change (sub (m AV) (offs st AV i) 4) with (cl m AV i). change (sub (m AE) (offs st AE i) 1) with (cl m AE i).
    change (sub (m AS) (offs st AS i) 7) with (cl m AS i). change (sub (m AH) (offs st AH i) (numHist nH ns)) with (cl m AH i).
    change (sub (m AT) (offs st AT i) 1) with (cl m AT i). change (sub (m AB) (offs st AB i) 2) with (cl m AB i).
    assert (LT : List.length (cl m AT i) = 1%nat) by (apply sub_length; exact B7).
    rewrite (get_L u (cl m AT i)) by lia.
    set (pt := {| pt_eInt := cl m AE i; pt_stress := cl m AS i; pt_hist := cl m AH i; pt_tkelv := get (cl m AT i) 0; pt_sdd := cl m AB i; pt_mtan := mt0 |}).
    change {| pt_eInt := L (cl m AE i); pt_stress := L (cl m AS i); pt_hist := L (cl m AH i); pt_tkelv := Some (get (cl m AT i) 0);
              pt_sdd := L (cl m AB i); pt_mtan := option_map L mt0 |} with (liftPt pt).
    destruct MD as [M1 M2 M3 [hnew M4] M5 M6 M7 M8].
    rewrite (sngl_L u so sr luo lur HS HL mo mr hnew M1 M2 M3 M4 M5 M6 M7 M8 dt tol (cl m AD i) (cl m AW i) (cl m AV i) pt).
    - destruct (getResponseSngl sr lur mr dt tol (cl m AD i) (cl m AW i) (cl m AV i) pt) as [o q]. cbn [fst snd].
      cbn [liftPt pt_tkelv pt_mtan pt_hist pt_stress pt_eInt pt_sdd].
      change [Some (pt_tkelv q)] with (L [pt_tkelv q]).
      replace (match option_map L (pt_mtan q) with Some l => l | None => [] end) with (L match pt_mtan q with Some l => l | None => [] end)
        by (destruct (pt_mtan q); reflexivity).
      do 6 (apply write_lift; intros ?). reflexivity.
    - assumption.
    - unfold cell. cbn [width]. rewrite sub_length by exact B1. lia.
    - apply sub_length; exact B2.
    - apply sub_length; exact B3.
    - assumption.
    - assumption.
    - apply sub_length; exact B4.
    - apply sub_length; exact B5.
    - unfold pt. cbn [pt_hist]. rewrite HnH, Hns. unfold cell. cbn [width]. rewrite sub_length by exact B6. unfold numHist, iHistLbH. lia.
    - assumption.
    - assumption. }
  unfold pointProg. cbv zeta. destruct mtan eqn:Emt.
  - destruct (mtan_addr i) as [oM|] eqn:EA; [|reflexivity].
    assert (EoM : oM = (36 * i)%nat) by (unfold mtan_addr in EA; destruct Z.leb; [now injection EA|discriminate]).
    apply read_lift; [rewrite EoM; apply B9; reflexivity|]. apply (G oM (Some (sub (m AM) oM 36))).
  - apply (G 0%nat None).
Qed.

Variable n : nat.
Hypothesis HST : strides_ok st nH ns mtan.
Hypothesis HNW : no_wrap st mtan n.
Lemma seq_lift is : forall m, NoDup is -> (forall i, In i is -> (i < n)%nat) -> buffers_ok st nH ns mtan n m -> (forall i, In i is -> vcell m i) ->
  runSeq (pointProg so luo mo (Some dt) (Some tol) st nH ns mtan) is (liftM m) = liftB (runSeq (pointProg sr lur mr dt tol st nH ns mtan) is m).
Proof.
  induction is as [|i is IH]; intros m ND HI HB HV; [reflexivity|]. cbn [runSeq].
  assert (Hi : (i < n)%nat) by (apply HI; now left). inversion ND as [|x l Hni ND']; subst x l.
  rewrite body_lift; [|apply (inb_ok st nH ns mtan n HNW); assumption|apply HV; now left].
  pose proof (buffers_exec sr lur mr dt tol st nH ns mtan n m i HB) as HB'.
  pose proof (fun j Hj Hij => step_frame sr lur mr dt tol st nH ns mtan n HST HNW m i j Hi Hj Hij) as FR.
  destruct (exec (pointProg sr lur mr dt tol st nH ns mtan i) m) as [o m'] eqn:EX. cbn [snd] in HB', FR.
  unfold liftB at 1. cbn [fst snd]. destruct o as [[]|]; try reflexivity.
  apply IH; [assumption|intros j Hj; apply HI; now right|exact HB'|].
  intros j Hj. assert (Hjn : (j < n)%nat) by (apply HI; now right).
  assert (Hij : i <> j) by (intros ->; contradiction).
  unfold vcell. rewrite !(cell_agree sr lur mr dt tol st nH ns mtan n m' m j Hjn (FR j Hjn Hij)). apply HV. now right.
Qed.
End Batch.

(** ** Initialisation *)
Lemma some_inj {A} {a b : A} : Some a = Some b -> a = b.
Proof. congruence. Qed.
Lemma fill_lens (m s : list R) n g : fillFromMS m s n = Some g -> List.length (sg_P g) = (5 * n)%nat /\ List.length (sg_Q g) = (3 * n)%nat.
Proof.
  unfold fillFromMS. destruct existsb; [discriminate|]. intros H. apply some_inj in H. rewrite <- H. cbn [sg_P sg_Q]. now rewrite !tab2_length.
Qed.

(** the parts of a model, set from defined parameters *)
Record ClassDef (co : MClass (option R)) (cr : MClass R) (pars : list R) : Prop := {
  cd_ns : c_nslip co = c_nslip cr; cd_nH : c_nH co = c_nH cr; cd_sgN : c_sgNP co = c_sgNP cr; cd_elN : c_elNP co = c_elNP cr;
  cd_kinN : c_kinNP co = c_kinNP cr; cd_iso : c_iso co = c_iso cr; cd_iso0 : c_iso cr = false;
  cd_cv : p_cv pars <> 0;
  cd_sg : c_sgSet co (L (sub pars 3 (c_sgNP cr))) = option_map liftSg (c_sgSet cr (sub pars 3 (c_sgNP cr)));
  cd_el : c_elSet co (L (sub pars (3 + c_sgNP cr) (c_elNP cr))) = liftEl (c_elSet cr (sub pars (3 + c_sgNP cr) (c_elNP cr)));
  cd_K : List.length (el_K_diag (c_elSet cr (sub pars (3 + c_sgNP cr) (c_elNP cr)))) = 5%nat;
  cd_sgl : forall p sg, c_sgSet cr p = Some sg -> sg_nslip sg = c_nslip cr /\ List.length (sg_P sg) = (5 * c_nslip cr)%nat /\ List.length (sg_Q sg) = (3 * c_nslip cr)%nat;
  cd_kin : match c_kinSet co (L (kin_pars cr pars)), c_kinSet cr (kin_pars cr pars) with
           | None, None => True
           | Some (ko, ho), Some (kr, hr) => (exists hnew, KinDef ko kr hnew) /\ k_nslip kr = c_nslip cr /\ k_nH kr = c_nH cr /\ List.length ho = List.length hr
           | _, _ => False
           end }.

Variables (hso : Solver (option R)) (hsr : Solver R).
Hypothesis HHS : same_solver hso hsr.

Lemma kinVoce_L nl n P : List.length P = voce_nParams nl -> voce_valid nl P ->
  match kinVoce hso nl n (L P), kinVoce hsr nl n P with
  | None, None => True
  | Some (ko, ho), Some (kr, hr) => (exists hnew, KinDef ko kr hnew) /\ k_nslip kr = n /\ k_nH kr = 1%nat /\ List.length ho = List.length hr
  | _, _ => False
  end.
Proof. intros H V. unfold kinVoce. split; [eexists; now apply voce_def|]. repeat split. Qed.
Lemma kinKM_L ga p1 q1 per nv n P : List.length P = km_nParams nv -> km_valid ga nv P -> (0 < nv)%nat ->
  match kinKM hso ga p1 q1 per nv n (L P), kinKM hsr ga p1 q1 per nv n P with
  | None, None => True
  | Some (ko, ho), Some (kr, hr) => (exists hnew, KinDef ko kr hnew) /\ k_nslip kr = n /\ k_nH kr = 1%nat /\ List.length ho = List.length hr
  | _, _ => False
  end.
Proof.
  intros H V Hn. unfold kinKM.
  assert (E : km_paramsOk (km_setParams ga p1 q1 per nv (L P)) = km_paramsOk (km_setParams ga p1 q1 per nv P)).
  { unfold km_paramsOk. unfold km_nParams in H. unfold km_setParams. cbn [km_pOne km_qOne km_p km_q]. rewrite !get_L by lia. reflexivity. }
  rewrite E. destruct (km_ctorOk per nv n) eqn:C; cbn [andb]; [|exact I].
  destruct (km_paramsOk (km_setParams ga p1 q1 per nv P)) eqn:O; [|exact I].
  split; [eexists; now apply km_def|]. repeat split.
Qed.

Lemma class_L pars co cr : valid_class u hso hsr pars co cr -> List.length pars = mm_nParams cr -> ClassDef co cr pars.
Proof.
  assert (FC : forall (p : list R) sg, slipGeomFCC = Some sg -> sg_nslip sg = 12%nat /\ List.length (sg_P sg) = (5 * 12)%nat /\ List.length (sg_Q sg) = (3 * 12)%nat).
  { intros p sg H. unfold slipGeomFCC in H. split; [exact (fill_nslip _ _ _ _ H)|exact (fill_lens _ _ _ _ H)]. }
  assert (BC : forall (p : list R) sg, slipGeomBCC 12 = Some sg -> sg_nslip sg = 12%nat /\ List.length (sg_P sg) = (5 * 12)%nat /\ List.length (sg_Q sg) = (3 * 12)%nat).
  { intros p sg H. unfold slipGeomBCC in H. split; [exact (fill_nslip _ _ _ _ H)|exact (fill_lens _ _ _ _ H)]. }
  assert (HC : forall (p : list R) sg, slipGeomHCP (get p 0) = Some sg -> sg_nslip sg = 24%nat /\ List.length (sg_P sg) = (5 * 24)%nat /\ List.length (sg_Q sg) = (3 * 24)%nat).
  { intros p sg H. unfold slipGeomHCP in H. destruct (hcp_tables (get p 0)) as [[mm ss]|]; [|discriminate].
    split; [exact (fill_nslip _ _ _ _ H)|exact (fill_lens _ _ _ _ H)]. }
  assert (CU : forall k, (k + 3 <= List.length pars)%nat -> cubic_setParams (L (sub pars k 3)) = liftEl (cubic_setParams (sub pars k 3))).
  { intros k Hk. apply cubic_L. rewrite sub_length; lia. }
  assert (KV : forall nl, (6 + voce_nParams nl <= List.length pars)%nat -> List.length (sub pars 6 (voce_nParams nl)) = voce_nParams nl)
    by (intros; apply sub_length; assumption).
  assert (KK : forall k nv, (k + km_nParams nv <= List.length pars)%nat -> List.length (sub pars k (km_nParams nv)) = km_nParams nv)
    by (intros; apply sub_length; assumption).
  intros [CV V|CV V|CV V|CV V|CV V|CV V|CV V CA] HLp; unfold mm_nParams in HLp.
  - change (List.length pars = 17%nat) in HLp. match goal with |- ClassDef ?a ?b ?c => refine (Build_ClassDef a b c eq_refl eq_refl eq_refl eq_refl eq_refl eq_refl eq_refl CV _ _ eq_refl FC _) end.
    + exact (fcc_L u).
    + apply (CU 3%nat). rewrite HLp. apply Nat.leb_le. reflexivity.
    + apply (kinVoce_L false 12); [apply KV; rewrite HLp; apply Nat.leb_le; reflexivity|exact V].
  - change (List.length pars = 18%nat) in HLp. match goal with |- ClassDef ?a ?b ?c => refine (Build_ClassDef a b c eq_refl eq_refl eq_refl eq_refl eq_refl eq_refl eq_refl CV _ _ eq_refl FC _) end.
    + exact (fcc_L u).
    + apply (CU 3%nat). rewrite HLp. apply Nat.leb_le. reflexivity.
    + apply (kinVoce_L true 12); [apply KV; rewrite HLp; apply Nat.leb_le; reflexivity|exact V].
  - change (List.length pars = 24%nat) in HLp. match goal with |- ClassDef ?a ?b ?c => refine (Build_ClassDef a b c eq_refl eq_refl eq_refl eq_refl eq_refl eq_refl eq_refl CV _ _ eq_refl FC _) end.
    + exact (fcc_L u).
    + apply (CU 3%nat). rewrite HLp. apply Nat.leb_le. reflexivity.
    + apply (kinKM_L false false false false 1 12); [apply (KK 6%nat 1%nat); rewrite HLp; apply Nat.leb_le; reflexivity|exact V|apply Nat.leb_le; reflexivity].
  - change (List.length pars = 24%nat) in HLp. match goal with |- ClassDef ?a ?b ?c => refine (Build_ClassDef a b c eq_refl eq_refl eq_refl eq_refl eq_refl eq_refl eq_refl CV _ _ eq_refl BC _) end.
    + exact (bcc_L u).
    + apply (CU 3%nat). rewrite HLp. apply Nat.leb_le. reflexivity.
    + apply (kinKM_L true false false false 1 12); [apply (KK 6%nat 1%nat); rewrite HLp; apply Nat.leb_le; reflexivity|exact V|apply Nat.leb_le; reflexivity].
  - change (List.length pars = 17%nat) in HLp. match goal with |- ClassDef ?a ?b ?c => refine (Build_ClassDef a b c eq_refl eq_refl eq_refl eq_refl eq_refl eq_refl eq_refl CV _ _ eq_refl BC _) end.
    + exact (bcc_L u).
    + apply (CU 3%nat). rewrite HLp. apply Nat.leb_le. reflexivity.
    + apply (kinVoce_L false 12); [apply KV; rewrite HLp; apply Nat.leb_le; reflexivity|exact V].
  - change (List.length pars = 18%nat) in HLp. match goal with |- ClassDef ?a ?b ?c => refine (Build_ClassDef a b c eq_refl eq_refl eq_refl eq_refl eq_refl eq_refl eq_refl CV _ _ eq_refl BC _) end.
    + exact (bcc_L u).
    + apply (CU 3%nat). rewrite HLp. apply Nat.leb_le. reflexivity.
    + apply (kinVoce_L true 12); [apply KV; rewrite HLp; apply Nat.leb_le; reflexivity|exact V].
  - change (List.length pars = 97%nat) in HLp. match goal with |- ClassDef ?a ?b ?c => refine (Build_ClassDef a b c eq_refl eq_refl eq_refl eq_refl eq_refl eq_refl eq_refl CV _ _ eq_refl HC _) end.
    + cbn [c_sgSet c_sgNP cls_HCP_A]. rewrite get_L by (rewrite sub_length; [apply Nat.ltb_lt; reflexivity|rewrite HLp; apply Nat.leb_le; reflexivity]).
      rewrite get_sub by (apply Nat.ltb_lt; reflexivity). apply (hcp_L u). exact CA.
    + apply (hexag_L u). cbn [c_sgNP c_elNP cls_HCP_A]. rewrite sub_length; [apply Nat.leb_le; reflexivity|rewrite HLp; apply Nat.leb_le; reflexivity].
    + apply (kinKM_L true true true true 24 24); [apply (KK 10%nat 24%nat); rewrite HLp; apply Nat.leb_le; reflexivity|exact V|apply Nat.leb_le; reflexivity].
Qed.

(** same object, on defined numbers *)
Definition same_obj (co : MClass (option R)) (cr : MClass R) (pars : list R) (oo : MM (option R)) (orr : MM R) : Prop :=
  mm_strides oo = mm_strides orr /\ mm_complete oo = mm_complete orr /\
  exists mo mr, mm_ready oo = Some (mo, Some (nth 2 pars 0)) /\ mm_ready orr = Some (mr, nth 2 pars 0) /\ MatDef mo mr /\
    k_nH (m_kin mr) = c_nH cr /\ k_nslip (m_kin mr) = c_nslip cr /\
    forall v e, snd (evalPT (m_eos mr) v e) = (e - p_ec0 cr pars) / p_cv pars.

Lemma init_L co cr pars oo orr opts strs : ClassDef co cr pars -> mm_strides oo = mm_strides orr -> mm_complete oo = mm_complete orr ->
  fst (mm_init co oo opts (L pars) strs) = fst (mm_init cr orr opts pars strs) /\
  (fst (mm_init cr orr opts pars strs) = Done -> same_obj co cr pars (snd (mm_init co oo opts (L pars) strs)) (snd (mm_init cr orr opts pars strs))).
Proof.
  intros [D1 D2 D3 D4 D5 D6 D0 D7 D8 D9 D10 D11 D12] ES EC. unfold mm_init.
  assert (EN : mm_nParams co = mm_nParams cr) by (unfold mm_nParams; now rewrite D3, D4, D5).
  rewrite EN, L_length. destruct (Nat.eqb_spec (List.length pars) (mm_nParams cr)) as [HP|HP]; cbn [negb]; [|split; [reflexivity|discriminate]].
  destruct (Nat.eqb (List.length opts) 0); cbn [negb]; [|split; [reflexivity|discriminate]].
  destruct (Nat.ltb 1 (List.length strs)); [split; [reflexivity|discriminate]|].
  rewrite D3, D4, D5, D6, D0. rewrite !sub_L. rewrite D8, D9. unfold kin_pars in D12.
  destruct (c_sgSet cr (sub pars 3 (c_sgNP cr))) as [sg|] eqn:ESG; cbn [option_map]; [|split; [reflexivity|discriminate]].
  destruct (c_kinSet co (L (sub pars (3 + c_sgNP cr + c_elNP cr) (c_kinNP cr)))) as [[ko ho]|];
    destruct (c_kinSet cr (sub pars (3 + c_sgNP cr + c_elNP cr) (c_kinNP cr))) as [[kr hr]|]; try contradiction; [|split; [reflexivity|discriminate]].
  destruct D12 as (KD & K1 & K2 & K3).
  rewrite Bulk_L. destruct (el_getBulkMod (c_elSet cr (sub pars (3 + c_sgNP cr) (c_elNP cr)))) as [bulk|] eqn:EB; cbn [option_map]; [|split; [reflexivity|discriminate]].
  unfold eos_getInfo. unfold mm_nParams, eos_nParams in HP.
  assert (LH : List.length (mm_histInfo co ho) = List.length (mm_histInfo cr hr)).
  { unfold mm_histInfo. rewrite !app_length, !map_length, !seq_length, K3, D1. reflexivity. }
  assert (EH : mm_numHist co = mm_numHist cr) by (unfold mm_numHist; now rewrite D1, D2).
  rewrite LH, EH. match goal with |- context [negb ?b] => destruct b end; cbn [negb fst snd]; [|split; [reflexivity|discriminate]].
  split; [reflexivity|]. intros _. split; [exact ES|]. split; [exact EC|].
  do 2 eexists. split; [unfold mm_ready, with_parts, with_scalars, with_vecs; cbn [mm_sg mm_kin mm_el mm_eos mm_tol]; rewrite (get_L u pars 2) by lia; reflexivity|].
  split; [reflexivity|].
  assert (TL : sub pars (3 + c_sgNP cr + c_elNP cr + c_kinNP cr) (eos_nParams - 3) =
     [get pars (3 + c_sgNP cr + c_elNP cr + c_kinNP cr); get pars (3 + c_sgNP cr + c_elNP cr + c_kinNP cr + 1)]).
  { rewrite sub_tab by (unfold eos_nParams; lia). change (eos_nParams - 3)%nat with 2%nat. unfold tab. cbn [seq map]. rewrite Nat.add_0_r. reflexivity. }
  split; [|split; [exact K2|split; [exact K1|]]].
  - destruct (D11 _ _ ESG) as (G1 & G2 & G3).
    constructor; cbn [m_sg m_el m_eos m_kin]; try reflexivity; try assumption.
    + rewrite (get_L u pars 0), (get_L u pars 1) by lia.
      match goal with |- _ = liftEos (eos_setParams false ?p) => refine (eq_trans _ (eos_L u false p _ D7)) end; [reflexivity|].
      cbn [app List.length]. rewrite TL. cbn. lia.
    + now rewrite G1.
    + now rewrite G1.
    + now rewrite G1.
  - intros v e. cbn [m_eos]. rewrite TL. unfold evalPT, eos_setParams. rarr. cbn [eos_iso eos_tK0 eos_dtde snd]. unfold p_ec0, p_cv.
    replace (mm_nParams cr - 1)%nat with (3 + c_sgNP cr + c_elNP cr + c_kinNP cr + 1)%nat by (unfold mm_nParams, eos_nParams; lia).
    unfold get, one. cbn. field. exact D7.
Qed.
End Def5.
