(** Doubles: from one point to calls of getResponseECM and histories of calls. *)
From Coq Require Import List ZArith Bool Lia PeanoNat Reals Lra Psatz.
From Flocq Require Import Core IEEE754.BinarySingleNaN.
From Verif Require Import Num Arr NumR Util SlipGeom Eos Hard KinVoce KinKMBalD Elast Evptn MatModel Cases
  P_Sngl P_Batch P_Batch2 P_Batch3 P_Api P_Builtin P_Gen NumD P_Dbl P_Dbl2 P_Dbl3 P_Dbl4 SpecDbl.
Import ListNotations.
Local Open Scope R_scope.

Lemma dnumHist_ge nH ns k : (k < 13)%nat -> (k < numHist nH ns)%nat.
Proof. unfold numHist, iHistLbH. lia. Qed.

Section L.
  Variable L : Libm.
  Let DN : Num dbl := DNum L.
  #[local] Existing Instance DN.

  Lemma dcell_val (c : MClass dbl) s mtan n m a i k : no_wrap (mm_strides s) mtan n -> (i < n)%nat ->
    (k < per_point (c_nH c) (c_nslip c) mtan a)%nat -> get (cell_of c s mtan m a i) k = dval s m a i k.
  Proof.
    intros HW Hi Hk. unfold cell_of, cell. rewrite get_sub by (rewrite width_eq; exact Hk).
    rewrite (offs_eq (mm_strides s) mtan n HW) by assumption. reflexivity.
  Qed.

  (** point [i] of a successful call *)
  Lemma dgood_point hs c b i : dgood L hs c b -> (i < d_n b)%nat ->
    exists mat tol, mm_ready (d_s b) = Some (mat, tol) /\ gmat_ok c mat /\
      let P := pt_of c (d_s b) (d_mtan b) (d_m b) i in
      let P' := pt_of c (d_s b) (d_mtan b) (d_m1 b) i in
      let cl := fun a => cell_of c (d_s b) (d_mtan b) (d_m b) a i in
      kin_shapes (m_kin mat) (sg_nslip (m_sg mat)) /\ pt_shapes mat P /\
      getResponseSngl (d_solver b) (d_lu b) mat (d_dt b) tol (cl AD) (cl AW) (cl AV) P = (Done, P').
  Proof.
    intros (HB & HR & HO & H) Hi.
    destruct (gapi_done hs c (d_s b) _ _ _ _ _ _ _ HB HR HO H) as [_ [E0|(mat & tol & H1 & H2 & H3)]]; [lia|].
    exists mat, tol. split; [assumption|]. split; [assumption|]. cbv zeta. destruct H2 as (_ & _ & H2 & _).
    split; [assumption|]. now apply H3.
  Qed.

  Section B.
    Variables (hs : Solver dbl) (c : MClass dbl) (b : DCall) (i : nat).
    Hypothesis G : dgood L hs c b.
    Hypothesis Hi : (i < d_n b)%nat.
    Let s := d_s b. Let m := d_m b. Let m1 := d_m1 b.
    Let pt := pt_of c s (d_mtan b) m i.
    Let pt' := pt_of c s (d_mtan b) m1 i.

    Lemma dv_in a k : (k < per_point (c_nH c) (c_nslip c) (d_mtan b) a)%nat -> get (cell_of c s (d_mtan b) m a i) k = dval s m a i k.
    Proof. intros. apply (dcell_val c s (d_mtan b) (d_n b)); auto. apply G. Qed.
    Lemma dv_out a k : (k < per_point (c_nH c) (c_nslip c) (d_mtan b) a)%nat -> get (cell_of c s (d_mtan b) m1 a i) k = dval s m1 a i k.
    Proof. intros. apply (dcell_val c s (d_mtan b) (d_n b)); auto. apply G. Qed.
    Lemma dhist_in k : (k < 13)%nat -> get (pt_hist pt) k = dval s m AH i k.
    Proof. intros. apply dv_in. cbn [per_point]. now apply dnumHist_ge. Qed.
    Lemma dhist_out k : (k < 13)%nat -> get (pt_hist pt') k = dval s m1 AH i k.
    Proof. intros. apply dv_out. cbn [per_point]. now apply dnumHist_ge. Qed.

    (** what the call stored at this point *)
    Lemma dres : exists mat tol h_u p r v nfev gmod,
      mm_ready s = Some (mat, tol) /\ gmat_ok c mat /\ p = snglProb mat (d_dt b) (cell_of c s (d_mtan b) m AD i) (cell_of c s (d_mtan b) m AW i) (cell_of c s (d_mtan b) m AV i) pt h_u /\
      r = d_solver b 8%nat (computeRJ p) tol 200%nat (tab 8 (fun _ => nZ 0)) /\
      GResult mat (d_lu b) (d_dt b) (cell_of c s (d_mtan b) m AD i) (cell_of c s (d_mtan b) m AW i) (cell_of c s (d_mtan b) m AV i) pt pt' h_u p r v nfev gmod.
    Proof.
      destruct (dgood_point hs c b i G Hi) as (mat & tol & HM & HMo & K & S & E). cbv zeta in *.
      destruct (gsngl_done _ _ _ _ _ _ _ _ _ _ K S E) as (h_u & v & nf & gm & Rs). cbv zeta in Rs.
      do 8 eexists. split; [exact HM|]. split; [exact HMo|]. split; [reflexivity|]. split; [reflexivity|]. exact Rs.
    Qed.

    Lemma four (h : list dbl) (g : nat -> dbl) : length (sub h 9 4) = 4%nat -> (forall k, (k < 13)%nat -> get h k = g k) -> sub h 9 4 = map (fun k => g (9 + k)%nat) [0; 1; 2; 3]%nat.
    Proof.
      intros HL H. apply list_get_ext; [now rewrite HL|]. intros k Hk. rewrite HL in Hk. rewrite get_sub by assumption.
      rewrite H by lia. do 4 (destruct k as [|k]; [reflexivity|]). lia.
    Qed.
    Lemma dquat_in : sub (pt_hist pt) 9 4 = dquat s m i.
    Proof.
      destruct (dgood_point hs c b i G Hi) as (mat & tol & _ & _ & _ & (_ & _ & SH & _) & _).
      apply four; [|exact dhist_in]. apply sub_length. change (length (pt_hist pt) = numHist (k_nH (m_kin mat)) (sg_nslip (m_sg mat))) in SH.
      rewrite SH. unfold numHist, iHistLbH. lia.
    Qed.
    Lemma dquat_out : sub (pt_hist pt') 9 4 = dquat s m1 i.
    Proof.
      destruct dres as (mat & tol & h_u & p & r & v & nf & gm & _ & _ & _ & _ & Rs).
      destruct (g_shapes _ _ _ _ _ _ _ _ _ _ _ _ _ _ Rs) as (_ & _ & SH & _).
      apply four; [|exact dhist_out]. apply sub_length.
      rewrite SH. unfold numHist, iHistLbH. lia.
    Qed.

    (** the stored orientation: the updated one or its negative *)
    Lemma dquat_new : exists xi, let q := get_c_quat (emap_to_quat xi) (vecsVNormalize 4 (dquat s m i)) in
      dquat s m1 i = gquat_final q (vecsVNormalize 4 (dquat s m i)) /\
      exists x, xi = vecsVxa 3 r_scale (x_r x) /\
        exists f tol, let r := d_solver b 8%nat f tol 200%nat (tab 8 (fun _ => nZ 0)) in so_converged r = true /\ x = so_x r.
    Proof.
      destruct dres as (mat & tol & h_u & p & r & v & nf & gm & _ & _ & HP & HR & Rs).
      exists (vecsVxa 3 r_scale (x_r (so_x r))). cbv zeta. split.
      - rewrite <- dquat_out, <- dquat_in. pose proof (g_Q _ _ _ _ _ _ _ _ _ _ _ _ _ _ Rs) as Q. unfold iHistLbQ in Q. rewrite Q.
        unfold snglQuatN, iHistLbQ. rewrite HP. reflexivity.
      - exists (so_x r). split; [reflexivity|]. exists (computeRJ p), tol. cbv zeta. rewrite <- HR. split; [|reflexivity].
        exact (g_conv _ _ _ _ _ _ _ _ _ _ _ _ _ _ Rs).
    Qed.
  End B.

  Lemma dquat_list4 s m i : list4 (dquat s m i).
  Proof. unfold dquat. cbn [map]. do 4 eexists. reflexivity. Qed.
  Lemma opp_list q : norm2 (map Bopp q) = norm2 q /\ (finite q -> finite (map Bopp q)) /\ (all_nan q -> all_nan (map Bopp q)).
  Proof.
    split; [|split].
    - induction q as [|x q IH]; [reflexivity|]. cbn [map norm2 fold_right]. unfold norm2 in IH. rewrite IH, B2R_Bopp. ring.
    - intros H. apply Forall_map. apply Forall_impl with (2 := H). intros x. now rewrite is_finite_Bopp.
    - intros H. apply Forall_map. apply Forall_impl with (2 := H). intros x. now rewrite is_nan_Bopp.
  Qed.
  Definition unit_or_nan (q : list dbl) : Prop := all_nan q \/ finite q /\ Rabs (norm2 q - 1) <= / 10 ^ 13.
  Lemma final_unit q qn : unit_or_nan q -> unit_or_nan (gquat_final q qn).
  Proof.
    unfold gquat_final. destruct nltb; [|auto]. destruct (opp_list q) as (E1 & E2 & E3). change (@nopp dbl DN) with (@Bopp 53 1024).
    intros [H|[H1 H2]]; [left; auto|right; rewrite E1; auto].
  Qed.
  Lemma final_nan q qn : all_nan q -> all_nan (gquat_final q qn).
  Proof.
    unfold gquat_final. destruct nltb; [|auto]. destruct (opp_list q) as (E1 & E2 & E3). change (@nopp dbl DN) with (@Bopp 53 1024). auto.
  Qed.

  Hypothesis TR : trig_ok L.

  Lemma dcall_quat hs c b i : dgood L hs c b -> (i < d_n b)%nat ->
    let q := dquat (d_s b) (d_m b) i in let q' := dquat (d_s b) (d_m1 b) i in
    (all_nan q -> all_nan q') /\
    (finite q -> bpow radix2 (-900) <= norm2 q <= bpow radix2 1000 -> unit_or_nan q').
  Proof.
    intros G Hi. cbv zeta. destruct (dquat_new hs c b i G Hi) as (xi & E & _). cbv zeta in E. rewrite E.
    destruct (quat_update L TR (dquat (d_s b) (d_m b) i) xi (dquat_list4 _ _ _)) as [Q1 Q2].
    split; [intros H; apply final_nan; auto|intros H1 H2; apply final_unit; unfold unit_or_nan].
    destruct (Q2 H1 H2) as [[_ Q]|Q]; auto.
  Qed.
  Lemma pow100 : (10 ^ 100 <= bpow radix2 400)%R.
  Proof.
    rewrite <- (IZR_Zpower radix2) by lia. rewrite pow_IZR. apply IZR_le.
    replace (Z.of_nat 100) with 100%Z by reflexivity. vm_compute. discriminate.
  Qed.
  Lemma dcall_quat_fin hs c b i : dgood L hs c b -> (i < d_n b)%nat -> moderate_answers (d_solver b) ->
    let q := dquat (d_s b) (d_m b) i in let q' := dquat (d_s b) (d_m1 b) i in
    finite q -> bpow radix2 (-900) <= norm2 q <= bpow radix2 1000 -> finite q' /\ Rabs (norm2 q' - 1) <= / 10 ^ 13.
  Proof.
    intros G Hi HM. cbv zeta. destruct (dquat_new hs c b i G Hi) as (xi & E & x & -> & f & tol & HC & ->). cbv zeta in E, HC. rewrite E.
    set (r := d_solver b 8%nat f tol 200%nat (tab 8 (fun _ => nZ 0))) in *.
    destruct (HM _ _ _ _ _ HC) as [HL HF]. fold r in HL, HF.
    intros H1 H2.
    assert (FI : is_finite (vecNorm emapdim (vecsVxa 3 r_scale (x_r (so_x r)))) = true).
    { apply scale_fin. intros k Hk. unfold x_r.
      rewrite get_sub by assumption.
      assert (IN : In (get (so_x r) (5 + k)) (so_x r)) by (apply nth_In; rewrite HL; lia).
      rewrite Forall_forall in HF. destruct (HF _ IN) as [A B]. split; [exact A|]. exact (Rle_trans _ _ _ B pow100). }
    destruct (quat_update L TR (dquat (d_s b) (d_m b) i) (vecsVxa 3 r_scale (x_r (so_x r))) (dquat_list4 _ _ _)) as [_ Q2].
    destruct (Q2 H1 H2) as [[Q _]|[Q3 Q4]]; [change (DNum L) with DN in Q; congruence|].
    set (q := get_c_quat (emap_to_quat (vecsVxa 3 r_scale (x_r (so_x r)))) (vecsVNormalize 4 (dquat (d_s b) (d_m b) i))) in *.
    unfold gquat_final. destruct nltb; [|split; assumption].
    destruct (opp_list q) as (E1 & E2 & _). change (@nopp dbl DN) with (@Bopp 53 1024). rewrite E1. auto.
  Qed.

  Lemma dval_eq s s' (m m' : Mem dbl) a i k : mm_strides s' = mm_strides s -> m' a = m a -> dval s' m' a i k = dval s m a i k.
  Proof. intros H1 H2. unfold dval. now rewrite H1, H2. Qed.
  Lemma dquat_eq s s' (m m' : Mem dbl) i : mm_strides s' = mm_strides s -> m' AH = m AH -> dquat s' m' i = dquat s m i.
  Proof. intros H1 H2. unfold dquat. cbn [map]. now rewrite !(dval_eq s s' m m' AH) by assumption. Qed.

  Lemma near1_range q : Rabs (norm2 q - 1) <= / 10 ^ 13 -> bpow radix2 (-900) <= norm2 q <= bpow radix2 1000.
  Proof.
    intros H. apply abs_le in H. cbn [pow] in H.
    assert (bpow radix2 (-900) <= bpow radix2 (-1)) by (apply bpow_le; lia).
    assert (bpow radix2 1 <= bpow radix2 1000) by (apply bpow_le; lia).
    change (bpow radix2 (-1)) with (/ 2) in *. change (bpow radix2 1) with 2 in *. lra.
  Qed.

  Lemma dchain_quat hs c i : forall l b0, dchain L hs c (b0 :: l) -> (i < d_n b0)%nat ->
    (let q := dquat (d_s b0) (d_m b0) i in all_nan q \/ finite q /\ bpow radix2 (-900) <= norm2 q <= bpow radix2 1000) ->
    forall b, In b (b0 :: l) -> unit_or_nan (dquat (d_s b) (d_m1 b) i).
  Proof.
    induction l as [|b1 l IH]; intros b0 (HG & HF & HC) Hi HQ b HI;
      destruct (dcall_quat hs c b0 i HG Hi) as [Q1 Q2]; cbv zeta in *;
      (assert (U : unit_or_nan (dquat (d_s b0) (d_m1 b0) i)) by (destruct HQ as [HQ|[HQ1 HQ2]]; [left; auto|auto]));
      (destruct HI as [<-|HI]; [exact U|]).
    - destruct HI.
    - destruct HF as (F1 & F2 & F3). apply (IH b1 HC); [lia| |assumption].
      rewrite (dquat_eq (d_s b0) (d_s b1) (d_m1 b0) (d_m b1) i F1 F3).
      destruct U as [U|[U1 U2]]; [left; exact U|right; split; [exact U1|now apply near1_range]].
  Qed.
  Lemma dchain_quat_fin hs c i : forall l b0, dchain L hs c (b0 :: l) -> (i < d_n b0)%nat ->
    (forall b, In b (b0 :: l) -> moderate_answers (d_solver b)) ->
    (let q := dquat (d_s b0) (d_m b0) i in finite q /\ bpow radix2 (-900) <= norm2 q <= bpow radix2 1000) ->
    forall b, In b (b0 :: l) -> finite (dquat (d_s b) (d_m1 b) i) /\ Rabs (norm2 (dquat (d_s b) (d_m1 b) i) - 1) <= / 10 ^ 13.
  Proof.
    induction l as [|b1 l IH]; intros b0 (HG & HF & HC) Hi HM HQ b HI;
      pose proof (dcall_quat_fin hs c b0 i HG Hi (HM b0 (or_introl eq_refl)) (proj1 HQ) (proj2 HQ)) as U; cbv zeta in U;
      (destruct HI as [<-|HI]; [exact U|]).
    - destruct HI.
    - destruct HF as (F1 & F2 & F3). apply (IH b1 HC); [lia|intros; apply HM; now right| |assumption].
      rewrite (dquat_eq (d_s b0) (d_s b1) (d_m1 b0) (d_m b1) i F1 F3).
      destruct U as [U1 U2]. split; [exact U1|now apply near1_range].
  Qed.
End L.
