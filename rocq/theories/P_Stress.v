(** The stress returned by a successful call (C44, stress part of C02). *)
From Coq Require Import List ZArith Bool Lia PeanoNat Reals Lra String.
From Verif Require Import Num Arr NumR Util SlipGeom Eos Hard KinVoce KinKMBalD Elast Evptn MatModel Cases SpecTensor
  SpecElast P_Tensor P_Elast P_Eos P_Sngl P_Sngl2 P_Sngl3 P_Batch P_Batch2 P_Batch3 P_Api P_Builtin SpecApi P_Hist SpecStress.
Import ListNotations.
Local Open Scope R_scope.

Lemma rotates_rotq q C : List.length q = 4%nat -> rotates q C -> C = rotq q.
Proof.
  intros L H. assert (E : forall v, mulv C v = mulv (rotq q) v).
  { intros v. specialize (H v). rewrite (rotq_conj_action q v L) in H. apply (f_equal snd) in H. symmetry. exact H. }
  pose proof (E (mkV 1 0 0)) as E1. pose proof (E (mkV 0 1 0)) as E2. pose proof (E (mkV 0 0 1)) as E3. clear E H.
  destruct C. destruct (rotq q). unfold mulv in *. cbn in *. injection E1 as ? ? ?. injection E2 as ? ? ?. injection E3 as ? ? ?.
  apply mk3_eq; lra.
Qed.
Lemma rotq_rotates q : List.length q = 4%nat -> rotates q (rotq q).
Proof. intros L v. exact (rotq_conj_action q v L). Qed.

Lemma rotates_sign q C : List.length q = 4%nat -> rotates q C \/ rotates (map Ropp q) C -> rotates q C /\ rotates (map Ropp q) C.
Proof.
  intros L H. assert (LO : List.length (map Ropp q) = 4%nat) by now rewrite map_length.
  assert (E : C = rotq q).
  { destruct H as [H|H]; [now apply rotates_rotq|]. apply rotates_rotq in H; [|assumption]. now rewrite H, rotq_opp. }
  subst C. split; [now apply rotq_rotates|]. rewrite <- (rotq_opp q L). now apply rotq_rotates.
Qed.

Lemma ofM3_toM3 l : List.length l = 9%nat -> ofM3 (toM3 l) = l.
Proof.
  intros L. destruct l as [|? [|? [|? [|? [|? [|? [|? [|? [|? [|]]]]]]]]]]; try discriminate L. reflexivity.
Qed.
Lemma ten5_dev v : is_dev (ten5 v).
Proof. unfold is_dev, is_sym, ten5. split; specR; [reflexivity|ring]. Qed.
Lemma vma_app M (u : list R) x : List.length u = 5%nat -> vecsVMa 5 5 M (u ++ [x]) = vecsVMa 5 5 M u.
Proof.
  intros L. unfold vecsVMa. apply tab_ext. intros k Hk. apply sum_ext. intros j Hj. rewrite get_app1 by lia. reflexivity.
Qed.
Lemma cong_I C : is_orth C -> cong C I3 = I3.
Proof. intros [H _]. unfold cong. replace (mul3 C I3) with C by (clear; destruct C; spec; meq; ring). exact H. Qed.
Lemma cong_add C A B : cong C (add3 A B) = add3 (cong C A) (cong C B).
Proof. destruct A, B, C. spec. meq; ring. Qed.
Lemma cong_scal C a A : cong C (scal3 a A) = scal3 a (cong C A).
Proof. destruct A, C. spec. meq; ring. Qed.
Lemma add3_comp A B k : inner (add3 A B) k = inner A k + inner B k.
Proof. destruct A, B, k. spec. ring. Qed.
Lemma vec6_split A x : is_dev A -> vec6 (add3 A (scal3 x (basis 5))) = vec5 A ++ [x].
Proof.
  intros [_ T]. unfold vec6, vec5. cbn [app]. rewrite !add3_comp.
  assert (E : forall k, (k < 5)%nat -> inner (scal3 x (basis 5)) (basis k) = 0).
  { intros k Hk. do 5 (destruct k as [|k]; [clear; specR; ring|]). lia. }
  rewrite !E by lia. assert (E5 : inner A (basis 5) = 0).
  { pose proof (s3_trace A) as S. rewrite T in S. pose proof s3_pos. nra. }
  assert (E55 : inner (scal3 x (basis 5)) (basis 5) = x) by (clear; specR; field_s).
  rewrite E5, E55. meq; ring.
Qed.

Lemma stress_out_law q (u : list R) x : List.length q = 4%nat -> norm2 q = 1 -> List.length u = 5%nat ->
  stress_out q (u ++ [x]) = svecP (cong (rotq q) (ten6 (u ++ [x]))).
Proof.
  intros Lq Hq Lu. unfold stress_out.
  change (get (u ++ [x]) iSvecS) with (get (u ++ [x]) 5). rewrite get_app2 by lia. rewrite Lu. change (get [x] (5 - 5)) with x.
  rewrite vma_app by assumption.
  assert (EQ : get_rot_mat_vecd (quat_to_tensor q) = rmat (rotq q)).
  { unfold rmat, rotq. rewrite ofM3_toM3; [reflexivity|]. destruct q as [|? [|? [|? [|? [|]]]]]; try discriminate Lq. reflexivity. }
  rewrite EQ. pose proof (rotq_rot q Lq Hq) as [HO _].
  rewrite <- (vec5_ten5 u Lu) at 1. rewrite rmat_apply by (try apply ten5_dev; assumption).
  rewrite vecdsToSvecP_ten by reflexivity. f_equal.
  assert (E6 : ten6 (u ++ [x]) = add3 (ten5 u) (scal3 x (basis 5))).
  { unfold ten6, ten5. rewrite !app_nth1 by lia. rewrite app_nth2 by lia. rewrite Lu. reflexivity. }
  rewrite E6, cong_add, cong_scal.
  replace (cong (rotq q) (basis 5)) with (basis 5) by (unfold basis; rewrite cong_scal, cong_I by assumption; reflexivity).
  assert (HD : is_dev (cong (rotq q) (ten5 u))).
  { destruct (ten5_dev u) as [S T]. split; [now apply cong_sym|]. pose proof (cong_trace (rotq q) (ten5 u) HO) as CT. now rewrite CT. }
  set (B := cong (rotq q) (ten5 u)) in *. clearbody B.
  rewrite <- (vec6_split B x HD). clear E6 EQ. 
  destruct HD as [HS HT]. assert (S6 : is_sym (add3 B (scal3 x (basis 5)))).
  { unfold is_sym in *. destruct B. revert HS. unfold tr3. cbn. intros HS. injection HS as ? ? ? ? ? ?. subst. spec. meq; ring. }
  set (D := add3 B (scal3 x (basis 5))) in *. clearbody D. clear - S6. symc D S6. specR. meq; field_s.
Qed.

Lemma sym6_svecP A : is_sym A -> sym6 (get (svecP A)) = dev3 A.
Proof. intros H. symc A H. unfold sym6, dev3, svecP. specR. rarr. spec. meq; field. Qed.

Lemma sub_map (l : list R) j n : (j + n <= List.length l)%nat -> sub l j n = map (fun k => nth (j + k) l 0) (seq 0 n).
Proof.
  intros H. apply list_get_ext; [rewrite sub_length by assumption; now rewrite map_length, seq_length|].
  intros k Hk. rewrite sub_length in Hk by assumption. rewrite get_sub by assumption.
  unfold get. cbn [nundef RNum].
  rewrite (nth_indep (map (fun k => nth (j + k) l 0) (seq 0 n)) 0 (nth (j + 0) l 0)) by (rewrite map_length, seq_length; assumption).
  rewrite (map_nth (fun k => nth (j + k) l 0)), seq_nth by assumption. reflexivity.
Qed.

Lemma el_law hs c pars E p e : builtin hs c -> List.length pars = mm_nParams c -> is_sym E ->
  exists x, el_eval (el_of c pars) (vec6 E) p e =
    vec5 (add3 (p_hooke c pars E) (scal3 (- (exp (trace E) * p_ghex c pars * e)) (basis 1))) ++ [x].
Proof.
  intros HB HL HE.
  assert (CU : forall c11 c12 c44, exists x, el_eval (cubic_setParams [c11; c12; c44]) (vec6 E) p e =
    vec5 (add3 (hooke_cubic c11 c12 c44 E) (scal3 (- (exp (trace E) * 0 * e)) (basis 1))) ++ [x]).
  { intros. eexists. rewrite cubic_law by assumption. f_equal. f_equal.
    set (H := hooke_cubic c11 c12 c44 E). set (t := exp (trace E)). clearbody t H. clear. destruct H. spec. meq; ring. }
  destruct HB as [ -> | [ -> | [ -> | [ -> | [ -> | [ -> | -> ]]]]]];
    unfold el_of, p_hooke, p_ghex, hexagonal; cbn [cls_FCC_A cls_FCC_AH cls_FCC_B cls_BCC_A cls_HCP_A cls_BCC_B cls_BCC_BH c_elSet c_elNP c_sgNP hexag_nParams cubic_nParams Nat.eqb Nat.add];
    rewrite sub_map by (rewrite HL; apply Nat.leb_le; vm_compute; reflexivity); cbn [seq map Nat.add];
    change cubic_nParams with 3%nat; change hexag_nParams with 6%nat; cbn [seq map Nat.add Nat.eqb];
    [apply CU .. | eexists; apply hex_law; assumption].
Qed.

Lemma p_hooke_sym c pars E : is_sym E -> is_sym (p_hooke c pars E).
Proof.
  intros H. unfold p_hooke. destruct hexagonal; unfold hooke_cubic, hooke_hex, is_sym in *; destruct E;
    unfold tr3 in *; cbn in *; injection H as ? ? ? ? ? ?; subst; reflexivity.
Qed.
Lemma ten5_vec5 A : is_sym A -> ten5 (vec5 A) = dev3 A.
Proof. intros H. symc A H. unfold ten5, dev3. specR. meq; field_s. Qed.
Lemma dev3_ten6 v : dev3 (ten6 v) = ten5 v.
Proof. unfold dev3, ten6, ten5. specR. meq; field_s. Qed.
Lemma dev3_cong C A : is_orth C -> dev3 (cong C A) = cong C (dev3 A).
Proof. intros H. unfold dev3. rewrite cong_add, cong_scal, cong_I, cong_trace by assumption. reflexivity. Qed.
Lemma dev3_scal a A : dev3 (scal3 a A) = scal3 a (dev3 A).
Proof. destruct A. unfold dev3. spec. meq; field. Qed.
Lemma ten5_scal a v : List.length v = 6%nat -> ten6 (tab 6 (fun i => a * get v i)) = scal3 a (ten6 v).
Proof. intros L. destruct v as [|? [|? [|? [|? [|? [|? [|]]]]]]]; try discriminate L. unfold ten6, ten5. specR. rarr. specR. meq; field_s. Qed.

Lemma dev_law (p : Prob R) q e c pars hs : builtin hs c -> List.length pars = mm_nParams c -> pb_el p = el_of c pars ->
  0 < pb_detV p -> pb_a_V p = Rpow (pb_detV p) (1/3) -> pb_a_V_ri p = 1 / pb_a_V p -> pb_detV_ri p = 1 / pb_detV p ->
  List.length e = 5%nat -> List.length q = 4%nat -> norm2 q = 1 ->
  sym6 (get (stress_out q (elastNEtoC p e))) =
  cong (rotq q) (dev3 (latStress c pars (pb_detV p) (pb_eVref p)
     (add3 (scal3 (/ Rpower (pb_detV p) (1 / 3)) (ten5 e)) (scal3 (ln (pb_detV p) / 3) I3)))).
Proof.
  intros HB HL Hel Hv Ha Har Hdr Le Lq Hq. pose proof (rotq_rot q Lq Hq) as [HO _].
  set (v := pb_detV p) in *. rewrite Rpow_pos in Ha by assumption.
  set (E := add3 (scal3 (/ Rpower v (1 / 3)) (ten5 e)) (scal3 (ln v / 3) I3)).
  assert (HE : is_sym E).
  { unfold E. destruct (ten5_dev e) as [S _]. set (B := ten5 e) in *. clearbody B. unfold is_sym in *. destruct B. unfold tr3 in *. cbn in *.
    injection S as ? ? ? ? ? ?. subst. reflexivity. }
  assert (HT : trace E = ln v).
  { unfold E. destruct (ten5_dev e) as [_ T]. set (B := ten5 e) in *. clearbody B. clear - T. destruct B. spec.
    transitivity (/ Rpower v (1/3) * (a00 + a11 + a22) + ln v); [field|rewrite T; ring]. 
    unfold Rpower. apply Rgt_not_eq, exp_pos. }
  assert (H6 : vecsVxa 5 (pb_a_V_ri p) e ++ [sqr3 * nlog (pb_a_V p)]%num = vec6 E).
  { unfold E. assert (EX : scal3 (ln v / 3) I3 = scal3 (s3 / 3 * ln v) (basis 5)) by (clear; specR; meq; field_s).
    rewrite EX. rewrite vec6_split.
    - rewrite Har, Ha. destruct e as [|? [|? [|? [|? [|? [|]]]]]]; try discriminate Le.
      assert (EL : (sqr3 * nlog (Rpower v (1 / 3)))%num = s3 / 3 * ln v).
      { cbn [nmul nlog RNum]. change sqr3 with s3. unfold Rpower. rewrite ln_exp. field. }
      rewrite EL. f_equal. set (k := Rpower v (1/3)) in *. assert (Hk : 0 < k) by (unfold k, Rpower; apply exp_pos). clearbody k.
      unfold vecsVxa. clear - Hk. unfold ten5. specR. rarr. specR. meq; field_s; lra.
    - destruct (ten5_dev e) as [S T]. set (B := ten5 e) in *. set (k := / Rpower v (1/3)). clearbody B k. clear - S T.
      split; [unfold is_sym in *; destruct B; unfold tr3 in *; cbn in *; injection S as ? ? ? ? ? ?; subst; reflexivity|].
      destruct B. spec. transitivity (k * (a00 + a11 + a22)); [ring|rewrite T; ring]. }
  unfold elastNEtoC, elastNEtoT. rewrite H6, Hel.
  destruct (el_law hs c pars E (pb_p_EOS p) (pb_eVref p) HB HL HE) as [x EX]. rewrite EX.
  set (S0 := add3 (p_hooke c pars E) (scal3 (- (exp (trace E) * p_ghex c pars * pb_eVref p)) (basis 1))).
  assert (HS0 : is_sym S0).
  { unfold S0. pose proof (p_hooke_sym c pars E HE) as HP. set (B := p_hooke c pars E) in *. clearbody B.
    unfold is_sym in *. destruct B. unfold tr3 in *. cbn in *. injection HP as ? ? ? ? ? ?. subst. reflexivity. }
  unfold el_getCauchy.
  assert (EC : tab 6 (fun i => (pb_detV_ri p * get (vec5 S0 ++ [x]) i)%num) =
    tab 5 (fun i => (pb_detV_ri p * get (vec5 S0) i)%num) ++ [(pb_detV_ri p * x)%num]) by reflexivity.
  assert (LT : List.length (vec5 S0 ++ [x]) = 6%nat) by reflexivity.
  rewrite EC. rewrite stress_out_law; [|assumption..|reflexivity]. rewrite <- EC. clear EC.
  rewrite sym6_svecP by (apply cong_sym, ten6_sym). rewrite dev3_cong by assumption. f_equal.
  change (fun i => (pb_detV_ri p * get (vec5 S0 ++ [x]) i)%num) with (fun i => pb_detV_ri p * get (vec5 S0 ++ [x]) i).
  rewrite (ten5_scal (pb_detV_ri p) _ LT), dev3_scal, dev3_ten6.
  replace (ten5 (vec5 S0 ++ [x])) with (ten5 (vec5 S0)) by reflexivity. rewrite ten5_vec5 by assumption.
  rewrite <- dev3_scal. f_equal. unfold S0, latStress. rewrite HT, exp_ln by assumption.
  fold E. rewrite Hdr. set (H := p_hooke c pars E). set (g := p_ghex c pars). set (ev := pb_eVref p). clearbody H g ev v. clear - Hv.
  destruct H. specR. meq; field_s; lra.
Qed.

Section B3.
  Variables (hs : Solver R) (c : MClass R) (b : BCall) (i : nat) (pars : list R).
  Hypothesis G : good hs c b.
  Hypothesis Hi : (i < b_n b)%nat.
  Hypothesis U : in_use c (b_s b) pars.
  Let s := b_s b. Let m := b_m b. Let m1 := b_m1 b.
  Let e1 := eInt s m i - delv s m i * pres s m i.

  Lemma call_stress : 0 < vNew s m i -> norm2 (quat s m i) <> 0 ->
    devStress s m1 i = cong (rotq (quat s m1 i)) (dev3 (latStress c pars (vNew s m i) e1 (latStrain s m1 i (vNew s m i)))).
  Proof.
    intros Hv Hq. pose proof (call_quat hs c b i G Hi Hq) as HQ1. pose proof (quat_out hs c b i G Hi) as QO.
    destruct (good_point hs c b i G Hi) as (mat & tol & HM & HMo & K & S & E). cbv zeta in *.
    destruct (fun H => sngl_quat_unit _ _ _ _ _ _ _ _ _ _ K S H E) as [HU _].
    { pose proof (quat_in hs c b i G Hi) as QI. rewrite QI. exact Hq. }
    pose proof G as (HB & _).
    destruct (in_use_parts hs c (b_s b) pars HB U) as (HR & HL & PB & sg & kin & HM').
    rewrite HM' in HM. apply (f_equal (option_map fst)) in HM. cbn [option_map fst] in HM.
    assert (EM : m_el mat = el_of c pars /\ m_eos mat = eos_setParams false [nth 0 pars 0; p_bulk c pars; p_cv pars; p_gamma c pars; p_ec0 c pars]).
    { assert (X : mat = {| m_sg := sg; m_kin := kin; m_el := el_of c pars; m_eos := eos_setParams false [nth 0 pars 0; p_bulk c pars; p_cv pars; p_gamma c pars; p_ec0 c pars] |}) by congruence.
      rewrite X. split; reflexivity. }
    clear HM HM'. destruct EM as [EL EE].
    destruct (sngl_done _ _ _ _ _ _ _ _ _ _ K S E) as (h_u & v & nf & gm & Rs). cbv zeta in Rs.
    pose proof (r_stress _ _ _ _ _ _ _ _ _ _ _ _ _ _ Rs) as RS.
    pose proof (r_E _ _ _ _ _ _ _ _ _ _ _ _ _ _ Rs) as RE.
    pose proof (r_Q _ _ _ _ _ _ _ _ _ _ _ _ _ _ Rs) as RQ. clear Rs.
    set (p := snglProb mat _ _ _ _ _ _) in *. set (x := so_x _) in *.
    destruct (stateFromX_length p x) as [L5 L4].
    set (e := fst (stateFromX p x)) in *. set (q := snd (stateFromX p x)) in *.
    assert (ER : rotq (quat s m1 i) = rotq q).
    { change (quat (b_s b) (b_m1 b) i) with (quat s m1 i) in QO. rewrite <- QO. unfold quat_of. unfold rotq.
      rewrite RQ, quat_final_tensor by assumption. reflexivity. }
    assert (NQ : norm2 q = 1).
    { unfold quat_of in HU. rewrite RQ, quat_final_norm in HU. exact HU. }
    assert (VI : forall a k, (k < per_point (c_nH c) (c_nslip c) (b_mtan b) a)%nat -> get (cell_of c s (b_mtan b) m a i) k = val s m a i k)
      by (intros; now apply (vin hs c b i G Hi)).
    assert (VO : forall a k, (k < per_point (c_nH c) (c_nslip c) (b_mtan b) a)%nat -> get (cell_of c s (b_mtan b) m1 a i) k = val s m1 a i k)
      by (intros; now apply (vout hs c b i G Hi)).
    assert (EV : pb_detV p = vNew s m i).
    { unfold p, snglProb, mkProb. cbn [pb_detV]. rewrite VI by (cbn [per_point]; lia). reflexivity. }
    assert (Ee : e = map (fun k => val s m1 AH i (4 + k)) [0; 1; 2; 3; 4]%nat).
    { rewrite <- RE. apply list_get_ext; [rewrite RE, L5; reflexivity|]. intros k Hk. rewrite RE, L5 in Hk.
      rewrite get_sub by assumption. unfold pt_of, pt_at. cbn [pt_hist].
      change (cell (mm_strides (b_s b)) (c_nH c) (c_nslip c) (b_mtan b) (b_m1 b) AH i) with (cell_of c s (b_mtan b) m1 AH i).
      rewrite VO by (cbn [per_point]; unfold iHistLbE; apply numHist_ge; lia).
      do 5 (destruct k as [|k]; [reflexivity|]). lia. }
    assert (Eev : pb_eVref p = e1).
    { unfold p, snglProb, mkProb, snglUpd, updateSimple. cbn [pb_eVref u_eNew].
      unfold pt_of, pt_at. cbn [pt_eInt pt_stress].
      change (cell (mm_strides (b_s b)) (c_nH c) (c_nslip c) (b_mtan b) (b_m b)) with (cell_of c s (b_mtan b) m).
      rewrite !VI by (cbn [per_point]; lia). reflexivity. }
    assert (DS : devStress s m1 i = sym6 (get (stress_out q (elastNEtoC p e)))).
    { rewrite <- RS. unfold pt_of, pt_at. cbn [pt_stress].
      change (cell (mm_strides (b_s b)) (c_nH c) (c_nslip c) (b_mtan b) (b_m1 b) AS i) with (cell_of c s (b_mtan b) m1 AS i).
      unfold devStress, sym6. rewrite !VO by (cbn [per_point]; lia). reflexivity. }
    rewrite DS, ER. rewrite (dev_law p q e c pars hs HB HL); try assumption; try reflexivity.
    - rewrite EV, Eev. unfold latStrain. rewrite <- Ee. reflexivity.
    - rewrite EV. exact Hv.
  Qed.

  (** the same, with the rotation described through its action on vectors; q and -q will both do *)
  Lemma call_hooke : 0 < vNew s m i -> norm2 (quat s m i) <> 0 ->
    (exists C, rotates (quat s m1 i) C) /\
    forall C, rotates (quat s m1 i) C \/ rotates (map Ropp (quat s m1 i)) C ->
      is_rot C /\
      devStress s m1 i = cong C (dev3 (latStress c pars (vNew s m i) e1 (latStrain s m1 i (vNew s m i)))).
  Proof.
    intros Hv Hq. pose proof (call_quat hs c b i G Hi Hq) as HQ1. split; [exists (rotq (quat s m1 i)); now apply rotq_rotates|].
    intros C [H|H]; apply rotates_rotq in H; try reflexivity; subst C; [|rewrite rotq_opp by reflexivity];
      (split; [apply rotq_rot; [reflexivity|exact HQ1]|now apply call_stress]).
  Qed.
End B3.
