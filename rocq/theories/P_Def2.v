(** C42: the hexagonal slip systems on defined numbers. *)
From Coq Require Import List ZArith Bool Lia PeanoNat Reals Lra.
From Verif Require Import Num Arr NumR NumO Util SlipGeom Eos Hard KinVoce KinKMBalD Elast Evptn MatModel Cases SpecDef P_Def SpecTensor SpecSlip P_Tensor P_Slip P_SlipH.
Import ListNotations.
Local Open Scope R_scope.

Lemma ofV3_norm x : vecNorm 3 (ofV3 x) = norm3 x.
Proof. unfold vecNorm, norm3, ofV3. rarr. cbn [nsqrt RNum]. f_equal. unfold dotv. ring. Qed.

Section Def2.
Variable u : bool.
Local Notation ON := (P_Def.ON u).
Local Hint Extern 0 (Num (option R)) => exact (P_Def.ON u) : typeclass_instances.

Lemma m_to_o_L d ca : length d = 4%nat -> m_to_o_dir (L d) (Some ca) = L (m_to_o_dir d ca).
Proof. intros H. unfold m_to_o_dir. rewrite !get_L by lia. reflexivity. Qed.
Lemma cross_L a b : length a = 3%nat -> length b = 3%nat -> vecCrossProd (L a) (L b) = L (vecCrossProd a b).
Proof. intros Ha Hb. unfold vecCrossProd. rewrite !get_L by lia. reflexivity. Qed.

Lemma miller_L ca abb d : 0 < ca -> hexOK d -> (hk2 d <> 0)%Z -> zdot4 pA d = 0%Z ->
  abb = (let '(u, v, t, w) := d in [IZR u; IZR v; IZR t; IZR w]) ->
  miller_to_orthog_sngl (L ann1) (L abb) (Some ca) = Some (L (ofV3 (unitv (hexnrm ca pA))), L (ofV3 (unitv (hexdir ca d)))).
Proof.
  intros Hc Hd Hz Hzz Eabb.
  assert (AL : length abb = 4%nat) by (subst abb; destruct d as [[[? ?] ?] ?]; reflexivity).
  pose proof (miller_core ca abb d Hc Hd Hz Hzz Eabb) as M. subst abb. refine (eq_trans _ (f_equal (option_map L2) M)).
  clear M. unfold miller_to_orthog_sngl.
  pose proof eps_sqrt_pos as He. assert (He1 : (idp_eps_sqrt : R) < 1) by (unfold idp_eps_sqrt; cbn; lra).
  rewrite !ssum_L, !sumabs_L by (rewrite ?AL; cbn [length ann1]; lia).
  set (dl := let '(u, v, t, w) := d in [IZR u; IZR v; IZR t; IZR w]) in *.
  assert (S1 : vecsssum 3 ann1 = 0) by (unfold vecsssum, ann1; rarr; lra).
  assert (S2 : vecsssum 3 dl = 0).
  { unfold dl. destruct (hexOK_form d Hd) as (h & k & l & ->). unfold vecsssum; rarr. rewrite minus_IZR, opp_IZR. lra. }
  assert (S3 : vecsssumabs 3 ann1 = 2).
  { unfold vecsssumabs, ann1; rarr. rewrite Rabs_R1, Rabs_R0, Rabs_left by lra. lra. }
  rewrite S1, S2, S3. rewrite !(get_L u ann1) by (cbn [length ann1]; lia).
  change (get ann1 0) with 1. change (get ann1 1) with 0. change (get ann1 2) with (-1). change (get ann1 3) with 1.
  change (idp_eps_sqrt <? nabs (Some 0%R))%num with (Rltb idp_eps_sqrt (Rabs 0)).
  change (idp_eps_sqrt <? nabs 0)%num with (Rltb idp_eps_sqrt (Rabs 0)).
  change (Some 2%R <? idp_eps_sqrt)%num with (Rltb 2 idp_eps_sqrt).
  change (2 <? idp_eps_sqrt)%num with (Rltb 2 idp_eps_sqrt).
  change (nabs (Some 1%R) <? idp_eps_sqrt)%num with (Rltb (Rabs 1) idp_eps_sqrt).
  change (nabs 1 <? idp_eps_sqrt)%num with (Rltb (Rabs 1) idp_eps_sqrt).
  change (nabs (Some 0%R) <? idp_eps_sqrt)%num with (Rltb (Rabs 0) idp_eps_sqrt).
  change (nabs 0 <? idp_eps_sqrt)%num with (Rltb (Rabs 0) idp_eps_sqrt).
  rewrite Rabs_R0, Rabs_R1.
  assert (B1 : Rltb idp_eps_sqrt 0 = false) by (apply Rltb_false; lra). rewrite B1.
  assert (B2 : Rltb 2 idp_eps_sqrt = false) by (apply Rltb_false; lra). rewrite B2.
  assert (B3 : Rltb 1 idp_eps_sqrt = false) by (apply Rltb_false; lra). rewrite !B3.
  assert (B4 : Rltb 0 idp_eps_sqrt = true) by (apply Rltb_true; lra). rewrite !B4.
  change (@one (option R) ON) with (Some (1 : R)). rewrite !div_L by lra.
  rewrite m_to_o_L by exact AL.
  assert (Dd : m_to_o_dir dl ca = ofV3 (hexdir ca d)).
  { unfold dl. destruct (hexOK_form d Hd) as (h & k & l & ->). rewrite hexdir_xyz. unfold m_to_o_dir. clear. spec. rarr.
    rewrite minus_IZR, opp_IZR. meq; field. }
  rewrite Dd. rewrite Normalize_L; [|cbn [length ofV3]; lia|rewrite ofV3_norm; pose proof (hexdir_pos ca d Hc Hd Hz); lra].
  change [Some (1 / 1); nZ 0; nZ 0; nZ 0] with (L [1 / 1; 0; 0; 0]).
  change [nZ 0; nZ 0; Some (1 / -1); nZ 0] with (L [0; 0; 1 / -1; 0]).
  change [nZ 0; nZ 0; nZ 0; Some (1 / 1)] with (L [0; 0; 0; 1 / 1]).
  rewrite !m_to_o_L by reflexivity.
  set (pa := m_to_o_dir [1 / 1; 0; 0; 0] ca). set (pb := m_to_o_dir [0; 0; 1 / -1; 0] ca). set (pc := m_to_o_dir [0; 0; 0; 1 / 1] ca).
  rewrite (tab_L 3 (fun i => nsub (get (L pa) i) (get (L pb) i)) (fun i => get pa i - get pb i)) by (intros i Hi; rewrite !get_L by exact Hi; reflexivity).
  rewrite (tab_L 3 (fun i => nsub (get (L pc) i) (get (L pb) i)) (fun i => get pc i - get pb i)) by (intros i Hi; rewrite !get_L by exact Hi; reflexivity).
  rewrite cross_L by apply tab_length.
  change (m_to_o_dir [one / 1; nZ 0; nZ 0; nZ 0] ca)%num with pa.
  change (m_to_o_dir [nZ 0; nZ 0; one / -1; nZ 0] ca)%num with pb.
  change (m_to_o_dir [nZ 0; nZ 0; nZ 0; one / 1] ca)%num with pc.
  change (fun i => nsub (get pa i) (get pb i)) with (fun i => get pa i - get pb i).
  change (fun i => nsub (get pc i) (get pb i)) with (fun i => get pc i - get pb i).
  set (X := vecCrossProd _ _ : list R).
  assert (EX : X = ofV3 (oppv (mkV (s3 * ca / 2 * v0 (hexnrm ca pA)) (s3 * ca / 2 * v1 (hexnrm ca pA)) (s3 * ca / 2 * v2 (hexnrm ca pA))))).
  { unfold X, pa, pb, pc. change pA with (1, 0, (- 1 - 0), 1)%Z. rewrite hexnrm_xyz. unfold vecCrossProd, m_to_o_dir, oppv. clear - Hc. spec. rarr.
    pose proof s3_sq as S. meq; field_simplify_eq; try lra; ring [S]. }
  assert (NX : vecNorm 3 X <> 0).
  { rewrite EX, ofV3_norm. assert (Hn : 0 < norm3 (hexnrm ca pA)) by (apply hexnrm_pos; [assumption|reflexivity|right; discriminate]).
    assert (K : 0 < s3 * ca / 2) by (pose proof s3_pos; nra).
    assert (O : forall x, norm3 (oppv x) = norm3 x) by (intros x; unfold norm3, oppv, dotv; cbn; f_equal; ring).
    rewrite O, norm3_scale by lra. nra. }
  assert (LX : length X = 3%nat) by reflexivity. clearbody X.
  rewrite Normalize_L by (try assumption; lia).
  assert (VL : length (vecsVNormalize 3 X) = 3%nat) by apply tab_length. set (V := vecsVNormalize 3 X) in *. clearbody V.
  rewrite (get_L u V) by lia.
  change (Some (get V 2) * Some 1%R <? nZ 0)%num with (Rltb (get V 2 * 1) 0).
  change (get V 2 * 1 <? nZ 0)%num with (Rltb (get V 2 * 1) 0).
  assert (WL : length (vecsVNormalize 3 (ofV3 (hexdir ca d))) = 3%nat) by apply tab_length. set (W := vecsVNormalize 3 (ofV3 (hexdir ca d))) in *. clearbody W.
  rewrite (tab_L 3 (fun i => nopp (get (L V) i)) (fun i => - get V i)) by (intros i Hi; rewrite get_L by lia; reflexivity).
  destruct (Rltb (get V 2 * 1) 0).
  - rewrite adotb_L by (rewrite ?tab_length; lia).
    match goal with |- (if ?a then None else _) = option_map _ (if ?b then None else _) => change a with b; destruct b; reflexivity end.
  - rewrite adotb_L by lia.
    match goal with |- (if ?a then None else _) = option_map _ (if ?b then None else _) => change a with b; destruct b; reflexivity end.
Qed.

Lemma hcp_L ca : 0 < ca -> slipGeomHCP (Some ca) = option_map liftSg (slipGeomHCP ca).
Proof.
  intros Hc. unfold slipGeomHCP.
  assert (E : hcp_tables (Some ca) = option_map L2 (hcp_tables ca)).
  { unfold hcp_tables.
    assert (E1 : [one; zero; nopp one; one] = ann1). { unfold ann1. rops. meq; try reflexivity; try lra. }
    assert (E1' : [one; zero; nopp one; one] = L ann1). { rewrite <- E1. reflexivity. }
    rewrite E1, E1'.
    assert (E2 : [one; nopp two; one; zero] = L [one; nopp two; one; zero]) by reflexivity.
    assert (E3 : [nopp one; nopp one; two; three] = L [nopp one; nopp one; two; three]) by reflexivity.
    rewrite E2, E3.
    rewrite (miller_L ca _ (1, -2, 1, 0)%Z Hc) by first [reflexivity | discriminate | (rops; meq; lra)].
    rewrite (miller_L ca _ (-1, -1, 2, 3)%Z Hc) by first [reflexivity | discriminate | (rops; meq; lra)].
    rewrite (miller_core ca _ (1, -2, 1, 0)%Z Hc) by first [reflexivity | discriminate | (rops; meq; lra)].
    rewrite (miller_core ca _ (-1, -1, 2, 3)%Z Hc) by first [reflexivity | discriminate | (rops; meq; lra)].
    rewrite !get_L by (cbn [length ofV3]; lia).
    assert (U : forall x, 0 < norm3 x -> 0 <= 1 - get (ofV3 (unitv x)) 2 * get (ofV3 (unitv x)) 2).
    { intros x Hx. unfold ofV3, get. cbn [nth]. unfold unitv. cbn [v2].
      assert (Q : norm3 x * norm3 x = dotv x x) by (unfold norm3; apply sqrt_sqrt; destruct x; unfold dotv; cbn; nra).
      set (n := norm3 x) in *.
      assert (Z : v2 x * v2 x <= n * n) by (rewrite Q; destruct x; unfold dotv; cbn; nra).
      assert (n * n <> 0) by nra.
      assert (J : v2 x / n * (v2 x / n) = v2 x * v2 x / (n * n)) by (field; lra).
      rewrite ?J. assert (v2 x * v2 x / (n * n) <= 1). { apply Rmult_le_reg_r with (n * n); [nra|]. unfold Rdiv. rewrite Rmult_assoc, Rinv_l by assumption. lra. }
      first [lra | unfold Rdiv in *; lra]. }
    change (@nZ (option R) ON 1) with (Some (1 : R)).
    change (nsub (Some 1) (nmul (Some ?a) (Some ?a))) with (Some (1 - a * a)).
    rewrite !sqrt_L by (apply U; first [apply hexnrm_pos; [assumption|reflexivity|right; discriminate] | apply hexdir_pos; [assumption|reflexivity|discriminate]]).
    unfold hcp_m, hcp_s. rewrite !get_L by (cbn [length ofV3]; lia). reflexivity. }
  rewrite E. rewrite hcp_tables_eq by assumption. cbn [option_map L2 fst snd]. apply fill_L; apply Nat.leb_le; reflexivity.
Qed.
End Def2.
