(** Pressure and bulk modulus of the cubic models (C78). *)
From Coq Require Import List ZArith Bool Lia PeanoNat.
From Verif Require Import Num Arr Util SlipGeom Eos Hard KinVoce KinKMBalD Elast Evptn MatModel Cases P_Sngl P_Sngl2 P_Batch P_Batch2 P_Batch3 P_Api P_Api2 P_Builtin SpecApi P_Hist SpecBatch P_Batch4 P_Gen P_State SpecState P_State2 P_Thermo SpecThermo P_Thermo2 SpecTemp P_Temp SpecPress.
Import ListNotations.
Local Open Scope nat_scope.

Section S.
  Context {T : Type} {N : Num T}.
  Definition press_of (detV press : T) : T :=
    nmul (nopp sqr3i) (nmul (ndiv (nZ 1) detV) (nmul (nmul (nopp sqr3) (nexp (nmul sqr3 (nmul sqr3 (nlog (npow detV onethird)))))) press)).
  Lemma stress6 (q A : list T) a d : length A = 5 -> get (stress_out q (el_getCauchy (A ++ [a]) d)) 6 = nmul (nopp sqr3i) (nmul d a).
  Proof. intros L. destruct A as [|x0 [|x1 [|x2 [|x3 [|x4 [|]]]]]]; try discriminate L. reflexivity. Qed.
  Lemma nth_get (l : list T) k : k < length l -> nth_error l k = Some (get l k).
  Proof. intros H. destruct (nth_error l k) eqn:E; [|apply nth_error_None in E; lia]. unfold get. f_equal. symmetry. now apply nth_error_nth. Qed.
  Lemma sngl_press solver lu m dt tol d w vr (p p' : Pt T) : el_hex (m_el m) = false -> length (pt_stress p) = 7 -> length (pt_sdd p) = 2 ->
    getResponseSngl solver lu m dt tol d w vr p = (Done, p') ->
    let u := snglUpd m vr (pt_eInt p) (pt_stress p) in
    nth_error (pt_stress p') 6 = Some (press_of (get vr 1) (u_press u)) /\ nth_error (pt_sdd p') 0 = Some (u_bulkNew u).
  Proof.
    intros HX L7 L2 H. cbv zeta. unfold getResponseSngl in H. cbv zeta in H.
    destruct (k_updateH (m_kin m) _ dt _) as [[h_u nh]|]; [|discriminate H].
    destruct (k_valsOk _ _ _ _); cbn [negb] in H; [|discriminate H].
    assert (S6 : forall q x, nth_error (stress_out q (elastNEtoC (snglProb m dt d w vr p h_u) x)) 6 = Some (press_of (get vr 1) (u_press (snglUpd m vr (pt_eInt p) (pt_stress p))))).
    { intros q x. rewrite nth_get by (cbn; lia). f_equal. unfold elastNEtoC, elastNEtoT, el_eval. cbv zeta. change (el_hex (pb_el (snglProb m dt d w vr p h_u))) with (el_hex (m_el m)). rewrite HX.
      rewrite stress6 by reflexivity. reflexivity. }
    set (pr := snglProb m dt d w vr p h_u) in *. clearbody pr.
    set (r := solver _ _ _ _ _) in H. clearbody r.
    destruct (so_converged r); cbn [negb] in H; [|discriminate H].
    destruct (pt_mtan p) as [l|].
    - destruct (mtan_vecds lu pr (so_x r)) as [mv|]; [|discriminate H].
      destruct (stateFromX pr (so_x r)) as [e_u q_u]. destruct (el_getGmod (m_el m)); [|discriminate H].
      apply (f_equal snd) in H. cbn [snd] in H. subst p'. cbn [pt_stress pt_sdd]. rewrite updl7 by (assumption || reflexivity). split; [apply S6|]. rewrite sdd_all by assumption. reflexivity.
    - destruct (stateFromX pr (so_x r)) as [e_u q_u]. destruct (el_getGmod (m_el m)); [|discriminate H].
      apply (f_equal snd) in H. cbn [snd] in H. subst p'. cbn [pt_stress pt_sdd]. rewrite updl7 by (assumption || reflexivity). split; [apply S6|]. rewrite sdd_all by assumption. reflexivity.
  Qed.
  (** the material of a cubic model *)
  Definition eos_like (c11 c12 gam : T) (e : Eos T) : Prop := eos_iso e = false /\ eos_bulk e = nmul onethird (nadd c11 (nmul two c12)) /\ eos_gamma e = gam.
  Lemma upd_like c11 c12 g (e e' : Eos T) v dv en p : eos_like c11 c12 g e -> eos_like c11 c12 g e' ->
    u_press (updateSimple e v dv en p) = u_press (updateSimple e' v dv en p) /\ u_bulkNew (updateSimple e v dv en p) = u_bulkNew (updateSimple e' v dv en p).
  Proof. intros (I & B & G) (I' & B' & G'). unfold updateSimple, evalPTDiff, getBulkRef. cbv zeta. rewrite I, I', B, B', G, G'. split; reflexivity. Qed.
  Lemma cubic_mat hs (c : MClass T) s pars : cubic_model hs c -> in_use c s pars ->
    exists mat tol, mm_ready s = Some (mat, tol) /\ el_hex (m_el mat) = false /\ eos_like (get pars 3) (get pars 4) (get pars (mm_nParams c - 2)) (m_eos mat).
  Proof.
    intros HV U. destruct (in_use_gmat c s pars U) as (a & P & R). exists {| m_sg := pa_sg a; m_kin := pa_kin a; m_el := pa_el a; m_eos := parts_eos c pars a |}, (get pars 2).
    split; [exact R|]. cbn [m_el m_eos]. destruct P as (_ & P2 & _ & P4).
    assert (K : c_elSet c (sub pars (3 + c_sgNP c) (c_elNP c)) = cubic_setParams (sub pars 3 3) /\ c_iso c = false /\ mm_nParams c - 2 = 3 + c_sgNP c + c_elNP c + c_kinNP c).
    { destruct HV as [[-> | [-> | [-> | -> ]]]|[-> | -> ]]; split; try reflexivity; split; reflexivity. }
    destruct K as (K1 & K2 & K3). rewrite K1 in P2. split; [rewrite P2; reflexivity|].
    unfold eos_like, parts_eos. rewrite K2, K3. split; [reflexivity|]. split.
    - change (pa_bulk a = nmul onethird (nadd (get pars 3) (nmul two (get pars 4)))). rewrite P2 in P4. unfold el_getBulkMod in P4. destruct (nleb _ _) in P4; [discriminate P4|].
      apply (f_equal (fun o => match o with Some x => x | None => pa_bulk a end)) in P4. rewrite <- P4. unfold cubic_setParams. cbv zeta. cbn [el_K_bulkMod].
      rewrite !get_sub by lia. reflexivity.
    - change (get (sub pars (3 + c_sgNP c + c_elNP c + c_kinNP c) 2) 0 = get pars (3 + c_sgNP c + c_elNP c + c_kinNP c)). rewrite get_sub by lia. f_equal. lia.
  Qed.
  Lemma visit_values hs (c : MClass T) pars solver lu v : cubic_model hs c -> visit c pars solver lu v ->
    exists e vr st eo, eos_like (get pars 3) (get pars 4) (get pars (mm_nParams c - 2)) eo /\
      nth_error e 0 = entry (v_s v) (v_m v) AE (v_i v) 0 /\ (forall k, k < 4 -> nth_error vr k = entry (v_s v) (v_m v) AV (v_i v) k) /\ nth_error st 6 = entry (v_s v) (v_m v) AS (v_i v) 6 /\
      let u := updateSimple eo (get vr 1) (get vr 3) (get e 0) (get st 6) in
      entry (v_s v) (v_m1 v) AS (v_i v) 6 = Some (press_of (get vr 1) (u_press u)) /\ entry (v_s v) (v_m1 v) AB (v_i v) 0 = Some (u_bulkNew u).
  Proof.
    intros HV (U & B & Hi & H). destruct v as [s dt mtan n i m m1]. cbn [v_s v_dt v_mtan v_n v_i v_m v_m1] in *.
    destruct (in_use_ok c s pars U) as (HR & _). destruct (cubic_mat hs c s pars HV U) as (mat & tol & HM & HX & HE).
    destruct (mm_complete s) eqn:EC; [|unfold mm_getResponse in H; rewrite EC in H; discriminate].
    destruct (api_batch c s solver lu dt mtan n m mat tol HR EC HM B) as (o & x & F1 & UT & P). rewrite H in F1.
    assert (x = m1) by congruence. assert (o = Done) by congruence. subst. cbv zeta in P. specialize (P i Hi). cbv beta in P.
    pose proof (batch_after c mtan s n m m1 UT B) as B1.
    assert (L : forall a, length (cell_of c s mtan m a i) = per_point (c_nH c) (c_nslip c) mtan a) by (intros a; exact (cell_len c mtan s n m a i B Hi)).
    destruct (getResponseSngl solver lu mat dt tol (cell_of c s mtan m AD i) (cell_of c s mtan m AW i) (cell_of c s mtan m AV i) (pt_of c s mtan m i)) as [o p'] eqn:EG.
    exists (cell_of c s mtan m AE i), (cell_of c s mtan m AV i), (cell_of c s mtan m AS i), (m_eos mat).
    split; [exact HE|]. split; [apply (cell_entry c s mtan n m AE i 0 B Hi); cbn; lia|]. split; [intros k Hk; apply (cell_entry c s mtan n m AV i k B Hi); cbn; lia|].
    split; [apply (cell_entry c s mtan n m AS i 6 B Hi); cbn; lia|].
    assert (O : o = Done) by congruence. subst o.
    destruct (sngl_press solver lu mat dt tol _ _ _ (pt_of c s mtan m i) _ HX (L AS) (L AB) EG) as [Q1 Q2].
    assert (EP : p' = pt_of c s mtan m1 i) by congruence. subst p'.
    cbv zeta. split.
    - rewrite <- (cell_entry c s mtan n m1 AS i 6 B1 Hi) by (cbn; lia). exact Q1.
    - rewrite <- (cell_entry c s mtan n m1 AB i 0 B1 Hi) by (cbn; lia). exact Q2.
  Qed.
  Lemma get_at2 (l l' : list T) k k' : nth_error l k = nth_error l' k' -> get l k = get l' k'.
  Proof. intros H. unfold get. rewrite <- !nth_default_eq. unfold nth_default. now rewrite H. Qed.
  Lemma visits_press hs hs' (c c' : MClass T) pars pars' solver solver' lu lu' v v' : cubic_model hs c -> cubic_model hs' c' -> same_bulk c pars c' pars' ->
    visit c pars solver lu v -> visit c' pars' solver' lu' v' -> same_volumes v v' -> same_energy v v' -> same_pressure v v' -> same_after v v' AS 6 /\ same_after v v' AB 0.
  Proof.
    intros HV HV' (P1 & P2 & P3) V V' SV SE SP.
    destruct (visit_values hs c pars solver lu v HV V) as (e & vr & st & eo & L & G1 & G2 & G3 & R1 & R2).
    destruct (visit_values hs' c' pars' solver' lu' v' HV' V') as (e' & vr' & st' & eo' & L' & G1' & G2' & G3' & R1' & R2').
    rewrite <- (get_same _ _ _ P1), <- (get_same _ _ _ P2), <- (get_at2 _ _ _ _ P3) in L'.
    assert (X1 : get e 0 = get e' 0) by (apply get_same; rewrite G1, G1'; exact SE).
    assert (X2 : get st 6 = get st' 6) by (apply get_same; rewrite G3, G3'; exact SP).
    assert (X3 : get vr 1 = get vr' 1) by (apply get_same; rewrite G2, G2' by lia; apply SV; cbn; tauto).
    assert (X4 : get vr 3 = get vr' 3) by (apply get_same; rewrite G2, G2' by lia; apply SV; cbn; tauto).
    rewrite <- X1, <- X2, <- X3, <- X4 in R1', R2'.
    destruct (upd_like _ _ _ eo eo' (get vr 1) (get vr 3) (get e 0) (get st 6) L L') as [Y1 Y2].
    unfold same_after. rewrite R1, R1', R2, R2', Y1, Y2. split; (split; [reflexivity|discriminate]).
  Qed.
End S.
