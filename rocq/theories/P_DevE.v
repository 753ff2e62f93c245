(** The energy handed back and the deviatoric stress handed in (C79). *)
From Coq Require Import List ZArith Bool Lia PeanoNat Reals Lra.
From Verif Require Import Num Arr NumR Util SlipGeom Eos Hard Elast Evptn MatModel Cases P_Sngl P_Sngl2 P_Batch P_Batch2 P_Batch3 P_Api P_Api2 P_Builtin SpecApi P_Hist SpecBatch P_Batch4 P_Gen P_State SpecState P_State2 P_Thermo SpecThermo P_Thermo2 SpecTemp SpecDevIn P_Press P_DevIn SpecDevE.
Import ListNotations.
Local Open Scope nat_scope.

Lemma upd_head {T} {N : Num T} (l : list T) x : length l = 1 -> get (upd l 0 x) 0 = x.
Proof. destruct l as [|a [|]]; try discriminate. reflexivity. Qed.
Definition hv {T} {N : Num T} (dt : T) (vr : list T) : T := nmul (nmul oneqrtr (nadd (get vr 0) (get vr 1))) dt.
Lemma sngl_e {T} {N : Num T} solver lu m dt tol d w vr (p p' : Pt T) : length (pt_stress p) = 7 -> length (pt_eInt p) = 1 ->
  getResponseSngl solver lu m dt tol d w vr p = (Done, p') ->
  get (pt_eInt p') 0 = nadd (u_eNew (snglUpd m vr (pt_eInt p) (pt_stress p)))
    (nadd (nmul (hv dt vr) (vecsInnerSvecDev (pt_stress p) d)) (nmul (hv dt vr) (vecsInnerSvecDev (pt_stress p') d))).
Proof.
  intros L7 L1 H. unfold getResponseSngl in H. cbv zeta in H.
  destruct (k_updateH (m_kin m) _ dt _) as [[h_u nh]|]; [|discriminate H].
  destruct (k_valsOk _ _ _ _); cbn [negb] in H; [|discriminate H].
  set (pr := snglProb m dt d w vr p h_u) in *. clearbody pr.
  set (r := solver _ _ _ _ _) in H. clearbody r.
  destruct (so_converged r); cbn [negb] in H; [|discriminate H].
  destruct (pt_mtan p) as [l|].
  - destruct (mtan_vecds lu pr (so_x r)) as [mv|]; [|discriminate H].
    destruct (stateFromX pr (so_x r)) as [e_u q_u]. destruct (el_getGmod (m_el m)); [|discriminate H].
    apply (f_equal snd) in H. cbn [snd] in H. subst p'. cbn [pt_stress pt_eInt]. rewrite updl7, upd_head by (assumption || reflexivity). reflexivity.
  - destruct (stateFromX pr (so_x r)) as [e_u q_u]. destruct (el_getGmod (m_el m)); [|discriminate H].
    apply (f_equal snd) in H. cbn [snd] in H. subst p'. cbn [pt_stress pt_eInt]. rewrite updl7, upd_head by (assumption || reflexivity). reflexivity.
Qed.
Lemma get_val (l : list R) k o : nth_error l k = o -> get l k = match o with Some x => x | None => 0%R end.
Proof. intros <-. unfold get. rewrite <- nth_default_eq. unfold nth_default. reflexivity. Qed.

Lemma visit_e (c : MClass R) pars solver lu v : visit c pars solver lu v ->
  exists mat tol, mm_ready (v_s v) = Some (mat, tol) /\
    returned v AE 0 = (u_eNew (updateSimple (m_eos mat) (given v AV 1) (given v AV 3) (given v AE 0) (given v AS 6)) + half_work v (given v AS) + half_work v (returned v AS))%R.
Proof.
  intros (U & B & Hi & H). destruct v as [s dt mtan n i m m1]. unfold half_work, given, returned. cbn [v_s v_dt v_mtan v_n v_i v_m v_m1] in *.
  destruct (in_use_ok c s pars U) as (HR & mat & tol & HM).
  destruct (mm_complete s) eqn:EC; [|unfold mm_getResponse in H; rewrite EC in H; discriminate].
  destruct (api_batch c s solver lu dt mtan n m mat tol HR EC HM B) as (o & x & F1 & UT & P). rewrite H in F1.
  assert (x = m1) by congruence. assert (o = Done) by congruence. subst. cbv zeta in P. specialize (P i Hi). cbv beta in P.
  pose proof (batch_after c mtan s n m m1 UT B) as B1.
  assert (L : forall a, length (cell_of c s mtan m a i) = per_point (c_nH c) (c_nslip c) mtan a) by (intros a; exact (cell_len c mtan s n m a i B Hi)).
  exists mat, tol. split; [exact HM|].
  destruct (getResponseSngl solver lu mat dt tol (cell_of c s mtan m AD i) (cell_of c s mtan m AW i) (cell_of c s mtan m AV i) (pt_of c s mtan m i)) as [o p'] eqn:EG.
  assert (O : o = Done) by congruence. subst o.
  assert (EP : p' = pt_of c s mtan m1 i) by congruence. subst p'.
  pose proof (sngl_e solver lu mat dt tol _ _ _ (pt_of c s mtan m i) _ (L AS) (L AE) EG) as Q.
  assert (V0 : forall a k, k < per_point (c_nH c) (c_nslip c) mtan a -> get (cell_of c s mtan m a i) k = match entry s m a i k with Some x => x | None => 0%R end)
    by (intros a k Hk; apply get_val; exact (cell_entry c s mtan n m a i k B Hi Hk)).
  assert (V1 : forall a k, k < per_point (c_nH c) (c_nslip c) mtan a -> get (cell_of c s mtan m1 a i) k = match entry s m1 a i k with Some x => x | None => 0%R end)
    by (intros a k Hk; apply get_val; exact (cell_entry c s mtan n m1 a i k B1 Hi Hk)).
  unfold snglUpd, vecsInnerSvecDev, hv in Q. unfold pt_of, pt_at in Q. cbn [pt_eInt pt_stress] in Q.
  change (cell (mm_strides s) (c_nH c) (c_nslip c) mtan) with (cell_of c s mtan) in Q.
  rewrite !V0, !V1 in Q by (cbn [per_point]; clear; lia).
  rewrite Q. clear. set (u := u_eNew _). clearbody u. rewrite !oneqrtr_R, ?two_R. rops. ring.
Qed.
Lemma energy_dev (c : MClass R) pars solver lu v v' : visit c pars solver lu v -> visit c pars solver lu v' -> same_drive c v v' -> same_energy v v' -> same_pressure v v' ->
  same_history c (v_s v) (v_m v) (v_i v) (v_s v') (v_m v') (v_i v') ->
  (returned v' AE 0 - returned v AE 0 = half_work v (fun k => given v' AS k - given v AS k))%R.
Proof.
  intros V V' D SE SP SH. pose proof (visit_dev c pars solver lu v v' V V' D SE SP SH) as R0.
  destruct (visit_e c pars solver lu v V) as (mat & tol & M & E). destruct (visit_e c pars solver lu v' V') as (mat' & tol' & M' & E').
  rewrite (in_use_ready c (v_s v) (v_s v') pars (proj1 V) (proj1 V')) in M. assert (mat' = mat) by congruence. subst mat'.
  destruct D as (D1 & D2 & D3).
  assert (G : forall a k, In a [AD; AV] -> k < per_point (c_nH c) (c_nslip c) (v_mtan v) a -> given v' a k = given v a k).
  { intros a k Ha Hk. unfold given. rewrite (D3 a k) by (cbn in *; tauto). reflexivity. }
  assert (GE : given v' AE 0 = given v AE 0) by (unfold given; rewrite SE; reflexivity).
  assert (GP : given v' AS 6 = given v AS 6) by (unfold given; rewrite SP; reflexivity).
  assert (GS : forall k, k < 7 -> returned v' AS k = returned v AS k).
  { intros k Hk. unfold returned. rewrite (proj1 (R0 AS k ltac:(discriminate) Hk)). reflexivity. }
  rewrite E, E'. unfold half_work. rewrite <- D1, GE, GP.
  rewrite !GS by (clear; lia). rewrite !(G AV) by (cbn; try tauto; clear; lia). rewrite !(G AD) by (cbn; try tauto; clear; lia).
  clear. set (u := u_eNew _). clearbody u. ring.
Qed.
