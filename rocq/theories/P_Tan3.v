(** Requesting the tangent changes no other output than the evaluation counter (C36). *)
From Coq Require Import List ZArith Bool Lia PeanoNat Reals Lra String.
From Verif Require Import P_Demo.
From Verif Require Import Num Arr NumR Util SlipGeom Eos Hard KinVoce KinKMBalD Elast Evptn MatModel Cases SpecTensor
  P_Sngl P_Sngl2 P_Sngl3 P_Batch P_Batch2 P_Batch3 P_Batch4 P_Api P_Builtin SpecApi P_Hist SpecStep P_Call.
Import ListNotations.
Local Open Scope R_scope.

Lemma get_upd_other (l : list R) n x k : k <> n -> get (upd l n x) k = get l k.
Proof.
  intros H. unfold get. revert n k H. induction l as [|y l IH]; intros [|n] [|k] H; cbn; try reflexivity; try congruence; try (destruct k; reflexivity).
  apply IH. congruence.
Qed.
Lemma get_updl_ext (l l' : list R) n xs k : get l k = get l' k -> List.length l = List.length l' -> get (updl l n xs) k = get (updl l' n xs) k.
Proof.
  revert l l' n. induction xs as [|x xs IH]; intros l l' n H L; [exact H|]. cbn [updl]. apply IH; [|now rewrite !upd_length].
  destruct (Nat.eq_dec k n) as [E|E]; [subst|now rewrite !get_upd_other].
  clear IH H. unfold get. revert l' n L. induction l as [|y l IH]; intros [|y' l'] n L; cbn in L; try discriminate; [reflexivity|].
  destruct n; [reflexivity|]. cbn [upd nth]. apply IH. congruence.
Qed.

Lemma sngl_request solver lu lu' (mt : Mat R) dt tol d w v P old P1 P2 : last_at_answer solver -> pt_mtan P = None ->
  getResponseSngl solver lu' mt dt tol d w v P = (Done, P2) ->
  getResponseSngl solver lu mt dt tol d w v
    {| pt_eInt := pt_eInt P; pt_stress := pt_stress P; pt_hist := pt_hist P; pt_tkelv := pt_tkelv P; pt_sdd := pt_sdd P; pt_mtan := Some old |} = (Done, P1) ->
  pt_eInt P1 = pt_eInt P2 /\ pt_stress P1 = pt_stress P2 /\ pt_tkelv P1 = pt_tkelv P2 /\ pt_sdd P1 = pt_sdd P2 /\
  forall k, k <> 3%nat -> get (pt_hist P1) k = get (pt_hist P2) k.
Proof.
  intros HLA EM. unfold getResponseSngl. cbv zeta. cbn [pt_eInt pt_stress pt_hist pt_tkelv pt_sdd pt_mtan]. rewrite EM.
  destruct (k_updateH _ _ _ _) as [[h_u nf]|]; [|discriminate].
  destruct (negb (k_valsOk _ _ _ _)); [discriminate|].
  change (snglProb mt dt d w v {| pt_eInt := pt_eInt P; pt_stress := pt_stress P; pt_hist := pt_hist P; pt_tkelv := pt_tkelv P; pt_sdd := pt_sdd P; pt_mtan := Some old |} h_u)
    with (snglProb mt dt d w v P h_u).
  set (p := snglProb mt dt d w v P h_u).
  pose proof (HLA 8%nat (computeRJ p) tol 200%nat (tab 8 (fun _ => nZ 0))) as HL.
  set (r := solver 8%nat (computeRJ p) tol 200%nat (tab 8 (fun _ => nZ 0))) in *. clearbody r.
  destruct (so_converged r); cbn [negb]; [|discriminate]. rewrite HL by reflexivity. clear HL.
  destruct (mtan_vecds lu p (so_x r)) as [mv|]; [|discriminate].
  destruct (stateFromX p (so_x r)) as [e_u quat_u]. set (ev := evalEv p (so_x r)). clearbody ev.
  destruct (el_getGmod _) as [gmod|]; [|discriminate].
  intros H2 H1. apply (f_equal snd) in H1, H2. cbn [snd] in H1, H2. subst P1 P2. cbn [pt_eInt pt_stress pt_hist pt_tkelv pt_sdd pt_mtan].
  repeat split. intros k Hk.
  assert (E : forall nf1 nf2 fl, get (hist_out (k_nH (m_kin mt)) (pt_hist P) e_u quat_u h_u ev dt fl nf1) k = get (hist_out (k_nH (m_kin mt)) (pt_hist P) e_u quat_u h_u ev dt fl nf2) k).
  { intros. unfold hist_out. change iHistA_nFEval with 3%nat. rewrite (get_upd_other _ 3 _ k Hk), (get_upd_other _ 3 _ k Hk). reflexivity. }
  destruct (_ <? _)%num; [|apply E]. apply get_updl_ext; [apply E|]. unfold hist_out. now rewrite !upd_length.
Qed.

Lemma call_request hs c b b' : good hs c b -> good hs c b' -> b_mtan b = true -> b_mtan b' = false ->
  b_s b' = b_s b -> b_n b' = b_n b -> b_dt b' = b_dt b -> b_solver b' = b_solver b -> (forall a, a <> AM -> b_m b' a = b_m b a) ->
  last_at_answer (b_solver b) -> forall i a k, (i < b_n b)%nat -> In a [AE; AS; AH; AT; AB] -> (k < per_point (c_nH c) (c_nslip c) false a)%nat ->
  ~ (a = AH /\ k = 3%nat) -> val (b_s b) (b_m1 b) a i k = val (b_s b) (b_m1 b') a i k.
Proof.
  intros G G' T F Es En Ed Eso Em HLA i a k Hi Ha Hk Hx.
  destruct (good_point hs c b i G Hi) as (mat & tol & HM & HMo & K & S & E). 
  assert (Hi' : (i < b_n b')%nat) by (rewrite En; exact Hi).
  destruct (good_point hs c b' i G' Hi') as (mat' & tol' & HM' & HMo' & K' & S' & E').
  rewrite Es, HM in HM'. apply some_inj in HM'. apply pair_equal_spec in HM'. destruct HM'; subst mat' tol'.
  rewrite Es in E'. rewrite Ed, Eso, F in E'. rewrite T in E.
  assert (CE : forall a', a' <> AM -> cell_of c (b_s b) true (b_m b) a' i = cell_of c (b_s b) false (b_m b') a' i).
  { intros a' Ha'. unfold cell_of, cell. rewrite Em by assumption. destruct a'; try congruence; reflexivity. }
  rewrite !CE in E by discriminate.
  set (P := pt_of c (b_s b) false (b_m b') i) in *.
  assert (EP : pt_of c (b_s b) true (b_m b) i = {| pt_eInt := pt_eInt P; pt_stress := pt_stress P; pt_hist := pt_hist P; pt_tkelv := pt_tkelv P; pt_sdd := pt_sdd P; pt_mtan := Some (cell_of c (b_s b) true (b_m b) AM i) |}).
  { unfold P, pt_of, pt_at. cbn [pt_eInt pt_stress pt_hist pt_tkelv pt_sdd].
    change (cell (mm_strides (b_s b)) (c_nH c) (c_nslip c)) with (cell_of c (b_s b)). rewrite !CE by discriminate. reflexivity. }
  rewrite EP in E.
  destruct (sngl_request _ _ _ _ _ _ _ _ _ P _ _ _ HLA eq_refl E' E) as (Q1 & Q2 & Q3 & Q4 & Q5).
  assert (V1 : forall k0, (k0 < per_point (c_nH c) (c_nslip c) false a)%nat -> a <> AM -> get (cell_of c (b_s b) true (b_m1 b) a i) k0 = val (b_s b) (b_m1 b) a i k0).
  { intros k0 Hk0 HA. pose proof (vout hs c b i G Hi a k0) as V. rewrite T in V. apply V. destruct a; try exact Hk0. congruence. }
  assert (V2 : forall k0, (k0 < per_point (c_nH c) (c_nslip c) false a)%nat -> get (cell_of c (b_s b) false (b_m1 b') a i) k0 = val (b_s b) (b_m1 b') a i k0).
  { intros k0 Hk0. pose proof (vout hs c b' i G' Hi' a k0) as V. rewrite F in V. rewrite Es in V. now apply V. }
  assert (NA : a <> AM) by (intros ->; cbn in Ha; intuition discriminate).
  rewrite <- V1, <- V2 by assumption. unfold pt_of, pt_at in Q1, Q2, Q3, Q4, Q5. cbn [pt_eInt pt_stress pt_hist pt_tkelv pt_sdd] in Q1, Q2, Q3, Q4, Q5.
  change (cell (mm_strides (b_s b)) (c_nH c) (c_nslip c)) with (cell_of c (b_s b)) in *.
  destruct a; cbn in Ha; try (exfalso; clear -Ha; intuition discriminate).
  - now rewrite Q1.
  - now rewrite Q2.
  - apply Q5. intros ->. apply Hx. split; reflexivity.
  - cbn [per_point] in Hk. assert (k = 0%nat) by lia. subst k. exact Q3.
  - now rewrite Q4.
Qed.

(** what the evaluation counter holds after a call *)
Lemma call_counter hs c b i : good hs c b -> (i < b_n b)%nat -> exists f tol,
  let r := b_solver b 8%nat f tol 200%nat (tab 8 (fun _ => 0)) in
  val (b_s b) (b_m1 b) AH i 3 = IZR (Z.of_nat (if b_mtan b then so_nfev_rj r else so_nfev r)).
Proof.
  intros G Hi. destruct (good_point hs c b i G Hi) as (mat & tol & HM & HMo & K & S & E).
  pose proof (vout hs c b i G Hi AH 3%nat) as V. rewrite <- V by (cbn; unfold numHist, iHistLbH; lia). clear V.
  destruct (sngl_done _ _ _ _ _ _ _ _ _ _ K S E) as (h_u & v & nf & gm & Rs). cbv zeta in Rs.
  eexists (computeRJ _), tol. cbv zeta. pose proof (r_nf _ _ _ _ _ _ _ _ _ _ _ _ _ _ Rs) as N. pose proof (r_nfev _ _ _ _ _ _ _ _ _ _ _ _ _ _ Rs) as M.
  refine (eq_trans N _). f_equal. f_equal. rewrite M. unfold pt_of, pt_at. cbn [pt_mtan]. destruct (b_mtan b); reflexivity.
Qed.
