(** Calls on a material at rest, and on a crystal that only spins. *)
From Coq Require Import List ZArith Bool Lia PeanoNat Reals Lra String.
From Verif Require Import Num Arr NumR Util SlipGeom Eos Hard KinVoce KinKMBalD Elast Evptn MatModel Cases SpecTensor
  SpecElast SpecSlip P_Tensor P_Elast P_Eos P_Sngl P_Sngl2 P_Sngl3 P_Batch P_Batch2 P_Batch3 P_Batch4 P_Api P_Builtin SpecApi P_Hist SpecStress P_Stress
  SpecKin SpecKinApi SpecStep SpecEnergy P_KinV P_Hard P_Kin4 P_Call P_Slip P_SlipH P_Demo P_Demo2 P_Demo3 P_Step P_Step2 P_Step3 P_Energy P_Rest P_Rigid.
Import ListNotations.
Local Open Scope R_scope.

Lemma keeps_finds bs : keeps_solution bs -> forall rj tol it, 0 <= tol ->
  (forall j, (j < 8)%nat -> nth j (fst (rj (tab 8 (fun _ => 0)))) 0 = 0) ->
  so_converged (bs 8%nat rj tol it (tab 8 (fun _ => 0))) = true /\ so_x (bs 8%nat rj tol it (tab 8 (fun _ => 0))) = tab 8 (fun _ => 0) /\ so_xlast (bs 8%nat rj tol it (tab 8 (fun _ => 0))) = tab 8 (fun _ => 0).
Proof. intros H rj tol it Ht HZ. now apply H. Qed.
Lemma offer_finds x : finds (offer x) x.
Proof.
  intros rj tol it x0 Ht H. unfold offer. cbn [so_converged so_x so_xlast]. split; [|split; reflexivity].
  apply forallb_forall. intros j Hj. apply in_seq in Hj. apply Rleb_true. rewrite H by lia. rewrite Rabs_R0. exact Ht.
Qed.

Lemma voce_sdot0 v sat h : fst (voce_getSdot1 v (0, sat) h) = 0.
Proof. unfold voce_getSdot1. destruct (v_nonlinear v); cbn [fst]; apply Rmult_0_r. Qed.
Lemma km_sdot0 k k2 h : fst (km_getSdot1 k (0, k2) h) = 0.
Proof. unfold km_getSdot1. cbn [fst]. apply Rmult_0_r. Qed.
Lemma h1_zero (sd : Sdot1 R) ho dt : fst (sd ho) = 0 -> get (fst (h1_computeRJ sd ho dt [0])) 0 = 0.
Proof.
  intros H. unfold h1_computeRJ. cbn [get nth]. replace (ho + 0 * h1_x_scale ho)%num with ho by (cbn; ring).
  destruct (sd ho) as [a d]. cbn [fst] in *. subst a. cbn [get nth]. rops. ring.
Qed.
Lemma update_zero (hs : Solver R) (sd : Sdot1 R) ho dt : keeps_solution hs -> fst (sd ho) = 0 -> exists n, updateH1 hs sd ho dt = Some (ho, n).
Proof.
  intros HK H. unfold updateH1. assert (T : 0 <= nlit 1 (-10)) by (cbn; lra).
  destruct (HK 1%nat (h1_computeRJ sd ho dt) (nlit 1 (-10)) 100%nat [0] T) as (A & B & _).
  { intros j Hj. assert (j = 0%nat) by lia. subst j. now apply h1_zero. }
  change (@nZ R RNum 0) with 0. rewrite A, B. eexists. f_equal. f_equal. unfold h1_getHn. cbn. ring.
Qed.
Lemma shear_zero n (g : list R) : List.length g = n -> (forall k, (k < n)%nat -> get g k = 0) -> shear_sum g = 0.
Proof.
  intros L H. rewrite <- (shear_vec n g L). unfold vecsssumabs. rewrite (sum_ext n _ (fun _ => 0)).
  - induction n; [reflexivity|]. rewrite sum_S. clear. induction n; [cbn; rops; ring|]. rewrite sum_S. rops. lra.
  - intros k Hk. rewrite H by assumption. apply Rabs_R0.
Qed.
