(** The loop of the Python example on the demonstration object: any number of steps completes. *)
From Coq Require Import List ZArith Bool Lia PeanoNat Reals Lra String.
From Verif Require Import Num Arr NumR Util SlipGeom Eos Hard KinVoce KinKMBalD Elast Evptn MatModel Cases Py PyExample SpecTensor
  P_Tensor P_Eos P_Sngl P_Sngl2 P_Sngl3 P_Batch P_Batch2 P_Batch3 P_Api P_Builtin SpecApi P_Hist SpecBatch P_Batch4 SpecObj P_Api2 P_Slip P_Demo P_Step SpecPy P_Py P_Py2 P_Py3 P_Py4 P_Demo9
  SpecPyEx P_PyEx.
Import ListNotations.
Local Open Scope R_scope.

Lemma demo_keeps b i : good echo demo_c b -> b_s b = demo_s -> (i < b_n b)%nat -> 0 < val demo_s (b_m b) AH i 13 -> 0 < val demo_s (b_m1 b) AH i 13.
Proof.
  intros G ES Hi H2. pose proof (good_point _ _ _ i G Hi) as (mat & tol & HM & HMo & K & S & E). cbv zeta in *.
  destruct (sngl_done _ _ _ _ _ _ _ _ _ _ K S E) as (h_u & v & nf & gm & Rs). cbv zeta in Rs.
  destruct (r_updH _ _ _ _ _ _ _ _ _ _ _ _ _ _ Rs) as [nh EU].
  pose proof (r_H _ _ _ _ _ _ _ _ _ _ _ _ _ _ Rs) as EH.
  destruct demo_ready as (sg & _ & HM'). rewrite ES, HM' in HM.
  apply (f_equal (option_map fst)) in HM. cbn [option_map fst] in HM.
  assert (EK : m_kin mat = voce_kinetics echo (voce_setParams false (sub demo_pars 6 9)) 12).
  { apply (f_equal (option_map (@m_kin R))) in HM. cbn [option_map m_kin] in HM. clear - HM. congruence. }
  rewrite EK in EU, EH. cbn [voce_kinetics k_nH k_updateH] in EU, EH. unfold voce_updateH, updateH1 in EU. cbn [echo so_converged] in EU.
  assert (EHu : h_u = [h1_getHn (get (sub (pt_hist (pt_of demo_c (b_s b) (b_mtan b) (b_m b) i)) iHistLbH 1) 0) [0]]).
  { apply (f_equal (option_map fst)) in EU. cbn [option_map fst] in EU. cbn [so_x echo] in EU. clear - EU. symmetry. exact (some_inj EU). }
  pose proof (f_equal (fun l => get l 0) EH) as E0. cbv beta in E0. rewrite EHu in E0. rewrite !get_sub in E0 by lia.
  unfold h1_getHn in E0. cbn [get nth] in E0.
  unfold pt_of, pt_at in E0. cbn [pt_hist] in E0.
  pose proof (vin _ _ _ i G Hi AH 13) as V1. pose proof (vout _ _ _ i G Hi AH 13) as V2.
  unfold cell_of in V1, V2. unfold iHistLbH in E0. cbn [Nat.add] in E0.
  rewrite V1, V2 in E0 by (cbn; lia). rewrite ES in E0. rewrite E0.
  change (@nadd R RNum) with Rplus. change (@nmul R RNum) with Rmult. change (get [0] 0) with 0. lra.
Qed.
Lemma demo_in_table : In ("voce_fcc_norm"%string, demo_c, 17%nat, 26%nat) (py_table echo).
Proof. now left. Qed.
Lemma demo_solve dt n args : args_ok 26 n args -> (Z.of_nat 26 * (Z.of_nat n - 1) < 2 ^ 32)%Z -> (forall i, (i < n)%nat -> 0 < item (args AH) i 13) ->
  exists a', prob_solve echo noLU demo_c demo_s dt args = (BRet Done, a').
Proof.
  intros HA HW HP. destruct (obj_facts _ _ _ _ _ _ _ demo_py demo_in_table) as (_ & HR & HC & HS & HH & H7 & HM & _).
  destruct (prob_call demo_c demo_s 26%nat echo noLU dt HS HH H7 n args HA HW) as (EP & HO & HV). rewrite EP.
  assert (HP' : forall i, (i < n)%nat -> 0 < val demo_s (fun y => py_ptr (prob_args args y)) AH i 13).
  { intros i Hi. rewrite <- HV by (try exact Hi; cbn; try tauto; lia). cbn [prob_args]. rewrite (item_two n 26) by (try exact Hi; try lia; apply (HA AH); cbn; tauto). now apply HP. }
  destruct (demo_done n dt _ HO HP') as [m1 ->]. eexists. reflexivity.
Qed.
Lemma demo_loop dt K : forall e, ex_ok 26 e -> 0 < item (ex_a e AH) 0 13 -> exists e', ex_loop echo noLU demo_c demo_s dt K e = (BRet Done, e').
Proof.
  induction K as [|K IH]; intros e HE HP; [now exists e|].
  destruct (demo_solve dt 1 (turn_args dt e)) as [a' E].
  - now apply turn_ok.
  - exact (small1 26).
  - intros i Hi. assert (i = 0%nat) by lia. subst i. exact HP.
  - assert (ET : ex_turn echo noLU demo_c demo_s dt e = (BRet Done, {| ex_d := py_base (a' AD); ex_w := py_base (a' AW); ex_v := py_base (a' AV); ex_a := a' |})).
    { unfold ex_turn. change (fun x => match x with AD => np_list (ex_d e) | AW => np_list (ex_w e) | AV => np_list (ex_volume dt (ex_d e) (ex_v e)) | _ => ex_a e x end) with (turn_args dt e). now rewrite E. }
    cbn [ex_loop]. rewrite ET.
    destruct (turn _ _ _ _ _ _ _ demo_py demo_in_table echo noLU dt e _ HE ET) as (G & HE1 & _ & _ & _ & _ & _ & _ & _ & VA & VR).
    apply IH; [exact HE1|]. rewrite (VR AH 13%nat) by (cbn; try tauto; lia).
    apply (demo_keeps (call_with demo_c demo_s echo noLU dt 1 (turn_args dt e)) 0 G eq_refl (le_n 1)). rewrite (VA AH 13%nat) by (cbn; try tauto; lia). exact HP.
Qed.
Lemma demo_started d w t : List.length d = 7%nat -> List.length w = 3%nat ->
  exists e, ex_start demo_c demo_s d w t = Some e /\ ex_ok 26 e /\ 0 < item (ex_a e AH) 0 13.
Proof.
  intros HD HW. destruct (start_ok _ _ _ _ _ _ _ demo_py demo_in_table d w t HD HW) as (e & h & ES & HE & HI & EA). exists e. split; [exact ES|]. split; [exact HE|].
  destruct (hist_in_use echo demo_c demo_s demo_pars demo_builtin demo_in_use) as (nm & HI' & _). rewrite HI' in HI.
  assert (EH : h = hist_of demo_c nm (nth (mm_nParams demo_c - 3) demo_pars nundef)) by congruence. rewrite EA, EH. 
  change (0 < nth (mm_nParams demo_c - 3) demo_pars nundef). change (mm_nParams demo_c) with 17%nat. unfold demo_pars. cbn [nth Nat.sub]. lra.
Qed.
