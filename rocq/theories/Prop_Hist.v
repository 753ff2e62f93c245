(** Property theorems about successful calls and histories of calls:
    C01, C02, C07 - C10, C12, C14 (driver part), C44. [good], [chain], [in_use] and the accessors are
    in SpecApi.v: any of the five built-in models, any strides and numbers of points, any solver answers. *)
From Coq Require Import List ZArith Bool Lia Reals Lra String.
From Verif Require Import Num NumR Hard Elast Evptn MatModel Cases SpecTensor SpecElast P_Tensor P_Eos P_Api P_Builtin SpecApi P_Hist SpecStress P_Stress P_Demo.
Import ListNotations.
Local Open Scope R_scope.

(** C01. Along any history of successful calls that hands the history buffer from call to call, every
    returned orientation is a unit quaternion, if the first one passed in is not zero. *)
Theorem C01_unit_quaternion hs c i l b0 : chain hs c [AH] (b0 :: l) -> (i < b_n b0)%nat ->
  norm2 (quat (b_s b0) (b_m b0) i) <> 0 ->
  forall b, In b (b0 :: l) -> norm2 (quat (b_s b) (b_m1 b) i) = 1.
Proof. exact (fun HC Hi HQ b HI => proj1 (chain_quat hs c i l b0 HC Hi HQ b HI)). Qed.
Example C01_case (dts : list R) : chain echo demo_c [AH] (demo_hist (/10 :: dts) demo_m) /\
  (1 < b_n (demo_call (/10) demo_m))%nat /\ norm2 (quat demo_s demo_m 1) <> 0 /\ norm2 (quat demo_s demo_m 1) <> 1.
Proof.
  refine (conj (demo_chain [AH] (/10 :: dts) demo_m demo_m_pos) (conj (le_n 2) (conj _ _))).
  - apply (demo_vals demo_m (fun a _ => eq_refl)). lia.
  - unfold quat, val. rewrite demo_strides. cbn. unfold norm2. cbn. lra.
Qed.

(** C02. The returned quaternion is in the same half space as the one passed in. *)
Theorem C02_no_antipode hs c b i : good hs c b -> (i < b_n b)%nat -> norm2 (quat (b_s b) (b_m b) i) <> 0 ->
  0 <= dot4 (quat (b_s b) (b_m1 b) i) (quat (b_s b) (b_m b) i).
Proof. exact (fun HG Hi HQ => proj1 (call_dot hs c b i HG Hi HQ)). Qed.
(** The choice of the sign has no influence: the returned stress is the one of the returned elastic
    strain turned by the returned orientation q, and also the one turned by -q. *)
Theorem C02_sign_irrelevant hs c b i pars : good hs c b -> (i < b_n b)%nat -> in_use c (b_s b) pars ->
  0 < vNew (b_s b) (b_m b) i -> norm2 (quat (b_s b) (b_m b) i) <> 0 ->
  let s := b_s b in let m := b_m b in let m1 := b_m1 b in
  let e1 := eInt s m i - delv s m i * pres s m i in
  forall C, rotates (quat s m1 i) C \/ rotates (map Ropp (quat s m1 i)) C ->
    rotates (quat s m1 i) C /\ rotates (map Ropp (quat s m1 i)) C /\
    devStress s m1 i = cong C (dev3 (latStress c pars (vNew s m i) e1 (latStrain s m1 i (vNew s m i)))).
Proof.
  intros HG Hi HU Hv HQ s m m1 e1 C HC. destruct (call_hooke hs c b i pars HG Hi HU Hv HQ) as [_ B].
  destruct (rotates_sign (quat s m1 i) C eq_refl HC) as [R1 R2]. exact (conj R1 (conj R2 (proj2 (B C HC)))).
Qed.
Example C02_case : good echo demo_c (demo_call (/10) demo_m) /\ in_use demo_c demo_s demo_pars /\
  0 < vNew demo_s demo_m 1 /\ norm2 (quat demo_s demo_m 1) <> 0.
Proof.
  destruct (demo_vals demo_m (fun a _ => eq_refl)) as (A & B & _).
  exact (conj (demo_good _ _ demo_m_pos) (conj demo_in_use (conj (A 1%nat (le_n 2)) (B 1%nat (le_n 2))))).
Qed.

(** C07. *)
Theorem C07_deviatoric hs c b i : good hs c b -> (i < b_n b)%nat -> trace (devStress (b_s b) (b_m1 b) i) = 0.
Proof. exact (call_trace hs c b i). Qed.
Example C07_case : good echo demo_c (demo_call (/10) demo_m) /\ (1 < b_n (demo_call (/10) demo_m))%nat.
Proof. exact (conj (demo_good _ _ demo_m_pos) (le_n 2)). Qed.

(** C08. p = K (1/vNew - 1) + gamma (eOld - delv pOld), K the Voigt bulk modulus of the parameters in use. *)
Theorem C08_cubic hs c b i pars : good hs c b -> (i < b_n b)%nat -> in_use c (b_s b) pars -> hexagonal c = false ->
  0 < vNew (b_s b) (b_m b) i ->
  let s := b_s b in let m := b_m b in
  pres s (b_m1 b) i = p_bulk c pars * (/ vNew s m i - 1) + p_gamma c pars * (eInt s m i - delv s m i * pres s m i).
Proof.
  intros HG Hi HU HH Hv s m. destruct (call_material hs c b i pars HG Hi HU Hv) as (E & _).
  unfold p_coupling in E. rewrite HH in E. unfold spec_p in E. unfold s, m. rewrite E. unfold Rdiv. ring.
Qed.
Theorem C08_hexagonal hs c b i pars : good hs c b -> (i < b_n b)%nat -> in_use c (b_s b) pars -> hexagonal c = true ->
  0 < vNew (b_s b) (b_m b) i ->
  let s := b_s b in let m := b_m b in
  pres s (b_m1 b) i = p_bulk c pars * (/ vNew s m i - 1) + p_gamma c pars * (eInt s m i - delv s m i * pres s m i)
    - sqrt 6 / 9 * p_coupling c pars * val s (b_m1 b) AH i 5 / Rpower (vNew s m i) (4 / 3).
Proof. exact (fun HG Hi HU _ Hv => proj1 (call_material hs c b i pars HG Hi HU Hv)). Qed.
Example C08_case : good echo demo_c (demo_call (/10) demo_m) /\ in_use demo_c demo_s demo_pars /\
  0 < vNew demo_s demo_m 1 /\ hexagonal demo_c = false /\ hexagonal (cls_HCP_A echo) = true.
Proof.
  destruct (demo_vals demo_m (fun a _ => eq_refl)) as (A & _).
  exact (conj (demo_good _ _ demo_m_pos) (conj demo_in_use (conj (A 1%nat (le_n 2)) (conj eq_refl eq_refl)))).
Qed.

(** C09. [work] is -delv pOld + dt (vOld + vNew)/2 (S:D + S':D)/2. *)
Theorem C09_energy_step hs c b i : good hs c b -> (i < b_n b)%nat ->
  eInt (b_s b) (b_m1 b) i = eInt (b_s b) (b_m b) i + work b i.
Proof. exact (call_energy hs c b i). Qed.
Theorem C09_energy_history hs c i l b0 : chain hs c [AE] (b0 :: l) -> (i < b_n b0)%nat ->
  let bl := last (b0 :: l) b0 in
  eInt (b_s bl) (b_m1 bl) i = eInt (b_s b0) (b_m b0) i + fold_right (fun b a => work b i + a) 0 (b0 :: l).
Proof. exact (chain_energy hs c i l b0). Qed.
Example C09_case (dts : list R) : chain echo demo_c [AE] (demo_hist (/10 :: dts) demo_m).
Proof. exact (demo_chain [AE] (/10 :: dts) demo_m demo_m_pos). Qed.

(** C10. The documented value is the temperature at the returned energy; the code returns the one at
    the energy passed in. *)
Definition temperature (c : MClass R) (pars : list R) (e : R) : R := (e - p_ec0 c pars) / p_cv pars.
Theorem C10_refuted : exists hs c b i pars, good hs c b /\ (i < b_n b)%nat /\ in_use c (b_s b) pars /\
  0 < vNew (b_s b) (b_m b) i /\ norm2 (quat (b_s b) (b_m b) i) <> 0 /\ 0 < p_cv pars /\ 0 < b_dt b /\
  tKel (b_s b) (b_m1 b) i <> temperature c pars (eInt (b_s b) (b_m1 b) i).
Proof.
  exists echo, demo_c, (demo_call (/10) demo_m0), 0%nat, demo_pars.
  pose proof (demo_good (/10) demo_m0 demo_m0_pos) as HG.
  destruct (demo_vals demo_m0) as (V & Q & E & _); [intros a Ha; now destruct a|].
  pose proof (V 0%nat ltac:(lia)) as V0.
  refine (conj HG (conj (le_S 1 1 (le_n 1)) (conj demo_in_use (conj V0 (conj (Q 0%nat ltac:(lia)) (conj _ (conj _ _))))))).
  - cbn. lra.
  - cbn. lra.
  - destruct (call_material _ _ _ 0%nat demo_pars HG (le_S 1 1 (le_n 1)) demo_in_use V0) as (_ & T & _).
    rewrite T. change (b_s (demo_call (/ 10) demo_m0)) with demo_s. change (b_m (demo_call (/ 10) demo_m0)) with demo_m0.
    rewrite E, demo_e1. unfold spec_T, temperature, p_cv, p_ec0. cbn. lra.
Qed.
Theorem C10_actual hs c b i pars : good hs c b -> (i < b_n b)%nat -> in_use c (b_s b) pars -> 0 < vNew (b_s b) (b_m b) i ->
  tKel (b_s b) (b_m1 b) i = temperature c pars (eInt (b_s b) (b_m b) i) /\
  (p_cv pars <> 0 -> (tKel (b_s b) (b_m1 b) i = temperature c pars (eInt (b_s b) (b_m1 b) i) <-> work b i = 0)).
Proof.
  intros HG Hi HU Hv. destruct (call_material hs c b i pars HG Hi HU Hv) as (_ & T & _).
  change (tKel (b_s b) (b_m1 b) i = temperature c pars (eInt (b_s b) (b_m b) i)) in T.
  split; [exact T|]. intros HC. rewrite T, (call_energy hs c b i HG Hi). unfold temperature. split; intros H.
  - apply (f_equal (fun x => x * p_cv pars)) in H. unfold Rdiv in H. rewrite !Rmult_assoc, Rinv_l in H by assumption. lra.
  - rewrite H, Rplus_0_r. reflexivity.
Qed.

(** C12. *)
Theorem C12_bulk_floor hs c b i pars : good hs c b -> (i < b_n b)%nat -> in_use c (b_s b) pars -> 0 < vNew (b_s b) (b_m b) i ->
  let K := p_bulk c pars in let s := b_s b in let m := b_m b in
  val s (b_m1 b) AB i 0 = Rmax (/ 100000 * K) (K / vNew s m i + p_gamma c pars * pres s m i * vNew s m i) /\
  / 100000 * K <= val s (b_m1 b) AB i 0 /\ 0 < val s (b_m1 b) AB i 0.
Proof.
  intros HG Hi HU Hv K s m. destruct (call_material hs c b i pars HG Hi HU Hv) as (_ & _ & E & _).
  destruct (call_bulk_floor hs c b i pars HG Hi HU Hv) as [F P].
  refine (conj E (conj F _)). fold K in F, P. unfold s. lra.
Qed.
Example C12_case : good echo demo_c (demo_call (/10) demo_m) /\ in_use demo_c demo_s demo_pars /\ 0 < vNew demo_s demo_m 0.
Proof.
  destruct (demo_vals demo_m (fun a _ => eq_refl)) as (A & _).
  exact (conj (demo_good _ _ demo_m_pos) (conj demo_in_use (A 0%nat (le_S 1 1 (le_n 1))))).
Qed.

(** C14, driver part: effective shear rate is the sum of the magnitudes of the reported slip rates, so
    not negative; accumulated shear is its time integral and never decreases. *)
Theorem C14_shear_rate hs c b i : good hs c b -> (i < b_n b)%nat -> 0 <= b_dt b ->
  let s := b_s b in let m1 := b_m1 b in
  0 <= val s m1 AH i 0 /\ val s m1 AH i 1 = val s (b_m b) AH i 1 + b_dt b * val s m1 AH i 0 /\
  val s m1 AH i 0 = fold_right Rplus 0 (map (fun k => Rabs (val s m1 AH i (13 + c_nH c + k))) (seq 0 (c_nslip c))).
Proof.
  intros HG Hi Hdt s m1. destruct (call_shear hs c b i HG Hi Hdt) as (A & B & C).
  refine (conj A (conj B _)). rewrite (sum_fold (c_nslip c)) in C. exact C.
Qed.
Theorem C14_accumulated_shear hs c i l b0 : chain hs c [AH] (b0 :: l) -> (i < b_n b0)%nat ->
  (forall b, In b (b0 :: l) -> 0 <= b_dt b) ->
  let bl := last (b0 :: l) b0 in
  val (b_s bl) (b_m1 bl) AH i 1 = val (b_s b0) (b_m b0) AH i 1
    + fold_right (fun b a => b_dt b * val (b_s b) (b_m1 b) AH i 0 + a) 0 (b0 :: l) /\
  val (b_s b0) (b_m b0) AH i 1 <= val (b_s bl) (b_m1 bl) AH i 1.
Proof. exact (chain_shear hs c i l b0). Qed.
Example C14_case : chain echo demo_c [AH] (demo_hist [/10; 2; 3] demo_m) /\
  forall b, In b (demo_hist [/10; 2; 3] demo_m) -> 0 <= b_dt b.
Proof.
  refine (conj (demo_chain [AH] [/10; 2; 3] demo_m demo_m_pos) _).
  intros b [<-|[<-|[<-|[]]]]; cbn; lra.
Qed.

(** C44. The returned deviatoric stress is Hooke's law for the returned elastic strain, divided by
    vNew, turned into the sample frame by the returned orientation. *)
Theorem C44_stress hs c b i pars : good hs c b -> (i < b_n b)%nat -> in_use c (b_s b) pars ->
  0 < vNew (b_s b) (b_m b) i -> norm2 (quat (b_s b) (b_m b) i) <> 0 ->
  let s := b_s b in let m := b_m b in let m1 := b_m1 b in
  let e1 := eInt s m i - delv s m i * pres s m i in
  (exists C, rotates (quat s m1 i) C) /\
  forall C, rotates (quat s m1 i) C -> is_rot C /\
    devStress s m1 i = cong C (dev3 (latStress c pars (vNew s m i) e1 (latStrain s m1 i (vNew s m i)))).
Proof.
  intros HG Hi HU Hv HQ. destruct (call_hooke hs c b i pars HG Hi HU Hv HQ) as [A B].
  exact (conj A (fun C HC => B C (or_introl HC))).
Qed.

Print Assumptions C01_unit_quaternion.
Print Assumptions C02_no_antipode.
Print Assumptions C02_sign_irrelevant.
Print Assumptions C07_deviatoric.
Print Assumptions C08_cubic.
Print Assumptions C08_hexagonal.
Print Assumptions C09_energy_step.
Print Assumptions C09_energy_history.
Print Assumptions C10_refuted.
Print Assumptions C10_actual.
Print Assumptions C12_bulk_floor.
Print Assumptions C14_shear_rate.
Print Assumptions C14_accumulated_shear.
Print Assumptions C44_stress.
