(** The helper class and the loop of the Python example (C72). *)
From Coq Require Import List ZArith Bool Lia PeanoNat Reals Lra String.
From Verif Require Import Num Arr NumR Util Hard Evptn MatModel Cases Py PyExample SpecTensor SpecApi SpecBatch SpecPy SpecPyEx
  P_Batch3 P_Api P_Builtin P_Hist SpecObj P_Api2 P_Demo P_Step P_Py P_Py2 P_Py3 P_Py4.
Import ListNotations.
Local Open Scope R_scope.

Definition restride (n w : nat) (a : PyArr R) : PyArr R :=
  {| py_base := py_base a; py_off := py_off a; py_shape := [Z.of_nat n; Z.of_nat w]; py_strides := [Z.of_nat w; 1%Z] |}.
Lemma restride_ok n w a : rows n w a -> table2 n w (restride n w a) /\ row_major w (restride n w a).
Proof.
  intros H. assert (L : (py_off a + n * w <= List.length (py_base a))%nat).
  { destruct H as [(-> & -> & _ & H)|[(-> & _ & _ & H)|(_ & _ & H)]]; lia. }
  split; [|reflexivity]. split; [reflexivity|]. split; [reflexivity|]. intros i j Hi Hj. unfold where2. cbn [restride py_off py_strides py_base nth]. nia.
Qed.
Lemma two_shape n w (a : PyArr R) : rows n w a -> py_shape (atleast_2d a) = [Z.of_nat n; Z.of_nat w].
Proof.
  intros [(-> & -> & H & _)|[(-> & H & _)|(H & _)]]; unfold atleast_2d; rewrite H; [reflexivity|reflexivity|exact H].
Qed.
Lemma two_base (a : PyArr R) : py_base (atleast_2d a) = py_base a /\ py_off (atleast_2d a) = py_off a.
Proof. unfold atleast_2d. destruct (py_shape a) as [|n [|m l]]; split; reflexivity. Qed.
Lemma two_rows n w a : rows n w a -> rows n w (atleast_2d a).
Proof.
  intros H. right. right. split; [exact (two_shape n w a H)|]. destruct (two_base a) as [-> ->].
  destruct H as [(-> & -> & H & HL)|[(-> & H & HS & HL)|(H & HS & HL)]]; unfold atleast_2d; rewrite H.
  - split; [|lia]. exists 1%Z. split; [reflexivity|now left].
  - split; [|lia]. exists 0%Z. cbn [py_strides]. rewrite HS. split; [reflexivity|now left].
  - split; [|lia]. exact HS.
Qed.
Lemma two_again n w (a : PyArr R) : py_shape a = [Z.of_nat n; Z.of_nat w] -> atleast_2d a = a.
Proof. intros H. unfold atleast_2d. now rewrite H. Qed.
Lemma item_restride n w a i j : rows n w a -> (i < n)%nat -> (j < w)%nat -> item a i j = elem (restride n w a) i j.
Proof.
  intros H Hi Hj. unfold item, elem, where2. cbn [restride py_off py_strides py_base nth].
  destruct H as [(-> & -> & H & HL)|[(-> & H & HS & HL)|(H & (s0 & HS & HO) & HL)]]; rewrite H.
  - f_equal. nia.
  - unfold entry1. rewrite HS. cbn [nth]. f_equal. nia.
  - unfold elem, where2. rewrite HS. cbn [nth]. f_equal. destruct HO as [->| ->]; [|reflexivity]. assert (i = 0%nat) by lia. subst i. lia.
Qed.
Lemma item_rows n w a i j : py_shape a = [Z.of_nat n; Z.of_nat w] -> item a i j = elem a i j.
Proof. intros H. unfold item. now rewrite H. Qed.
Lemma ptr_put (a : PyArr R) l : (py_off a <= List.length (py_base a))%nat -> py_ptr (py_put a l) = l.
Proof.
  intros H. unfold py_ptr, py_put. cbn [py_base py_off].
  rewrite skipn_app, skipn_all2 by (rewrite firstn_length; lia). rewrite firstn_length, Nat.min_l by exact H. now rewrite Nat.sub_diag.
Qed.
Lemma zeros_rows n : rows n 2 (np_zeros2 (Z.of_nat n) 2).
Proof.
  right. right. split; [reflexivity|]. split; [exists 2%Z; split; [reflexivity|now right]|]. cbn [np_zeros2 py_off py_base]. rewrite repeat_length. lia.
Qed.
Lemma rows_off n w a : rows n w a -> (py_off a <= List.length (py_base a))%nat.
Proof. intros [(_ & _ & _ & H)|[(_ & _ & _ & H)|(_ & _ & H)]]; lia. Qed.

Section Obj.
  Variables (hs : Solver R) (name : string) (pa : PyArr R) (c : MClass R) (s : MM R) (np nh : nat).
  Hypothesis HN : py_new hs name pa = POk (c, s).
  Hypothesis Hin : In (name, c, np, nh) (py_table hs).
  Variables (solver : Solver R) (lu : LUSolver R) (dt : R).

  Lemma obj_facts : builtin hs c /\ reachable c s /\ mm_complete s = true /\ mm_strides s = [7; 3; 4; 1; 7; nh; 1; 2]%nat /\ mm_numHist c = nh /\ (7 <= nh)%nat /\
    (exists mat tol, mm_ready s = Some (mat, tol)) /\ exists pars, in_use c s pars.
  Proof.
    destruct (py_new_ok _ _ _ _ _ HN) as (np' & nh' & pars & H1 & _ & _ & _ & HB & HR & HU & HC & _ & HS & HH).
    destruct (table_facts _ _ _ _ _ Hin) as (_ & _ & HH').
    assert (E : nh' = nh) by (unfold mm_getNumHist in HH; congruence). rewrite E in HS.
    assert (H7 : (7 <= nh)%nat) by (rewrite <- HH'; unfold mm_numHist, numHist, iHistLbGdot, iHistLbH; lia).
    destruct (in_use_ok c s pars HU) as (_ & HM). exact (conj HB (conj HR (conj HC (conj HS (conj HH' (conj H7 (conj HM (ex_intro _ pars HU)))))))).
  Qed.

  Definition args_ok (n : nat) (args : arr -> PyArr R) : Prop := forall x, In x inputs -> rows n (columns nh x) (args x).
  Lemma npts_ok n args : args_ok n args -> prob_npts args = Z.of_nat n.
  Proof. intros H. unfold prob_npts. rewrite (two_shape n 1 (args AE)); [reflexivity|]. apply (H AE). cbn. tauto. Qed.
  Lemma prob_rows n args x : args_ok n args -> In x solve_args -> rows n (columns nh x) (prob_args args x).
  Proof.
    intros H Hx. destruct x; cbn [prob_args]; try (apply two_rows; apply (H _); cbn; tauto).
    - rewrite (npts_ok n args H). apply zeros_rows.
    - cbn in Hx. intuition discriminate.
  Qed.
  Definition call_with (n : nat) (args : arr -> PyArr R) : BCall :=
    {| b_s := s; b_solver := solver; b_lu := lu; b_dt := dt; b_mtan := false; b_n := n; b_m := fun y => py_ptr (prob_args args y);
       b_m1 := snd (mm_getResponse solver lu c s dt false (Z.of_nat n) (fun y => py_ptr (prob_args args y))) |}.
  Lemma prob_call : mm_strides s = [7; 3; 4; 1; 7; nh; 1; 2]%nat -> mm_numHist c = nh -> (7 <= nh)%nat ->
    forall n args, args_ok n args -> (Z.of_nat nh * (Z.of_nat n - 1) < 2 ^ 32)%Z ->
    prob_solve solver lu c s dt args = (let r := mm_getResponse solver lu c s dt false (Z.of_nat n) (fun y => py_ptr (prob_args args y)) in (fst r, fun b => py_put (prob_args args b) (snd r b))) /\
    batch_ok c s false n (fun y => py_ptr (prob_args args y)) /\
    forall x i j, In x solve_args -> (i < n)%nat -> (j < columns nh x)%nat -> item (prob_args args x) i j = val s (fun y => py_ptr (prob_args args y)) x i j.
  Proof.
    intros HS HH H7 n args HA HW.
    set (ar := fun x => restride n (columns nh x) (prob_args args x)).
    assert (HT : forall x, In x solve_args -> table2 n (columns nh x) (ar x) /\ row_major (columns nh x) (ar x)).
    { intros x Hx. apply restride_ok. now apply prob_rows. }
    split; [|split].
    - unfold prob_solve. rewrite (npts_ok n args HA). rewrite solve_eq; [reflexivity|]. intros x Hx. rewrite HH.
      destruct x; cbn [prob_args]; try (apply two_shape; apply (HA _); cbn; tauto).
      + rewrite (npts_ok n args HA). reflexivity.
      + cbn in Hx. intuition discriminate.
    - exact (py_batch c s nh n ar HS HH HT HW H7).
    - intros x i j Hx Hi Hj. rewrite (item_restride n (columns nh x)) by (try assumption; now apply prob_rows).
      change (restride n (columns nh x) (prob_args args x)) with (ar x). rewrite <- (val_elem s nh n ar HS HT x i j); [reflexivity|]. intros ->. cbn in Hx. intuition discriminate.
  Qed.
  Lemma solve_good n args a' : args_ok n args -> (Z.of_nat nh * (Z.of_nat n - 1) < 2 ^ 32)%Z ->
    prob_solve solver lu c s dt args = (BRet Done, a') ->
    let b := call_with n args in good hs c b /\ (forall x, a' x = py_put (prob_args args x) (b_m1 b x)) /\
      (forall x i j, In x solve_args -> (i < n)%nat -> (j < columns nh x)%nat -> item (prob_args args x) i j = val s (b_m b) x i j) /\
      (forall x i j, In x solve_args -> (i < n)%nat -> (j < columns nh x)%nat -> item (a' x) i j = val s (b_m1 b) x i j) /\
      (forall x, In x solve_args -> py_shape (a' x) = [Z.of_nat n; Z.of_nat (columns nh x)] /\ rows n (columns nh x) (a' x)) /\
      (forall x, In x [AD; AW; AV] -> (0 < n)%nat -> py_base (a' x) = py_base (args x)).
  Proof.
    intros HA HW E. cbv zeta. destruct obj_facts as (HB & HR & HC & HS & HH & H7 & HM & _).
    set (ar := fun x => restride n (columns nh x) (prob_args args x)).
    assert (HT : forall x, In x solve_args -> table2 n (columns nh x) (ar x) /\ row_major (columns nh x) (ar x)).
    { intros x Hx. apply restride_ok. now apply prob_rows. }
    assert (SH : forall x, In x solve_args -> py_shape (prob_args args x) = [Z.of_nat n; Z.of_nat (columns nh x)]).
    { intros x Hx. destruct x; cbn [prob_args]; try (apply two_shape; apply (HA _); cbn; tauto).
      - rewrite (npts_ok n args HA). reflexivity.
      - cbn in Hx. intuition discriminate. }
    unfold prob_solve in E. rewrite (npts_ok n args HA) in E. rewrite solve_eq in E by (intros x Hx; rewrite HH; now apply SH).
    pose proof (py_batch c s nh n ar HS HH HT HW H7) as HO.
    change (fun x => py_ptr (ar x)) with (fun y => py_ptr (prob_args args y)) in HO.
    assert (E2 : py_solve solver lu c s dt ar (Z.of_nat n) = (BRet Done, fun b => py_put (ar b) (snd (mm_getResponse solver lu c s dt false (Z.of_nat n) (fun y => py_ptr (prob_args args y))) b))).
    { rewrite solve_eq by (intros x Hx; rewrite HH; reflexivity). change (fun b => py_ptr (ar b)) with (fun y => py_ptr (prob_args args y)).
      apply (f_equal fst) in E. cbn [fst] in E. now rewrite E. }
    destruct (solve_call c s nh n ar HR HC HS HH HM HT HW H7 solver lu dt _ _ E2) as (m1 & C1 & _ & C3 & C4 & C5 & _).
    change (fun y => py_ptr (ar y)) with (fun y => py_ptr (prob_args args y)) in C1. rewrite C1 in E, C3, C4, C5. cbn [fst snd] in E, C3, C4, C5.
    unfold call_with. cbn [b_m1 b_m]. rewrite C1. cbn [snd].
    assert (EA : forall x, a' x = py_put (prob_args args x) (m1 x)).
    { intros x. apply (f_equal snd) in E. cbn [snd] in E. rewrite <- E. reflexivity. }
    assert (LB : forall x, In x solve_args -> List.length (m1 x) = List.length (py_ptr (prob_args args x))).
    { destruct HM as (mat & tol & EM). destruct (api_batch c s solver lu dt false n _ mat tol HR HC EM HO) as (r & m2 & EC & [U1 _] & _).
      rewrite C1 in EC. apply (f_equal snd) in EC. cbn [snd] in EC. intros x _. rewrite EC. apply U1. }
    assert (RW : forall x, In x solve_args -> rows n (columns nh x) (a' x)).
    { intros x Hx. pose proof (prob_rows n args x HA Hx) as HP. pose proof (rows_off _ _ _ HP) as HF. pose proof (LB x Hx) as LX. unfold py_ptr in LX. rewrite skipn_length in LX.
      rewrite EA. right. right. unfold py_put. cbn [py_shape py_strides py_off py_base]. split; [now apply SH|].
      destruct HP as [(_ & _ & K & _)|[(_ & K & _)|(_ & K & L)]]; [rewrite (SH x Hx) in K; discriminate|rewrite (SH x Hx) in K; discriminate|].
      split; [exact K|]. rewrite app_length, firstn_length. lia. }
    refine (conj _ (conj EA (conj _ (conj _ (conj _ _))))).
    - refine (conj HB (conj HR (conj HO _))). exact C1.
    - intros x i j Hx Hi Hj. rewrite (item_restride n (columns nh x)) by (try assumption; now apply prob_rows).
      change (restride n (columns nh x) (prob_args args x)) with (ar x). rewrite <- (val_elem s nh n ar HS HT x i j); [reflexivity|]. intros ->. cbn in Hx. intuition discriminate.
    - intros x i j Hx Hi Hj. rewrite (item_restride n (columns nh x)) by (try assumption; now apply RW).
      rewrite <- (C4 x i j Hx Hi). rewrite EA. reflexivity.
    - intros x Hx. split; [|now apply RW]. rewrite EA. cbn [py_put py_shape]. now apply SH.
    - intros x Hx H0. specialize (C5 x Hx H0). apply (f_equal (@py_base R)) in C5. rewrite EA.
      assert (EB : py_base (prob_args args x) = py_base (args x)) by (cbn in Hx; intuition subst; apply two_base).
      rewrite <- EB. exact C5.
  Qed.
  Lemma item_two n w a i j : rows n w a -> (i < n)%nat -> (j < w)%nat -> item (atleast_2d a) i j = item a i j.
  Proof.
    intros H Hi Hj. rewrite (item_restride n w _ i j (two_rows n w a H) Hi Hj), (item_restride n w a i j H Hi Hj). unfold elem, where2, restride. cbn [py_off py_base py_strides].
    destruct (two_base a) as [-> ->]. reflexivity.
  Qed.
  (** one call of the helper *)
  Lemma helper n args a' : args_ok n args -> (Z.of_nat nh * (Z.of_nat n - 1) < 2 ^ 32)%Z -> prob_solve solver lu c s dt args = (BRet Done, a') ->
    exists b, good hs c b /\ b_s b = s /\ b_n b = n /\ b_dt b = dt /\ b_mtan b = false /\ b_solver b = solver /\ b_lu b = lu /\
      (forall x i j, In x inputs -> (i < n)%nat -> (j < columns nh x)%nat -> val s (b_m b) x i j = item (args x) i j) /\
      forall x, In x returned -> py_shape (a' x) = [Z.of_nat n; Z.of_nat (columns nh x)] /\ rows n (columns nh x) (a' x) /\
        forall i j, (i < n)%nat -> (j < columns nh x)%nat -> item (a' x) i j = val s (b_m1 b) x i j.
  Proof.
    intros HA HW E. destruct (solve_good n args a' HA HW E) as (G & _ & V & V1 & SH & _). exists (call_with n args).
    refine (conj G (conj eq_refl (conj eq_refl (conj eq_refl (conj eq_refl (conj eq_refl (conj eq_refl (conj _ _)))))))).
    - intros x i j Hx Hi Hj. rewrite <- V; [|destruct x; cbn in Hx |- *; tauto|exact Hi|exact Hj].
      assert (EP : prob_args args x = atleast_2d (args x)) by (cbn in Hx; intuition subst; reflexivity). rewrite EP. apply (item_two n (columns nh x)); auto.
    - intros x Hx. assert (HX : In x solve_args) by (destruct x; cbn in Hx |- *; tauto). destruct (SH x HX) as [S1 S2]. split; [exact S1|]. split; [exact S2|].
      intros i j Hi Hj. now apply V1.
  Qed.

  (** ** the loop *)
  Definition turn_args (e : Ex R) : arr -> PyArr R := fun x => match x with
    | AD => np_list (ex_d e) | AW => np_list (ex_w e) | AV => np_list (ex_volume dt (ex_d e) (ex_v e)) | _ => ex_a e x end.
  Lemma list_rows l w : List.length l = w -> rows 1 w (np_list l).
  Proof. intros <-. right. left. split; [reflexivity|]. split; [reflexivity|]. split; [reflexivity|]. cbn [np_list py_off py_base]. lia. Qed.
  Definition ex_ok (e : Ex R) : Prop := List.length (ex_d e) = 7%nat /\ List.length (ex_w e) = 3%nat /\ List.length (ex_v e) = 4%nat /\
    forall x, In x [AE; AS; AH; AT] -> rows 1 (columns nh x) (ex_a e x).
  Lemma turn_ok e : ex_ok e -> args_ok 1 (turn_args e).
  Proof.
    intros (H1 & H2 & H3 & H4) x Hx. destruct x; try (apply H4; cbn; tauto).
    - now apply list_rows.
    - now apply list_rows.
    - now apply list_rows.
    - cbn in Hx. intuition discriminate.
    - cbn in Hx. intuition discriminate.
  Qed.
  Lemma item_list l j : (j < List.length l)%nat -> item (np_list l) 0 j = nth j l 0.
  Proof. intros H. unfold item, entry1. cbn [np_list py_shape py_off py_strides py_base nth]. f_equal. lia. Qed.
  Lemma small1 : (Z.of_nat nh * (Z.of_nat 1 - 1) < 2 ^ 32)%Z.
  Proof. rewrite Z.mul_0_r. reflexivity. Qed.
  Lemma turn e e' : ex_ok e -> ex_turn solver lu c s dt e = (BRet Done, e') ->
    let b := call_with 1 (turn_args e) in let v := ex_volume dt (ex_d e) (ex_v e) in
    good hs c b /\ ex_ok e' /\ ex_d e' = ex_d e /\ ex_w e' = ex_w e /\ ex_v e' = v /\
    (forall x, In x [AE; AS; AH; AT] -> py_ptr (prob_args (turn_args e') x) = b_m1 b x) /\
    (forall j, (j < 7)%nat -> val s (b_m b) AD 0 j = nth j (ex_d e) 0) /\ (forall j, (j < 3)%nat -> val s (b_m b) AW 0 j = nth j (ex_w e) 0) /\
    (forall j, (j < 4)%nat -> val s (b_m b) AV 0 j = nth j v 0) /\
    (forall x j, In x [AE; AS; AH; AT] -> (j < columns nh x)%nat -> val s (b_m b) x 0 j = item (ex_a e x) 0 j) /\
    (forall x j, In x returned -> (j < columns nh x)%nat -> item (ex_a e' x) 0 j = val s (b_m1 b) x 0 j).
  Proof.
    intros HE E. cbv zeta. unfold ex_turn in E. destruct (prob_solve _ _ _ _ _ _) as [o a'] eqn:ES in E.
    change (prob_solve solver lu c s dt (turn_args e) = (o, a')) in ES.
    assert (o = BRet Done) by congruence. subst o.
    assert (EE : e' = {| ex_d := py_base (a' AD); ex_w := py_base (a' AW); ex_v := py_base (a' AV); ex_a := a' |}) by congruence. clear E.
    pose proof (turn_ok e HE) as HA. destruct (solve_good 1 (turn_args e) a' HA small1 ES) as (G & EA & V & V1 & SH & SB).
    assert (B : ex_d e' = ex_d e /\ ex_w e' = ex_w e /\ ex_v e' = ex_volume dt (ex_d e) (ex_v e)).
    { subst e'. cbn [ex_d ex_w ex_v]. rewrite !SB by (try lia; cbn; tauto). repeat split; reflexivity. }
    destruct B as (B1 & B2 & B3). destruct HE as (H1 & H2 & H3 & H4).
    assert (VI : forall x j, In x inputs -> (j < columns nh x)%nat -> val s (b_m (call_with 1 (turn_args e))) x 0 j = item (turn_args e x) 0 j).
    { intros x j Hx Hj. rewrite <- V; [|destruct x; cbn in Hx |- *; tauto|lia|exact Hj].
      assert (EP : prob_args (turn_args e) x = atleast_2d (turn_args e x)) by (cbn in Hx; intuition subst; reflexivity). rewrite EP.
      apply (item_two 1 (columns nh x)); [now apply HA|lia|exact Hj]. }
    split; [exact G|]. split; [|split; [exact B1|split; [exact B2|split; [exact B3|split; [|split; [|split; [|split; [|split]]]]]]]].
    - split; [now rewrite B1|]. split; [now rewrite B2|]. split; [now rewrite B3|]. intros x Hx. subst e'. cbn [ex_a]. apply SH. destruct x; cbn in Hx |- *; tauto.
    - intros x Hx. assert (HX : In x solve_args) by (destruct x; cbn in Hx |- *; tauto). destruct (SH x HX) as [S1 _].
      assert (EP : prob_args (turn_args e') x = a' x).
      { subst e'. cbn in Hx. intuition subst; cbn [prob_args turn_args ex_a]; exact (two_again 1 _ _ S1). }
      rewrite EP, EA. apply ptr_put. apply (rows_off 1 (columns nh x)). now apply prob_rows.
    - intros j Hj. rewrite (VI AD j) by (cbn; try tauto; exact Hj). apply item_list. lia.
    - intros j Hj. rewrite (VI AW j) by (cbn; try tauto; exact Hj). apply item_list. lia.
    - intros j Hj. rewrite (VI AV j) by (cbn; try tauto; exact Hj). apply item_list. exact Hj.
    - intros x j Hx Hj. rewrite (VI x j) by (try exact Hj; destruct x; cbn in Hx |- *; tauto). cbn in Hx. intuition subst; reflexivity.
    - intros x j Hx Hj. subst e'. cbn [ex_a]. apply V1; [destruct x; cbn in Hx |- *; tauto|lia|exact Hj].
  Qed.
  Lemma volume_step r k d v : nth 6 d 0 = r -> nth 1 v 0 = exp (INR k * (r * dt)) ->
    let v' := ex_volume dt d v in let v0 := exp (INR k * (r * dt)) in let v1 := exp (INR (S k) * (r * dt)) in
    nth 0 v' 0 = v0 /\ nth 1 v' 0 = v1 /\ nth 2 v' 0 = (v1 - v0) / (dt * ((v0 + v1) / 2)) /\ nth 3 v' 0 = v1 - v0.
  Proof.
    intros Hd Hv. cbv zeta. unfold ex_volume. cbn [nth]. change (@get R RNum v 1) with (nth 1 v 0). change (@get R RNum d 6) with (nth 6 d 0). rewrite Hd, Hv.
    change (@nexp R RNum) with exp. rops.
    assert (EX : exp (INR k * (r * dt)) * exp (r * dt) = exp (INR (S k) * (r * dt))) by (rewrite <- exp_plus, S_INR; f_equal; ring).
    rewrite EX. repeat split. f_equal. unfold Rlit. cbn. lra.
  Qed.
  Lemma loop K : forall k e e', ex_ok e -> nth 1 (ex_v e) 0 = exp (INR k * (nth 6 (ex_d e) 0 * dt)) -> ex_loop solver lu c s dt K e = (BRet Done, e') ->
    exists l, List.length l = K /\ chain hs c [AE; AS; AH; AT] l /\
      (forall b r, l = b :: r -> forall x, In x [AE; AS; AH; AT] -> b_m b x = py_ptr (prob_args (turn_args e) x) /\ forall j, (j < columns nh x)%nat -> val s (b_m b) x 0 j = item (ex_a e x) 0 j) /\
      (forall i b, nth_error l i = Some b -> b_s b = s /\ b_n b = 1%nat /\ b_dt b = dt /\ b_solver b = solver /\ b_lu b = lu /\
         (forall j, (j < 7)%nat -> val s (b_m b) AD 0 j = nth j (ex_d e) 0) /\ (forall j, (j < 3)%nat -> val s (b_m b) AW 0 j = nth j (ex_w e) 0) /\
         volumes (nth 6 (ex_d e) 0) dt (k + i) s (b_m b)) /\
      forall b, nth_error l (K - 1) = Some b -> forall x j, In x returned -> (j < columns nh x)%nat -> item (ex_a e' x) 0 j = val s (b_m1 b) x 0 j.
  Proof.
    induction K as [|K IH]; intros k e e' HE HV E.
    - exists []. split; [reflexivity|]. split; [exact I|]. split; [discriminate|]. split; [intros [|i]; discriminate|discriminate].
    - cbn [ex_loop] in E. destruct (ex_turn solver lu c s dt e) as [o e1] eqn:E1. destruct o as [o|]; [|discriminate]. destruct o; try discriminate.
      destruct (turn e e1 HE E1) as (G & HE1 & D1 & W1 & V1 & P1 & VD & VW & VV & VA & VR).
      destruct (volume_step (nth 6 (ex_d e) 0) k (ex_d e) (ex_v e) eq_refl HV) as (X0 & X1 & X2 & X3).
      destruct (IH (S k) e1 e' HE1) as (l & L1 & L2 & L3 & L4 & L5); [now rewrite D1, V1|exact E|].
      set (b0 := call_with 1 (turn_args e)) in *. exists (b0 :: l).
      split; [cbn; now rewrite L1|]. split; [|split; [|split]].
      + cbn [chain]. split; [exact G|]. split; [|exact L2]. destruct l as [|b1 r]; [exact I|].
        destruct (L4 0%nat b1 eq_refl) as (S1 & N1 & _). split; [now rewrite S1|]. split; [now rewrite N1|]. intros x Hx. rewrite (proj1 (L3 b1 r eq_refl x Hx)). now apply P1.
      + intros b r EL x Hx. assert (b = b0) by congruence. subst b. split; [reflexivity|]. intros j Hj. now apply VA.
      + intros [|i] b EB.
        * cbn [nth_error] in EB. assert (b = b0) by congruence. subst b.
          refine (conj eq_refl (conj eq_refl (conj eq_refl (conj eq_refl (conj eq_refl (conj VD (conj VW _))))))).
          unfold volumes. rewrite Nat.add_0_r. cbv zeta. rewrite !VV by lia. auto.
        * cbn [nth_error] in EB. destruct (L4 i b EB) as (A1 & A2 & A3 & A4 & A5 & A6 & A7 & A8). rewrite D1 in A6, A8. rewrite W1 in A7. rewrite Nat.add_succ_r.
          exact (conj A1 (conj A2 (conj A3 (conj A4 (conj A5 (conj A6 (conj A7 A8))))))).
      + intros b EB x j Hx Hj. destruct K as [|K].
        * destruct l; [|discriminate L1]. cbn in EB. assert (b = b0) by congruence. subst b. cbn [ex_loop] in E. assert (e' = e1) by congruence. subst e'. now apply VR.
        * apply (L5 b); [|exact Hx|exact Hj]. rewrite <- EB. cbn [Nat.sub]. rewrite Nat.sub_0_r. reflexivity.
  Qed.
  Lemma start_hist : exists h, mm_getHistInfo c s = Some h /\ List.length h = nh.
  Proof.
    destruct obj_facts as (HB & _ & _ & _ & HH & _ & _ & pars & HU).
    destruct (hist_in_use hs c s pars HB HU) as (nm & HI' & _). eexists. split; [exact HI'|].
    rewrite <- HH. destruct HB as [ -> | [ -> | [ -> | [ -> | [ -> | [ -> | -> ]]]]]]; reflexivity.
  Qed.
  Lemma start_ok d w t : List.length d = 7%nat -> List.length w = 3%nat -> exists e h, ex_start c s d w t = Some e /\ ex_ok e /\ mm_getHistInfo c s = Some h /\ ex_a e AH = np_list (map entry_init h).
  Proof.
    intros HD HW. destruct start_hist as (h & HI & LH). unfold ex_start, py_getHistoryInfo. rewrite HI.
    eexists. exists h. split; [reflexivity|]. split; [|split; reflexivity].
    split; [exact HD|]. split; [exact HW|]. split; [reflexivity|]. intros x Hx. cbn [ex_a]. cbn in Hx. intuition subst.
    - now apply list_rows.
    - apply list_rows. reflexivity.
    - apply list_rows. cbn [columns]. now rewrite map_length.
    - left. repeat split. cbn. lia.
  Qed.
  (** the whole script *)
  Lemma script d w t K e e' h : List.length d = 7%nat -> List.length w = 3%nat -> mm_getHistInfo c s = Some h ->
    ex_start c s d w t = Some e -> ex_loop solver lu c s dt K e = (BRet Done, e') ->
    exists l, List.length l = K /\ chain hs c [AE; AS; AH; AT] l /\
      (forall b, nth_error l 0 = Some b -> val s (b_m b) AE 0 0 = 0 /\ (forall j, (j < 7)%nat -> val s (b_m b) AS 0 j = 0) /\
        (forall j, (j < nh)%nat -> val s (b_m b) AH 0 j = nth j (map entry_init h) 0) /\ val s (b_m b) AT 0 0 = t) /\
      (forall k b, nth_error l k = Some b -> b_s b = s /\ b_n b = 1%nat /\ b_dt b = dt /\ b_solver b = solver /\ b_lu b = lu /\
         (forall j, (j < 7)%nat -> val s (b_m b) AD 0 j = nth j d 0) /\ (forall j, (j < 3)%nat -> val s (b_m b) AW 0 j = nth j w 0) /\
         volumes (nth 6 d 0) dt k s (b_m b)) /\
      forall b, nth_error l (K - 1) = Some b -> forall x j, In x returned -> (j < columns nh x)%nat -> item (ex_a e' x) 0 j = val s (b_m1 b) x 0 j.
  Proof.
    intros HD HW HI ES E. destruct obj_facts as (HB & _ & _ & _ & HH & _ & _ & pars & HU).
    unfold ex_start, py_getHistoryInfo in ES. rewrite HI in ES. 
    assert (LH : List.length h = nh).
    { destruct (hist_in_use hs c s pars HB HU) as (nm & HI' & _). assert (EH : h = hist_of c nm (nth (mm_nParams c - 3) pars nundef)) by congruence. subst h.
      rewrite <- HH. destruct HB as [ -> | [ -> | [ -> | [ -> | [ -> | [ -> | -> ]]]]]]; reflexivity. }
    assert (EE : e = {| ex_d := d; ex_w := w; ex_v := [nZ 1; nZ 1; nZ 0; nZ 0];
        ex_a := fun x => match x with
          | AE => np_list [nZ 0] | AS => np_list (repeat (nZ 0) 7)
          | AH => np_list (map (fun e : HistEntry R => snd (fst (fst e))) h)
          | AT => np_float t | _ => np_list [] end |}) by (symmetry; exact (f_equal (fun o => match o with Some x => x | None => e end) ES)). clear ES.
    assert (HE : ex_ok e).
    { subst e. split; [exact HD|]. split; [exact HW|]. split; [reflexivity|]. intros x Hx. cbn [ex_a]. cbn in Hx. intuition subst.
      - now apply list_rows.
      - apply list_rows. reflexivity.
      - apply list_rows. cbn [columns]. now rewrite map_length.
      - left. repeat split. cbn. lia. }
    assert (EV : nth 1 (ex_v e) 0 = exp (INR 0 * (nth 6 (ex_d e) 0 * dt))) by (subst e; cbn; rewrite Rmult_0_l, exp_0; reflexivity).
    destruct (loop K 0 e e' HE EV E) as (l & L1 & L2 & L3 & L4 & L5). exists l. split; [exact L1|]. split; [exact L2|]. split; [|split].
    - intros b EB. destruct l as [|b0 r]; [discriminate|]. assert (b0 = b) by (cbn in EB; congruence). subst b0.
      assert (F : forall x j, In x [AE; AS; AH; AT] -> (j < columns nh x)%nat -> val s (b_m b) x 0 j = item (ex_a e x) 0 j) by (intros x j Hx Hj; exact (proj2 (L3 b r eq_refl x Hx) j Hj)).
      split; [|split; [|split]].
      + rewrite F by (cbn; try tauto; lia). subst e. reflexivity.
      + intros j Hj. rewrite F by (cbn; try tauto; exact Hj). subst e. cbn [ex_a]. rewrite item_list by exact Hj. do 7 (destruct j as [|j]; [reflexivity|]). lia.
      + intros j Hj. rewrite F by (cbn; try tauto; exact Hj). subst e. cbn [ex_a]. rewrite item_list by (rewrite map_length, LH; exact Hj). reflexivity.
      + rewrite F by (cbn; try tauto; lia). subst e. reflexivity.
    - subst e. exact L4.
    - exact L5.
  Qed.
  (** a vector of energies of several points *)
  Lemma flat (args : arr -> PyArr R) n : py_shape (args AE) = [n] -> n <> 1%Z -> fst (prob_solve solver lu c s dt args) = BRet Failed.
  Proof.
    intros H Hn. unfold prob_solve. rewrite (solve_rejects solver lu c s dt (prob_args args) (prob_npts args) AE); [reflexivity|cbn; tauto|].
    cbn [prob_args columns]. unfold atleast_2d. rewrite H. cbn [py_shape]. intros X. apply Hn. exact (f_equal (fun l => nth 1 l 0%Z) X).
  Qed.
  (** no undefined behaviour *)
  Lemma returns n args : args_ok n args -> (Z.of_nat nh * (Z.of_nat n - 1) < 2 ^ 32)%Z -> exists r, fst (prob_solve solver lu c s dt args) = BRet r.
  Proof.
    intros HA HW. destruct obj_facts as (_ & HR & HC & HS & HH & H7 & (mat & tol & EM) & _).
    destruct (prob_call HS HH H7 n args HA HW) as (-> & HO & _). cbv zeta. cbn [fst].
    destruct (api_batch c s solver lu dt false n _ mat tol HR HC EM HO) as (r & m2 & -> & _). now exists r.
  Qed.
  Lemma loop_returns K : forall e, ex_ok e -> exists r, fst (ex_loop solver lu c s dt K e) = BRet r.
  Proof.
    induction K as [|K IH]; intros e HE; [now exists Done|]. cbn [ex_loop].
    destruct (returns 1 (turn_args e) (turn_ok e HE) small1) as [r Hr].
    destruct (ex_turn solver lu c s dt e) as [o e1] eqn:E1.
    assert (o = BRet r).
    { rewrite <- Hr. unfold ex_turn in E1. change (fun x => match x with AD => np_list (ex_d e) | AW => np_list (ex_w e) | AV => np_list (ex_volume dt (ex_d e) (ex_v e)) | _ => ex_a e x end) with (turn_args e) in E1.
      destruct (prob_solve solver lu c s dt (turn_args e)) as [o1 a1]. cbn [fst]. congruence. }
    subst o. destruct r; try (eexists; reflexivity).
    destruct (turn e e1 HE E1) as (_ & HE1 & _). exact (IH e1 HE1).
  Qed.
  (** the documented shape of the stresses *)
  Lemma documented (args : arr -> PyArr R) n : py_shape (args AS) = [Z.of_nat n; 6%Z] -> fst (prob_solve solver lu c s dt args) = BRet Failed.
  Proof.
    intros H. unfold prob_solve. rewrite (solve_rejects solver lu c s dt (prob_args args) (prob_npts args) AS); [reflexivity|cbn; tauto|].
    cbn [prob_args columns]. unfold atleast_2d. rewrite H, H. intros X. discriminate (f_equal (fun l => nth 1 l 0%Z) X).
  Qed.
End Obj.

Lemma volume_rate r dt k s m : volumes r dt k s m -> dt <> 0 -> val s m AV 0 2 = 2 / dt * tanh (r * dt / 2).
Proof.
  intros (_ & _ & -> & _) Hd. set (x := r * dt / 2). unfold tanh, sinh, cosh.
  assert (H0 : INR k * (r * dt) = INR k * (2 * x)) by (unfold x; field). assert (H1 : INR (S k) * (r * dt) = (INR k * (2 * x) + x) + x) by (rewrite S_INR; unfold x; field).
  rewrite H0, H1. set (a := INR k * (2 * x)).
  assert (EX : exp a = exp (a + x) * exp (- x)) by (rewrite <- exp_plus; f_equal; ring). assert (EY : exp (a + x + x) = exp (a + x) * exp x) by apply exp_plus.
  rewrite EX, EY. pose proof (exp_pos (a + x)). pose proof (exp_pos x). pose proof (exp_pos (- x)). field. repeat split; nra.
Qed.
Lemma script_rate i j : (i < 3)%nat -> (j < 3)%nat -> rate_of ex_rate i j = if andb (i =? 0)%nat (j =? 0)%nat then 1 / 1000 else 0.
Proof.
  intros Hi Hj. assert (L : @nlit R RNum 1 (-3) = 1 / 1000) by (rops; unfold Rlit; cbn; lra).
  destruct i as [|[|[|i]]]; try lia; destruct j as [|[|[|j]]]; try lia; unfold rate_of, ex_rate; cbn [map nth Nat.eqb andb]; rewrite ?L; rops; try lra.
Qed.
Lemma start_shapes (c : MClass R) s d w t e : ex_start c s d w t = Some e -> py_shape (ex_a e AT) = [] /\ py_shape (ex_a e AS) = [7%Z].
Proof. unfold ex_start. destruct (py_getHistoryInfo c s) as [h|]; [|discriminate]. intros E. assert (EE := f_equal (fun o => match o with Some y => y | None => e end) E). cbv iota beta in EE. subst e. split; reflexivity. Qed.
