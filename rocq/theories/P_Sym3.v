(** Slip laws, elastic moduli and stored Schmid data of the cubic models under the rotations of the cube (C22). *)
From Coq Require Import List ZArith Bool Lia PeanoNat Reals Lra String.
From Verif Require Import Num Arr NumR Util SlipGeom Eos Hard KinVoce KinKMBalD Elast Evptn MatModel Cases SpecTensor
  SpecElast SpecSlip P_Tensor P_Elast P_Eos P_Sngl P_Sngl2 P_Sngl3 P_Batch P_Batch2 P_Batch3 P_Batch4 P_Api P_Builtin SpecApi P_Hist SpecStress P_Stress
  SpecKin SpecKinApi SpecStep P_KinV P_Kin4 P_Call P_Slip P_SlipH P_Demo P_Step P_Step2 SpecJac SpecSym P_Sym P_Sym1 P_Sym2.
Import ListNotations.
Local Open Scope R_scope.

(** ** the slope of the slip law is even *)
Lemma voce_even v g tau : snd (fst (voce_evalGdot v g (- tau))) = snd (fst (voce_evalGdot v g tau)).
Proof.
  unfold voce_evalGdot. rops. replace (- tau * (1 / g)) with (- (tau * (1 / g))) by ring. rewrite Rabs_Ropp.
  destruct (Rltb _ _); [|reflexivity]. destruct (Rltb _ _); reflexivity.
Qed.
Lemma Reqb_opp t : Reqb (- t) 0 = Reqb t 0.
Proof. unfold Reqb. destruct (Req_EM_T (- t) 0), (Req_EM_T t 0); try reflexivity; exfalso; lra. Qed.
Lemma km_even (k : KM R) vals iv tau : snd (fst (km_evalGdot k vals iv (- tau))) = snd (fst (km_evalGdot k vals iv tau)).
Proof.
  unfold km_evalGdot. change (nabs (- tau)) with (Rabs (- tau)). change (nabs tau) with (Rabs tau). rewrite Rabs_Ropp.
  change (neqb (- tau) zero) with (Reqb (- tau) 0). change (neqb tau zero) with (Reqb tau 0). rewrite Reqb_opp.
  cbv zeta.
  destruct (negb _ && _); [reflexivity|]. destruct (nltb _ gam_ratio_min); [reflexivity|].
  destruct (if nltb _ idp_eps_sqrt then _ else _) as [gr tr].
  destruct (nltb _ _); [reflexivity|].
  destruct (get_mts_dG _ _ _ _) as [ea md]. destruct (nltb ea _); [reflexivity|].
  destruct (get_mts_dG _ _ _ _) as [eam mdm]. destruct (_ && _); [reflexivity|].
  destruct (if nltb (get (km_t_min k) iv) _ then _ else _) as [[gw dw] dg]. reflexivity.
Qed.

(** ** the tables of slip systems under the 24 rotations of the cube *)
Definition Z9 := (Z3i * Z3i * Z3i)%type.
Definition m9 (s : Z9) : M3 := let '((a, b, c), (d, e, f), (g, h, k)) := s in mk3 (IZR a) (IZR b) (IZR c) (IZR d) (IZR e) (IZR f) (IZR g) (IZR h) (IZR k).
(** transpose times vector *)
Definition zt (s : Z9) (p : Z3i) : Z3i := let '((a, b, c), (d, e, f), (g, h, k)) := s in let '(x, y, z) := p in
  (a * x + d * y + g * z, b * x + e * y + h * z, c * x + f * y + k * z)%Z.
Definition tri : list Z := [-1; 0; 1]%Z.
Definition tri3 : list Z3i := flat_map (fun a => flat_map (fun b => map (fun c => (a, b, c)) tri) tri) tri.
Definition orth9 (s : Z9) : bool := let '(p, q, r) := s in
  (zdot p p =? 1)%Z && (zdot q q =? 1)%Z && (zdot r r =? 1)%Z && (zdot p q =? 0)%Z && (zdot p r =? 0)%Z && (zdot q r =? 0)%Z.
Definition all9 : list Z9 := filter orth9 (flat_map (fun p => flat_map (fun q => map (fun r => (p, q, r)) tri3) tri3) tri3).
Definition zeq (p q : Z3i) : bool := let '(a, b, c) := p in let '(d, e, f) := q in (a =? d)%Z && (b =? e)%Z && (c =? f)%Z.
Definition zsame (p q : Z3i) : option bool := if zeq p q then Some true else if zeq p (zneg q) then Some false else None.
Definition zsys (t : list (Z3i * Z3i)) (s : Z9) (k j : nat) : option bool :=
  match zsame (fst (nth j t d3)) (zt s (fst (nth k t d3))), zsame (snd (nth j t d3)) (zt s (snd (nth k t d3))) with
  | Some a, Some b => Some (Bool.eqb a b) | _, _ => None end.
Definition zfind (t : list (Z3i * Z3i)) (s : Z9) (k : nat) : nat * bool :=
  match find (fun j => match zsys t s k j with Some _ => true | None => false end) (seq 0 (List.length t)) with
  | Some j => (j, match zsys t s k j with Some a => a | None => true end) | None => (List.length t, true) end.
Fixpoint nodup (l : list nat) : bool := match l with [] => true | x :: r => negb (existsb (Nat.eqb x) r) && nodup r end.
Definition closed9 (t : list (Z3i * Z3i)) (s : Z9) : bool :=
  forallb (fun k => match zsys t s k (fst (zfind t s k)) with Some a => Bool.eqb a (snd (zfind t s k)) | None => false end && Nat.ltb (fst (zfind t s k)) (List.length t)) (seq 0 (List.length t)) &&
  nodup (map (fun k => fst (zfind t s k)) (seq 0 (List.length t))).
Lemma tables_closed : List.length all9 = 48%nat /\ forallb (closed9 sys_fcc) all9 = true /\ forallb (closed9 (sys_bcc 12)) all9 = true /\
  forallb (closed9 (sys_bcc 24)) all9 = true /\ forallb (closed9 (sys_bcc 48)) all9 = true.
Proof. vm_compute. repeat split. Qed.
Lemma nodup_inj l : nodup l = true -> forall i j d, (i < List.length l)%nat -> (j < List.length l)%nat -> nth i l d = nth j l d -> i = j.
Proof.
  induction l as [|x l IH]; intros H i j d Hi Hj E; [cbn in Hi; lia|]. cbn [nodup] in H. apply andb_true_iff in H as [H1 H2].
  apply negb_true_iff in H1. assert (N : forall n, (n < List.length l)%nat -> nth n l d <> x).
  { intros n Hn F. apply not_true_iff_false in H1. apply H1. apply existsb_exists. exists x. split; [rewrite <- F; now apply nth_In|apply Nat.eqb_refl]. }
  cbn [List.length] in Hi, Hj. destruct i as [|i], j as [|j]; cbn [nth] in E; [reflexivity|symmetry in E; exfalso; apply (N j); [lia|exact E]|exfalso; apply (N i); [lia|exact E]|].
  f_equal. apply (IH H2 i j d); [lia|lia|exact E].
Qed.
Lemma in_tri a : (a * a <= 1)%Z -> In a tri.
Proof. intros H. unfold tri. cbn. nia. Qed.
Lemma in_tri3 a b c : (a * a + b * b + c * c = 1)%Z -> In (a, b, c) tri3.
Proof.
  intros H. pose proof (Z.square_nonneg a). pose proof (Z.square_nonneg b). pose proof (Z.square_nonneg c). unfold tri3.
  apply in_flat_map. exists a. split; [apply in_tri; lia|]. apply in_flat_map. exists b. split; [apply in_tri; lia|].
  apply in_map_iff. exists c. split; [reflexivity|apply in_tri; lia].
Qed.
Lemma cubic_int S : cubic_rot S -> exists z, In z all9 /\ S = m9 z.
Proof.
  intros ((HO & _) & (a & A) & (b & B) & (c & C) & (d & D) & (e & E) & (f & F) & (g & G) & (h & H) & (k & K)).
  destruct HO as [HO _]. destruct S as [s1 s2 s3 s4 s5 s6 s7 s8 s9]. cbn [a00 a01 a02 a10 a11 a12 a20 a21 a22] in *. subst.
  unfold mul3, tr3, I3 in HO. cbn [a00 a01 a02 a10 a11 a12 a20 a21 a22] in HO.
  injection HO as E1 E2 E3 E4 E5 E6 E7 E8 E9.
  rewrite <- !mult_IZR, <- !plus_IZR in E1, E2, E3, E5, E6, E9. apply eq_IZR in E1, E2, E3, E5, E6, E9.
  exists ((a, b, c), (d, e, f), (g, h, k)). split; [|reflexivity].
  apply filter_In. split.
  - apply in_flat_map. exists (a, b, c). split; [now apply in_tri3|]. apply in_flat_map. exists (d, e, f). split; [now apply in_tri3|].
    apply in_map_iff. exists (g, h, k). split; [reflexivity|now apply in_tri3].
  - unfold orth9, zdot. rewrite E1, E2, E3, E5, E6, E9. reflexivity.
Qed.
Lemma zt_mulv z p : mulv (tr3 (m9 z)) (cub p) = cub (zt z p).
Proof.
  destruct z as [[[[a b] c] [[d e] f]] [[g h] k]], p as [[x y] w]. unfold m9, tr3, mulv, cub, zt. cbn [a00 a01 a02 a10 a11 a12 a20 a21 a22 v0 v1 v2].
  rewrite !plus_IZR, !mult_IZR. reflexivity.
Qed.
Lemma zeq_eq p q : zeq p q = true -> p = q.
Proof. destruct p as [[a b] c], q as [[d e] f]. unfold zeq. rewrite !andb_true_iff, !Z.eqb_eq. intros ((-> & ->) & ->). reflexivity. Qed.
Definition sg1 (a : bool) : R := if a then 1 else -1.
Lemma sg1_eqb a b : sg1 (Bool.eqb a b) = sg1 a * sg1 b.
Proof. destruct a, b; unfold sg1; cbn; ring. Qed.
Definition scv (r : R) (v : V3) : V3 := mkV (r * v0 v) (r * v1 v) (r * v2 v).
Lemma zsame_unit p q a : zsame p q = Some a -> unitv (cub p) = scv (sg1 a) (unitv (cub q)).
Proof.
  unfold zsame. destruct (zeq p q) eqn:E1; [|destruct (zeq p (zneg q)) eqn:E2; [|discriminate]]; intros X; apply some_inj in X; subst a.
  - apply zeq_eq in E1. rewrite E1. unfold scv, sg1. destruct (unitv (cub q)) as [x y z]. cbn [v0 v1 v2]. rewrite !Rmult_1_l. reflexivity.
  - apply zeq_eq in E2. rewrite E2. assert (X : cub (zneg q) = oppv (cub q)).
    { destruct q as [[x y] z]. unfold zneg, cub, oppv. cbn [v0 v1 v2]. rewrite !opp_IZR. reflexivity. }
    rewrite X, unitv_opp. unfold scv, oppv, sg1. cbn [v0 v1 v2]. f_equal; ring.
Qed.
Lemma outer_scv a b u v A : outer (scv a (mulv A u)) (scv b (mulv A v)) = scal3 (a * b) (cong A (outer u v)).
Proof. destruct A as [a1 a2 a3 a4 a5 a6 a7 a8 a9], u as [u1 u2 u3], v as [w1 w2 w3]. unfold outer, scv, mulv, scal3, cong, mul3, tr3. cbn [a00 a01 a02 a10 a11 a12 a20 a21 a22 v0 v1 v2]. f_equal; ring. Qed.
Lemma table_match t S : forallb (closed9 t) all9 = true -> cubic_rot S -> exists sg ep,
  matches (List.length t) S sg ep (fun i => unitv (cub (fst (nth i t d3)))) (fun i => unitv (cub (snd (nth i t d3)))).
Proof.
  intros HC HS. destruct (cubic_int S HS) as (z & Hz & ES). rewrite forallb_forall in HC. specialize (HC z Hz).
  unfold closed9 in HC. apply andb_true_iff in HC as [H1 H2]. rewrite forallb_forall in H1.
  assert (K : forall k, (k < List.length t)%nat -> zsys t z k (fst (zfind t z k)) = Some (snd (zfind t z k)) /\ (fst (zfind t z k) < List.length t)%nat).
  { intros k Hk. specialize (H1 k). rewrite in_seq in H1. specialize (H1 ltac:(lia)). apply andb_true_iff in H1 as [H3 H4]. apply Nat.ltb_lt in H4. split; [|exact H4].
    destruct (zsys t z k (fst (zfind t z k))) as [a|]; [|discriminate]. apply Bool.eqb_prop in H3. now rewrite H3. }
  exists (fun k => fst (zfind t z k)), (fun k => sg1 (snd (zfind t z k))). split; [split|].
  - intros k Hk. exact (proj2 (K k Hk)).
  - intros j k Hj Hk E. apply (nodup_inj _ H2 j k 0%nat); [rewrite map_length, seq_length; exact Hj|rewrite map_length, seq_length; exact Hk|].
    rewrite !(nth_indep _ 0%nat (fst (zfind t z 0))) by (rewrite map_length, seq_length; assumption).
    rewrite !(map_nth (fun k => fst (zfind t z k))), !seq_nth by assumption. exact E.
  - intros k Hk. split; [destruct (snd (zfind t z k)); [left|right]; reflexivity|].
    destruct (K k Hk) as [E _]. unfold zsys in E.
    destruct (zsame (fst (nth (fst (zfind t z k)) t d3)) _) as [a|] eqn:EA; [|discriminate].
    destruct (zsame (snd (nth (fst (zfind t z k)) t d3)) _) as [b|] eqn:EB; [|discriminate]. apply some_inj in E.
    rewrite <- E, sg1_eqb, (zsame_unit _ _ _ EA), (zsame_unit _ _ _ EB). rewrite <- !zt_mulv, <- ES.
    destruct HS as ((HO & _) & _). rewrite !unitv_turn by (apply orth_tr; exact HO). rewrite outer_scv. f_equal; ring.
Qed.

(** ** elastic moduli: the rotations of the cube do not mix the two groups of components *)
Definition mono (S : M3) : Prop :=
  (a00 S * a01 S = 0 /\ a00 S * a02 S = 0 /\ a01 S * a02 S = 0) /\ (a10 S * a11 S = 0 /\ a10 S * a12 S = 0 /\ a11 S * a12 S = 0) /\
  (a20 S * a21 S = 0 /\ a20 S * a22 S = 0 /\ a21 S * a22 S = 0) /\ (a00 S * a10 S = 0 /\ a00 S * a20 S = 0 /\ a10 S * a20 S = 0) /\
  (a01 S * a11 S = 0 /\ a01 S * a21 S = 0 /\ a11 S * a21 S = 0) /\ (a02 S * a12 S = 0 /\ a02 S * a22 S = 0 /\ a12 S * a22 S = 0).
Definition monoZ (z : Z9) : bool := let '((a, b, c), (d, e, f), (g, h, k)) := z in
  forallb (fun p => Z.eqb (fst p * snd p) 0) [(a, b); (a, c); (b, c); (d, e); (d, f); (e, f); (g, h); (g, k); (h, k);
    (a, d); (a, g); (d, g); (b, e); (b, h); (e, h); (c, f); (c, k); (f, k)].
Lemma monoZ_all : forallb monoZ all9 = true. Proof. vm_compute. reflexivity. Qed.
Lemma cubic_mono S : cubic_rot S -> mono S.
Proof.
  intros HS. destruct (cubic_int S HS) as (z & Hz & ->). pose proof monoZ_all as H. rewrite forallb_forall in H. specialize (H z Hz).
  destruct z as [[[[a b] c] [[d e] f]] [[g h] k]]. unfold monoZ in H. rewrite forallb_forall in H.
  assert (K : forall x y, In (x, y) [(a, b); (a, c); (b, c); (d, e); (d, f); (e, f); (g, h); (g, k); (h, k);
    (a, d); (a, g); (d, g); (b, e); (b, h); (e, h); (c, f); (c, k); (f, k)] -> IZR x * IZR y = 0).
  { intros x y I. specialize (H (x, y) I). apply Z.eqb_eq in H. cbn [fst snd] in H. rewrite <- mult_IZR, H. reflexivity. }
  unfold mono, m9. cbn [a00 a01 a02 a10 a11 a12 a20 a21 a22].
  repeat split; apply K; cbn [In]; tauto.
Qed.
Lemma HK_of S K i j : mono S -> (i < 5)%nat -> (j < 5)%nat -> get K 1 = get K 0 -> get K 3 = get K 2 -> get K 4 = get K 2 ->
  get2 5 (rmat S) j i * (get K i - get K j) = 0.
Proof.
  intros HM Hi Hj K1 K3 K4.
  assert (D : get K i = get K j \/ (i < 2 /\ 2 <= j)%nat \/ (2 <= i /\ j < 2)%nat).
  { destruct i as [|[|[|[|[|]]]]]; [..|lia]; destruct j as [|[|[|[|[|]]]]]; try lia; try (right; lia); left; congruence. }
  destruct D as [D|D]; [rewrite D; ring|]. assert (E : get2 5 (rmat S) j i = 0); [|rewrite E; ring].
  clear K1 K3 K4. destruct S as [e1 e2 e3 e4 e5 e6 e7 e8 e9]. unfold mono in HM. cbn [a00 a01 a02 a10 a11 a12 a20 a21 a22] in HM.
  destruct HM as ((M1 & M2 & M3) & (M4 & M5 & M6) & (M7 & M8 & M9) & (N1 & N2 & N3) & (N4 & N5 & N6) & (N7 & N8 & N9)).
  destruct i as [|[|[|[|[|]]]]]; [..|lia]; destruct j as [|[|[|[|[|]]]]]; try lia; clear D Hi Hj;
    unfold rmat, ofM3, get_rot_mat_vecd; rarr; cbn [a00 a01 a02 a10 a11 a12 a20 a21 a22];
    rewrite ?Rmult_assoc, ?M1, ?M2, ?M3, ?M4, ?M5, ?M6, ?M7, ?M8, ?M9, ?N1, ?N2, ?N3, ?N4, ?N5, ?N6, ?N7, ?N8, ?N9; ring.
Qed.
