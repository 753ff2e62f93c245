(** Property theorems C61: the library built with the option USE_DPEFF ("output effective D^p rather than effective
    shearing rates") compared with the default build.  Words used are in SpecDp.v. *)
From Coq Require Import List ZArith Bool Lia Reals Lra String.
From Verif Require Import Num NumR Hard Evptn MatModel EvptnDp Cases SpecTensor SpecSlip SpecApi SpecStep SpecDp P_Batch3 P_Api P_Builtin P_Hist P_Demo P_Demo4 P_Dp5 P_Demo19.
Import ListNotations.
Local Open Scope R_scope.

(** ** The option changes nothing but the two values it is documented to change. *)
(** Any arithmetic, any solvers: calls on buffers that agree except for the first two history values of the points have
    the same outcome and leave buffers that agree in the same sense. *)
Theorem C61_same {T} {N : Num T} (c : MClass T) s solver lu dt mtan n m m' : reachable c s -> batch_ok c s mtan n m -> same_but s n m m' ->
  fst (mm_getResponse_dp solver lu c s dt mtan (Z.of_nat n) m') = fst (mm_getResponse solver lu c s dt mtan (Z.of_nat n) m) /\
  same_but s n (snd (mm_getResponse solver lu c s dt mtan (Z.of_nat n) m)) (snd (mm_getResponse_dp solver lu c s dt mtan (Z.of_nat n) m')).
Proof. exact (call_same c s solver lu dt mtan n m m'). Qed.
(** So a program that uses the library cannot tell the builds apart by anything else, after any number of calls. *)
Theorem C61_program {T} {N : Num T} (c : MClass T) s n l m m' : reachable c s ->
  (forall u, In u l -> batch_ok c s (u_mtan u) n m) -> same_but s n m m' ->
  let call f u := f (u_solver u) (u_lu u) c s (u_dt u) (u_mtan u) (Z.of_nat n) in
  fst (program (call mm_getResponse_dp) l m') = fst (program (call mm_getResponse) l m) /\
  same_but s n (snd (program (call mm_getResponse) l m)) (snd (program (call mm_getResponse_dp) l m')).
Proof. intros HR. exact (program_same c s n HR l m m'). Qed.

(** ** The first value is the effective plastic deformation rate of the stored slip rates, the second its time integral. *)
Theorem C61_rate hs c b i pars md sd : good_dp hs c b -> (i < b_n b)%nat -> in_use c (b_s b) pars -> systems hs c pars md sd ->
  val (b_s b) (b_m1 b) AH i 0 = sqrt (2 / 3) * norm3t (plastic_rate c md sd (b_s b) (b_m1 b) i) /\
  val (b_s b) (b_m1 b) AH i 1 = val (b_s b) (b_m b) AH i 1 + b_dt b * val (b_s b) (b_m1 b) AH i 0.
Proof. intros G Hi U S. destruct (dp_rate hs c b i pars md sd G Hi U S) as (A & B & _). exact (conj A B). Qed.
(** over any number of calls; it never decreases *)
Theorem C61_strain hs c i l b0 : chain_dp hs c [AH] (b0 :: l) -> (i < b_n b0)%nat ->
  (forall b, In b (b0 :: l) -> 0 <= b_dt b /\ exists p, in_use c (b_s b) p /\ exists md sd, systems hs c p md sd) ->
  let bl := last (b0 :: l) b0 in
  val (b_s bl) (b_m1 bl) AH i 1 = val (b_s b0) (b_m b0) AH i 1 + fold_right (fun b a => b_dt b * val (b_s b) (b_m1 b) AH i 0 + a) 0 (b0 :: l) /\
  val (b_s b0) (b_m b0) AH i 1 <= val (b_s bl) (b_m1 bl) AH i 1.
Proof. exact (chain_dp_strain hs c i l b0). Qed.
(** it is at most the effective shear rate that the default build reports, divided by the square root of 3 *)
Theorem C61_bound hs c b i pars md sd : good_dp hs c b -> (i < b_n b)%nat -> in_use c (b_s b) pars -> systems hs c pars md sd ->
  let default := mm_getResponse (b_solver b) (b_lu b) c (b_s b) (b_dt b) (b_mtan b) (Z.of_nat (b_n b)) (b_m b) in
  0 <= b_dt b -> fst default = BRet Done /\
  0 <= val (b_s b) (b_m1 b) AH i 0 <= val (b_s b) (snd default) AH i 0 / sqrt 3.
Proof. exact (dp_le_default hs c b i pars md sd). Qed.

(** the two slots are renamed; number, order, initial values and flags of the history entries do not change *)
Theorem C61_info (c : MClass R) kinH : mm_histInfo_dp c kinH =
  ("dplas_eff", 0, true, true)%string :: ("eps", 0, true, true)%string :: skipn 2 (mm_histInfo c kinH).
Proof. reflexivity. Qed.

(** Two points, three steps of different length: the hypotheses are met. *)
Example C61_case : chain_dp echo demo_c [AH] (dp_hist [/10; 2; 3] demo_m) /\
  (forall b, In b (dp_hist [/10; 2; 3] demo_m) -> 0 <= b_dt b /\ b_n b = 2%nat /\ in_use demo_c (b_s b) demo_pars) /\
  (exists md sd, systems echo demo_c demo_pars md sd) /\ reachable demo_c demo_s /\ batch_ok demo_c demo_s false 2 demo_m.
Proof.
  refine (conj (dp_chain [AH] [/10; 2; 3] demo_m demo_m_pos) (conj _ (conj (d4_systems echo) (conj demo_reach (demo_batch demo_m (fun a => eq_refl)))))).
  intros b [<-|[<-|[<-|[]]]]; (split; [cbn; lra|split; [reflexivity|exact demo_in_use]]).
Qed.

Print Assumptions C61_same.
Print Assumptions C61_program.
Print Assumptions C61_rate.
Print Assumptions C61_strain.
Print Assumptions C61_bound.
Print Assumptions C61_info.
