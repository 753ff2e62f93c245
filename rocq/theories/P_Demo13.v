(** Concrete input files of the mini-app (C56): a reader of plain decimal numbers and a small disk. *)
From Coq Require Import List ZArith Bool Lia PeanoNat Reals Lra Permutation String Ascii.
From Verif Require Import Num Arr NumR Hard MatModel Cases Miniapp MiniFiles SpecFiles SpecApi SpecStep SpecMini P_Mini P_Mini2 P_Mini3 P_Demo P_Demo3 P_Demo8 P_Files P_Files2.
Import ListNotations.
Local Open Scope string_scope.

(** digits, then perhaps a point and digits: all digits as one integer, and how many follow the point *)
Definition digit (c : ascii) : option Z :=
  let n := nat_of_ascii c in if andb (Nat.leb 48 n) (Nat.leb n 57) then Some (Z.of_nat (n - 48)) else None.
Fixpoint digits (s : string) (acc : Z) (point : option nat) : option (Z * nat) :=
  match s with
  | EmptyString => Some (acc, match point with None => O | Some k => k end)
  | String c r => match digit c with
                  | Some d => digits r (10 * acc + d)%Z (option_map S point)
                  | None => if Ascii.eqb c "." then match point with None => digits r acc (Some O) | _ => None end else None
                  end
  end.
Definition decimal (w : string) : option (Z * nat) :=
  match w with
  | String "-" r => option_map (fun p => (- fst p, snd p)%Z) (digits r 0 None)
  | _ => digits w 0 None
  end.
Definition rdR (s : string) : option (R * string) :=
  match rd_word s with
  | None => None
  | Some (w, r) => match decimal w with Some (z, k) => Some ((IZR z / IZR (10 ^ Z.of_nat k))%R, r) | None => None end
  end.
Definition rdU (s : string) : option (Z * string) :=
  match rd_word s with
  | None => None
  | Some (w, r) => match decimal w with Some (z, O) => if (0 <=? z)%Z then Some (z, r) else None | _ => None end
  end.
(** some numbers in place of the generator *)
Definition drawI (k : nat) : R := INR (S k).

Definition cat (ls : list string) : string := fold_right (fun l s => l ++ eol ++ s) "" ls.
Definition d13_props : list string :=
  ["3"; "2"; "0.01"; "3"; "1"; "1"; "1"; "0.1"; "1"; "1"; "1"; "4"; "0.05"; "0.001"; "1"; "1.7"; "-600"].
(** orientation and property files named on the first and third line of the option file *)
Definition disk (ori : list string) (path : string) : option string :=
  if String.eqb path "options" then Some (cat ["quats"; "voce"; "props"; "OpenMP"])
  else if String.eqb path "quats" then Some (cat ori)
  else if String.eqb path "props" then Some (cat d13_props)
  else None.
Definition d13_mem (n nst : nat) : App R :=
  {| ap_vgrad := tab (9 * n) (fun _ => 17%R); ap_stress := tab (6 * n) (fun _ => 17%R);
     ap_m := fun x => tab (n * match x with AD => 7 | AW => 3 | AV => 4 | AE => 1 | AS => 7 | AH => nst | AT => 1 | AB => 2 | AM => 36 end)%nat (fun _ => 17%R) |}.
Lemma d13_sized n nst : sized nst n (d13_mem n nst).
Proof.
  unfold sized, d13_mem. cbn [ap_vgrad ap_stress ap_m]. rewrite !tab_length. split; [reflexivity|]. split; [reflexivity|].
  intros x. rewrite tab_length. destruct x; reflexivity.
Qed.
Definition d13_order (n : nat) : list nat := rev (seq 0 n).
Lemma d13_visits n : visits n (d13_order n).
Proof. apply visits_rev. Qed.

Notation d13_setup ori := (app_setup rdR rdU drawI (disk ori) echo true true d13_mem d13_order ["options"]).
Notation d13_input ori := (app_input rdR rdU drawI (disk ori) ["options"]).

Lemma cat_text ls : Forall (fun l => ~ has "010"%char l) ls -> text (cat ls) ls.
Proof. induction 1; cbn [cat fold_right]; [apply text_empty|now apply text_line]. Qed.
Ltac plain := repeat (apply Forall_cons; [cbn; intuition discriminate|]); apply Forall_nil.
Lemma d13_opened ori : opened (disk ori) ["options"] "quats" "voce" "props" "OpenMP".
Proof. exists "options", ["quats"; "voce"; "props"; "OpenMP"]. split; [reflexivity|]. split; [apply (cat_text ["quats"; "voce"; "props"; "OpenMP"]); plain|now exists []]. Qed.
Lemma d13_ptext ori : file_text (disk ori) "props" d13_props.
Proof. apply (cat_text d13_props). unfold d13_props. plain. Qed.
Lemma d13_rows : rows rdR 1 d13_props demo_pars.
Proof.
  assert (H : forall l x ls xs w z k, rd_word l = Some (w, "") -> decimal w = Some (z, k) -> x = (IZR z / IZR (10 ^ Z.of_nat k))%R -> rows rdR 1 ls xs -> rows rdR 1 (l :: ls) (x :: xs)).
  { intros l x ls xs w z k E1 E2 -> H. apply (proj2 (rows_cons rdR 1 l ls (_ :: xs))). eexists [_], xs. split; [reflexivity|]. split; [reflexivity|].
    split; [|exact H]. econstructor; [|constructor]. unfold rdR. rewrite E1, E2. reflexivity. }
  unfold d13_props, demo_pars.
  repeat (eapply H; [vm_compute; reflexivity|vm_compute; reflexivity|cbv [Z.of_nat Pos.of_succ_nat Pos.succ Z.pow Z.pow_pos Pos.iter Z.mul Pos.mul Pos.add]; lra|]). apply rows_nil.
Qed.

(** Any orientation file that is read starts the run. *)
Lemma d13_started ori n q : (0 <= n)%Z -> d13_input ori = Input n q "voce" "OpenMP" demo_pars ->
  exists s a, d13_setup ori = Started (Z.to_nat n) demo_c s 28 OPENMP a.
Proof.
  intros Hn E. unfold app_setup. rewrite E. destruct (voce_ready echo true true "OpenMP" OPENMP eq_refl) as [s HM].
  rewrite HM. destruct (Z.ltb_spec n 0); [lia|]. 
  destruct (main_start _ _ _ _ _ _ _ _ _ _ (Z.to_nat n) q (d13_order (Z.to_nat n)) _ HM (d13_sized (Z.to_nat n) 28) (d13_visits _)) as (h & a1 & E1 & E2 & _).
  rewrite E2. exists s, a1. reflexivity.
Qed.
Lemma d13_data ori w k q : Forall (fun l => ~ has "010"%char l) ori -> header rdU (hd "" ori) w k -> w <> "#random" ->
  rows rdR 4 (tl ori) q -> exists s a, d13_setup ori = Started (List.length (tl ori)) demo_c s 28 OPENMP a.
Proof.
  intros HF HH NE HR.
  assert (E : d13_input ori = Input (Z.of_nat (List.length (tl ori))) q "voce" "OpenMP" demo_pars).
  { apply (input_data rdR rdU drawI (disk ori) ["options"] "quats" "voce" "props" "OpenMP" w k ori d13_props).
    - apply d13_opened.
    - exact (cat_text ori HF).
    - apply d13_ptext.
    - exact HH.
    - exact NE.
    - auto using d13_rows. }
  destruct (d13_started ori _ q (Nat2Z.is_nonneg _) E) as (s & a & H). rewrite Nat2Z.id in H. eauto.
Qed.
Lemma d13_random ori k : Forall (fun l => ~ has "010"%char l) ori -> header rdU (hd "" ori) "#random" k ->
  d13_input ori = Input (to_int k) (rand_quats drawI (Z.to_nat k)) "voce" "OpenMP" demo_pars.
Proof.
  intros HF HH. apply (input_random rdR rdU drawI (disk ori) ["options"] "quats" "voce" "props" "OpenMP" k ori d13_props).
  - apply d13_opened.
  - exact (cat_text ori HF).
  - apply d13_ptext.
  - exact HH.
  - auto using d13_rows.
Qed.
