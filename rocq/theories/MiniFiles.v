(** Model of the part of miniapp/orientation_evolution.cxx that reads the option, orientation and property files.

    Simplifications: a file is the string of its characters, and a file that cannot be opened has none (std::getline on a
    stream that did not open fails at once, also after the clear() of line 162); reading a number with >> and the random
    number generator belong to the C++ library and are arguments: [rd_dbl] and [rd_uint] yield the number and the rest of
    the line, or nothing (failbit); [draw k] is the k-th number drawn from the generator seeded with 42.  Lines are read
    to the end of the file before they are looked at; the code looks at each at once. *)
From Coq Require Import List ZArith Bool String Ascii.
From Verif Require Import Num Util Hard MatModel Cases Miniapp.
Import ListNotations.
Local Open Scope string_scope.

(** What repeated std::getline yields until it fails: the characters between line ends; the last line may lack its end.
    orientation_evolution.cxx:161-170, 189, 228, 253 *)
Fixpoint lines_from (cur : string) (s : string) : list string :=
  match s with
  | EmptyString => if String.eqb cur "" then [] else [cur]
  | String c r => if Ascii.eqb c "010"%char then cur :: lines_from "" r else lines_from (cur ++ String c "") r
  end.
(* orientation_evolution.cxx:165-168, 228, 253 *)
Definition lines (s : string) : list string := lines_from "" s.

(** characters skipped by >>; orientation_evolution.cxx:193, 234, 258 *)
Definition is_space (c : ascii) : bool := existsb (Ascii.eqb c) [" "; "009"; "010"; "011"; "012"; "013"]%char.
Fixpoint skip_space (s : string) : string :=
  match s with String c r => if is_space c then skip_space r else s | EmptyString => s end.
Fixpoint take_word (s : string) : string * string :=
  match s with
  | EmptyString => ("", "")
  | String c r => if is_space c then ("", s) else (String c (fst (take_word r)), snd (take_word r))
  end.
(** >> into a std::string; orientation_evolution.cxx:191-193 *)
Definition rd_word (s : string) : option (string * string) :=
  match skip_space s with EmptyString => None | t => Some (take_word t) end.

Section Files.
  Context {T : Type} {N : Num T}.
  Variables (rd_dbl : string -> option (T * string)) (rd_uint : string -> option (Z * string)) (draw : nat -> T).
  (** the files on disk *)
  Variable fs : string -> option string.

  (* orientation_evolution.cxx:161, 186, 251 *)
  Definition file_lines (path : string) : list string := match fs path with Some s => lines s | None => [] end.

  (** How the reading of the input ends: one of the messages followed by return 1, with the line number it contains, or
      nqpts, quats, mat_model_str, device_type and mat_props. *)
  Inductive AppInput := BadUsage | BadOptions | BadHeader | BadQuat (line : nat) | BadProp (line : nat)
  | Input (nqpts : Z) (quats : list T) (mat_model_str device_type : string) (mat_props : list T).

  (** iss >> q1 >> q2 >> q3 >> q4; orientation_evolution.cxx:229-237 *)
  Definition rd_quat (line : string) : option (list T) :=
    match rd_dbl line with
    | None => None
    | Some (q1, r1) =>
      match rd_dbl r1 with
      | None => None
      | Some (q2, r2) =>
        match rd_dbl r2 with
        | None => None
        | Some (q3, r3) => match rd_dbl r3 with None => None | Some (q4, _) => Some [q1; q2; q3; q4] end
        end
      end
    end.
  (** The while loop, orientation_evolution.cxx:227-241; [nqpts] lines have been read; on the right the line number of the message. *)
  Fixpoint rd_quats (ls : list string) (nqpts : nat) (quats : list T) : (nat * list T) + nat :=
    match ls with
    | [] => inl (nqpts, quats)
    | l :: r => let n := S nqpts in
                match rd_quat l with None => inr n | Some q => rd_quats r n (quats ++ q) end
    end.
  (** The while loop, orientation_evolution.cxx:253-264. *)
  Fixpoint rd_props (ls : list string) (mp_nlines : nat) (props : list T) : list T + nat :=
    match ls with
    | [] => inl props
    | l :: r => let n := S mp_nlines in
                match rd_dbl l with None => inr n | Some (p, _) => rd_props r n (props ++ [p]) end
    end.
  (** The loop of orientation_evolution.cxx:213-225. *)
  Fixpoint rand_quats (n : nat) : list T :=
    match n with
    | O => []
    | S i => rand_quats i ++ vecsVNormalize 4 [draw (4 * i); draw (4 * i + 1); draw (4 * i + 2); draw (4 * i + 3)]
    end.
  (** nqpts = quat_nrand: an unsigned int stored in an int; orientation_evolution.cxx:203 *)
  Definition to_int (z : Z) : Z := if (z <? 2147483648)%Z then z else (z - 4294967296)%Z.

  (** Quaternions; orientation_evolution.cxx:179-243 *)
  Definition rd_ori (ls : list string) : AppInput + (Z * list T) :=
    let line := hd "" ls in
    match rd_word line with
    | None => inl BadHeader
    | Some (tmp_str, r) =>
      match rd_uint r with
      | None => inl BadHeader
      | Some (quat_nrand, _) =>
        if String.eqb tmp_str "#random" then inr (to_int quat_nrand, rand_quats (Z.to_nat quat_nrand))
        else match rd_quats (tl ls) 0 [] with
             | inr k => inl (BadQuat k)
             | inl (n, q) => inr (Z.of_nat n, q)
             end
      end
    end.

  (** orientation_evolution.cxx:27-33, 152-265; [args] is argv without the name of the program *)
  Definition app_input (args : list string) : AppInput :=
    match args with
    | [option_file] =>
      match file_lines option_file with
      | ori_file :: mat_model_str :: mat_prop_file :: device_type :: _ =>
        match rd_ori (file_lines ori_file) with
        | inl e => e
        | inr (nqpts, quats) =>
          match rd_props (file_lines mat_prop_file) 0 [] with
          | inr k => BadProp k
          | inl props => Input nqpts quats mat_model_str device_type props
          end
        end
      | _ => BadOptions
      end
    | _ => BadUsage
    end.

  (** From the arguments of the program to the first step, orientation_evolution.cxx:27-375: [inl] the message of the
      input, [Refused] the other messages, or the model and the arrays.  A negative number of points makes the allocation
      of line 358 throw (sizes are exact integers here).  [mem n nst] is the memory as allocated, [qs] the order of the loop of init_data. *)
  Variable hsolver : Solver T.
  Inductive AppSetup := Message (m : AppInput) | Ended (e : AppEnd T)
  | Started (n : nat) (c : MClass T) (s : MM T) (nst : nat) (dev : Exec) (a : App T).
  Definition app_setup (openmp gpu : bool) (mem : nat -> nat -> App T) (order : nat -> list nat) (args : list string) : AppSetup :=
    match app_input args with
    | Input nqpts quats model device props =>
      match app_main hsolver openmp gpu model device props with
      | Ready c s nst dev =>
        if (nqpts <? 0)%Z then Ended Thrown else
        let n := Z.to_nat nqpts in
        match app_start c s quats n (order n) nst (mem n nst) with
        | Some a => Started n c s nst dev a
        | None => Ended Thrown
        end
      | e => Ended e
      end
    | m => Message m
    end.
End Files.
Arguments AppInput T : clear implicits.
Arguments AppSetup T : clear implicits.
Arguments BadUsage {T}. Arguments BadOptions {T}. Arguments BadHeader {T}. Arguments BadQuat {T}. Arguments BadProp {T}.
