(** What the input files of the mini-app say. *)
From Coq Require Import List ZArith String Ascii.
Import ListNotations.
Local Open Scope string_scope.

(** the line end, and strings without it *)
Definition eol : string := String "010"%char "".
Fixpoint has (c : ascii) (s : string) : Prop := match s with EmptyString => False | String d r => c = d \/ has c r end.
(** A text and its lines: each line ends with a line end, except that the last may do without. *)
Inductive text : string -> list string -> Prop :=
| text_empty : text "" []
| text_last l : l <> "" -> ~ has "010"%char l -> text l [l]
| text_line l s ls : ~ has "010"%char l -> text s ls -> text (l ++ eol ++ s) (l :: ls).
(** the lines of a file; a missing file has none *)
Definition file_text (fs : string -> option string) (path : string) (ls : list string) : Prop :=
  match fs path with Some s => text s ls | None => ls = [] end.

Definition space (c : ascii) : Prop := In c [" "; "009"; "010"; "011"; "012"; "013"]%char.
(** [line] is blanks, then [word], then [rest] *)
Definition first_word (line word rest : string) : Prop :=
  exists b, line = b ++ word ++ rest /\ (forall c, has c b -> space c) /\ word <> "" /\ (forall c, has c word -> ~ space c) /\
            (rest = "" \/ exists c r, rest = String c r /\ space c).

Section Numbers.
  Context {T : Type} (rd_dbl : string -> option (T * string)) (rd_uint : string -> option (Z * string)).
  (** [line] begins with the numbers [xs] *)
  Inductive numbers : string -> list T -> Prop :=
  | numbers_nil s : numbers s []
  | numbers_cons s x r xs : rd_dbl s = Some (x, r) -> numbers r xs -> numbers s (x :: xs).
  (** every line begins with [k] numbers, which are [xs] together *)
  Definition rows (k : nat) (ls : list string) (xs : list T) : Prop :=
    exists rs, List.length rs = List.length ls /\ xs = List.concat rs /\
    forall i, (i < List.length ls)%nat -> List.length (nth i rs []) = k /\ numbers (nth i ls "") (nth i rs []).
  (** line [i] (from 1) is the first that does not begin with [k] numbers *)
  Definition first_bad (k : nat) (ls : list string) (i : nat) : Prop :=
    (1 <= i <= List.length ls)%nat /\ (forall xs, List.length xs = k -> ~ numbers (nth (i - 1) ls "") xs) /\
    (forall j, (1 <= j < i)%nat -> exists xs, List.length xs = k /\ numbers (nth (j - 1) ls "") xs).
  (** the first line of the orientation file: keyword and number *)
  Definition header (line word : string) (k : Z) : Prop :=
    exists rest r', first_word line word rest /\ rd_uint rest = Some (k, r').
  (** the option file: four lines, anything after them *)
  Definition options (ls : list string) (ori model prop device : string) : Prop :=
    exists more, ls = ori :: model :: prop :: device :: more.
End Numbers.
(** The program was given one argument, an option file with at least four lines. *)
Definition opened (fs : string -> option string) (args : list string) (ori model prop device : string) : Prop :=
  exists opt ls, args = [opt] /\ file_text fs opt ls /\ options ls ori model prop device.

(** the random orientations: [k] unit quaternions along the numbers drawn, four for each *)
From Coq Require Import Reals.
Definition drawn (draw : nat -> R) (k : nat) (quats : list R) : Prop :=
  List.length quats = (4 * k)%nat /\ forall i, (i < k)%nat ->
  let d j := draw (4 * i + j)%nat in let q j := nth (4 * i + j) quats 0%R in
  let norm2 v := (v 0%nat ^ 2 + v 1%nat ^ 2 + v 2%nat ^ 2 + v 3%nat ^ 2)%R in
  norm2 d <> 0%R -> norm2 q = 1%R /\ exists r, (0 < r)%R /\ forall j, (j < 4)%nat -> d j = (r * q j)%R.
