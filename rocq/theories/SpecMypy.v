(** What mypy prints and what a scan should say about it, without reference to the model of the tool. *)
From Coq Require Import Ascii String List Arith.
From Verif Require Import SpecNames SpecFrame.
Import ListNotations.
Local Open Scope string_scope.
Local Open Scope nat_scope.

(** A line of mypy is an error (where, what, code) or something else: a note or the summary. *)
Inductive item : Type := Problem (where_ what code : string) | Remark (text : string).
Definition said (what code : string) : string := what ++ "  [" ++ code ++ "]".
Definition item_line (i : item) : string :=
  match i with Problem p m c => p ++ ": error: " ++ said m c | Remark t => t end.
Definition line_feed : string := String (ascii_of_nat 10) "".
Fixpoint report (l : list item) : string :=
  match l with [] => "" | i :: r => item_line i ++ line_feed ++ report r end.
Fixpoint problems (l : list item) : list string :=
  match l with [] => [] | Problem _ m c :: r => said m c :: problems r | Remark _ :: r => problems r end.

Definition occurs (sub s : string) : Prop := exists a b, s = a ++ sub ++ b.

(** Printable ASCII without apostrophe and backslash. *)
Definition plain_char (c : ascii) : Prop := 32 <= code c <= 126 /\ code c <> 39 /\ code c <> 92.
Definition plain (s : string) : Prop := Forall plain_char (chars s).
(** Nothing in the text could be taken for an error. *)
Definition quiet (s : string) : Prop := plain s /\ ~ occurs "error: " s /\ ~ occurs "]" s.
Definition regular (i : item) : Prop :=
  match i with
  | Problem p m c => quiet (p ++ ": ") /\ plain (said m c) /\ ~ occurs "error: " (said m c)
  | Remark t => quiet t
  end.

(** [kept P l l']: [l'] is [l] without the elements that satisfy [P]. *)
Inductive kept {A : Type} (P : A -> Prop) : list A -> list A -> Prop :=
  | kept_nil : kept P [] []
  | kept_drop : forall x l l', P x -> kept P l l' -> kept P (x :: l) l'
  | kept_keep : forall x l l', ~ P x -> kept P l l' -> kept P (x :: l) (x :: l').

(** ** Lines *)
(** No line boundary of [str.splitlines]. *)
Definition one_line_text (s : string) : Prop := Forall (fun c => ~ In (code c) [10; 11; 12; 13; 28; 29; 30; 133]) (chars s).
Fixpoint lines_text (l : list string) : string := match l with [] => "" | x :: r => x ++ line_feed ++ lines_text r end.

(** An argument of a command: not empty, without blanks. *)
Definition one_word (s : string) : Prop := s <> "" /\ Forall (fun c => code c <> 32) (chars s).

(** A working mypy: it is called "mypy" and answers what [answer] says about a file. *)
Definition mypy_arguments (strict : bool) (version file : string) : list string :=
  ("mypy" :: (if strict then ["--strict"] else []) ++ ["--python-version"; version; file])%list.

(** The value of a Python bytes literal. *)
Definition bytes_value (s : string) : option string :=
  match s with String b r => if Ascii.eqb b "b" then string_value r else None | EmptyString => None end.

(** The arguments of the process that checks a text. *)
Definition mypy_text_arguments (strict : bool) (version text : string) : list string :=
  if strict then ["python3"; "-m"; "poetry"; "run"; "mypy"; "--strict"; "--python-version"; version; "-c"; text]
  else ["python3"; "-m"; "poetry"; "run"; "mypy"; "--python-version"; version; "-c"; text].
