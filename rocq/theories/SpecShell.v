(** A small part of the shell: enough to say what the pre-push hook does. *)
From Coq Require Import Ascii String List Arith.
From Verif Require Import PyStr SpecNames SpecImports SpecText SpecMypy.
Import ListNotations.
Local Open Scope string_scope.
Local Open Scope nat_scope.

(** Text that stands for itself between double quotes, and text that needs no quotes. *)
Definition safe (s : string) : Prop := Forall (fun c => ~ In (code c) [10; 34; 36; 92; 96]) (chars s).
Definition bare_char (c : ascii) : Prop := 48 <= code c <= 57 \/ 65 <= code c <= 90 \/ 97 <= code c <= 122 \/ In (code c) [45; 46; 47; 95].
Inductive Token : string -> string -> Prop :=
  | token_bare : forall s, s <> "" -> Forall bare_char (chars s) -> Token s s
  | token_double : forall s, safe s -> Token (String (ascii_of_nat 34) (s ++ String (ascii_of_nat 34) "")) s
  | token_single : forall s, Forall (fun c => code c <> 39 /\ code c <> 10) (chars s) -> Token ("'" ++ s ++ "'") s.
Inductive action : Type := Nothing | Says | Chdir (d : string) | Call (words : list string) | IfSuccess | Else | EndIf | Leave (n : nat).
Definition keywords : list string := ["echo"; "cd"; "if"; "then"; "else"; "fi"; "exit"].
(** The actions of the lines of a script.  A text that is printed may have a line feed in it. *)
Inductive Script : list string -> list action -> Prop :=
  | script_end : Script [] []
  | script_empty : forall r l, Script r l -> Script ("" :: r) (Nothing :: l)
  | script_comment : forall t r l, Script r l -> Script (("#" ++ t) :: r) (Nothing :: l)
  | script_echo : forall sp t s r l, blank sp -> Token t s -> Script r l -> Script ((sp ++ "echo " ++ t) :: r) (Says :: l)
  | script_echo_two : forall sp s r l, blank sp -> safe s -> Script r l -> Script ((sp ++ "echo " ++ String (ascii_of_nat 34) s) :: String (ascii_of_nat 34) "" :: r) (Says :: l)
  | script_cd : forall t d r l, Token t d -> Script r l -> Script (("cd " ++ t) :: r) (Chdir d :: l)
  | script_call : forall ts w ws r l line, Forall2 Token ts (w :: ws) -> ~ In w keywords -> Joined " " ts line -> Script r l -> Script (line :: r) (Call (w :: ws) :: l)
  | script_if : forall r l, Script r l -> Script ("if [ $? -eq 0 ]; then" :: r) (IfSuccess :: l)
  | script_else : forall r l, Script r l -> Script ("else" :: r) (Else :: l)
  | script_fi : forall r l, Script r l -> Script ("fi" :: r) (EndIf :: l)
  | script_exit : forall sp n r l, blank sp -> n < 256 -> Script r l -> Script ((sp ++ "exit " ++ str_of_nat n) :: r) (Leave n :: l).
(** What a script without nested conditions does, for programs that answer with a status in a directory: the programs
    called, where, and the final status.  Directories are assumed to exist. *)
Fixpoint executes (answer : string -> list string -> nat) (cwd : string) (status : nat) (skip : bool) (l : list action) : list (string * list string) * nat :=
  match l with
  | [] => ([], status)
  | a :: r =>
      if skip then match a with Else | EndIf => executes answer cwd status false r | _ => executes answer cwd status true r end
      else match a with
           | Nothing | EndIf => executes answer cwd status false r
           | Says => executes answer cwd 0 false r
           | Chdir d => executes answer d 0 false r
           | Call ws => let (cs, n) := executes answer cwd (answer cwd ws) false r in ((cwd, ws) :: cs, n)
           | IfSuccess => executes answer cwd status (negb (Nat.eqb status 0)) r
           | Else => executes answer cwd status true r
           | Leave n => ([], n)
           end
  end.
