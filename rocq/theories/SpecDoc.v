(** What a docstring looks like, without reference to how it is made. *)
From Coq Require Import Ascii String List Arith.
From Verif Require Import SpecNames SpecText SpecImports.
Import ListNotations.
Local Open Scope string_scope.
Local Open Scope nat_scope.

Definition feed : string := String (ascii_of_nat 10) "".
Definition one_line (s : string) : Prop := forall c, In c (chars s) -> code c <> 10.
Definition quotes3 : string := String (ascii_of_nat 34) (String (ascii_of_nat 34) (String (ascii_of_nat 34) "")).
(** Without the line feeds at the end, and with a period there. *)
Inductive Dotted (s : string) : string -> Prop :=
  | dotted_has : forall t e, s = t ++ e -> Forall (fun c => code c = 10) (chars e) -> (forall u, t <> u ++ feed) -> (exists u, t = u ++ ".") -> Dotted s t
  | dotted_adds : forall t e, s = t ++ e -> Forall (fun c => code c = 10) (chars e) -> (forall u, t <> u ++ feed) -> (~ exists u, t = u ++ ".") -> Dotted s (t ++ ".").
(** Words filled into lines: a line takes as many words as fit into [max] characters, but at least one. *)
Inductive Filled (max : nat) : list string -> list string -> Prop :=
  | filled_none : Filled max [] []
  | filled_line : forall w k r line ls, Joined " " (w :: k) line -> k = [] \/ String.length line <= max ->
      (r = [] \/ exists v r', r = v :: r' /\ max < String.length line + 1 + String.length v) -> Filled max r ls ->
      Filled max (w :: k ++ r) (line :: ls).
(** An empty line stays, one of blanks disappears. *)
Inductive Wrapped (max : nat) : string -> list string -> Prop :=
  | wrapped_empty : Wrapped max "" [""]
  | wrapped_words : forall line ws ls, line <> "" -> Words line ws -> Filled max ws ls -> Wrapped max line ls.
(** On one line if it has no line feed and fits with its quotes or would give a single line anyway, otherwise as a block. *)
Definition in_one_line (max : nat) (d : string) (lines : list string) : Prop := one_line d /\ (String.length d + 6 <= max \/ List.length lines = 1).
Inductive Docstring (max : nat) (ind s : string) : string -> Prop :=
  | docstring : forall d parts wrapped out, Dotted s d -> parts <> [] -> Joined feed parts d -> Forall one_line parts -> Forall2 (Wrapped max) parts wrapped ->
      (in_one_line max d (concat wrapped) -> out = ind ++ quotes3 ++ d ++ quotes3) ->
      (~ in_one_line max d (concat wrapped) -> Joined feed ((ind ++ quotes3) :: map (fun x => ind ++ x) (concat wrapped) ++ [ind ++ quotes3]) out) ->
      Docstring max ind s out.
