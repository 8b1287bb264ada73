(** How the lines of a block comment become one text, line by line.  Written from the description of the feature (paragraphs,
    sentences), with strings only. *)
From Coq Require Import Ascii String List Arith.
From Verif Require Import SpecNames SpecYaml.
Import ListNotations.
Local Open Scope string_scope.
Local Open Scope nat_scope.

Definition line_feed : string := String (ascii_of_nat 10) "".
Definition full_stop (s : string) : Prop := exists u, s = u ++ ".".
(** Capital letters of Latin-1, and the capital form of a character (the micro sign and y with diaeresis, whose capitals are not
    in Latin-1, are left alone). *)
Definition capital (c : ascii) : Prop := in_range 65 90 c \/ in_range 192 214 c \/ in_range 216 222 c.
Definition small (c : ascii) : Prop := in_range 97 122 c \/ in_range 224 246 c \/ in_range 248 254 c.
Inductive Upper : ascii -> string -> Prop :=
  | upper_sharp_s : forall c, code c = 223 -> Upper c "SS"
  | upper_small : forall c d, small c -> code d + 32 = code c -> Upper c (String d "")
  | upper_other : forall c, code c <> 223 -> ~ small c -> Upper c (String c "").
Inductive Capital : string -> string -> Prop :=
  | capital_nil : Capital "" ""
  | capital_first : forall c r u, Upper c u -> Capital (String c r) (u ++ r).
Definition starts_capital (s : string) : Prop := exists c r, s = String c r /\ capital c.

(** [Following prev ls t]: the text [t] for the lines [ls] after the line [prev]. *)
Inductive Following : string -> list string -> string -> Prop :=
  | following_end : forall prev, Following prev [] ""
  | following_blank : forall prev ls t, Following "" ls t -> Following prev ("" :: ls) (line_feed ++ line_feed ++ t)
  | following_paragraph : forall l ls l' t, l <> "" -> Capital l l' -> Following l ls t -> Following "" (l :: ls) (l' ++ t)
  | following_sentence : forall prev l ls l' t, l <> "" -> full_stop prev -> Capital l l' -> Following l ls t -> Following prev (l :: ls) (" " ++ l' ++ t)
  | following_stop : forall prev l ls t, prev <> "" -> ~ full_stop prev -> starts_capital l -> Following l ls t -> Following prev (l :: ls) (". " ++ l ++ t)
  | following_word : forall prev l ls t, l <> "" -> prev <> "" -> ~ full_stop prev -> ~ starts_capital l -> Following l ls t -> Following prev (l :: ls) (" " ++ l ++ t).

(** Empty lines at both ends are dropped; the text ends with a full stop. *)
Inductive Comment_text : list string -> string -> Prop :=
  | comment_empty : forall ls, Forall (eq "") ls -> Comment_text ls ""
  | comment_lines : forall before l ls after t last_line, Forall (eq "") before -> Forall (eq "") after -> l <> "" -> Following l ls t ->
      last_line <> "" -> (exists r, l :: ls = r ++ [last_line])%list ->
      forall stop, (full_stop last_line /\ stop = "") \/ (~ full_stop last_line /\ stop = ".") ->
      Comment_text (before ++ (l :: ls) ++ after) (l ++ t ++ stop).

(** All occurrences of [p] are deleted, from left to right. *)
Inductive Deleted (p : string) : string -> string -> Prop :=
  | deleted_none : forall s, (forall a b, s <> a ++ p ++ b) -> Deleted p s s
  | deleted_first : forall a b b', (forall a' b', a ++ p ++ b = a' ++ p ++ b' -> String.length a <= String.length a') -> Deleted p b b' ->
      Deleted p (a ++ p ++ b) (a ++ b').

(** The whole docstring. *)
Definition three (n : nat) : string := let q := ascii_of_nat n in String q (String q (String q "")).
Definition Docstring_text (texts : list string) (s : string) : Prop :=
  exists j j1 j2, Comment_text texts j /\ Deleted (three 39) j j1 /\ Deleted (three 34) j1 j2 /\ Capital j2 s.

(** The comment lines at the start of a list of lines, with a [#] in column [col], and what they say. *)
Inductive Block (col : nat) : list string -> list string -> Prop :=
  | block_end : Block col [] []
  | block_stop : forall l ls, (forall t, ~ hash_at col l t) -> Block col (l :: ls) []
  | block_more : forall l ls t ts, hash_at col l t -> Block col ls ts -> Block col (l :: ls) (t :: ts).
