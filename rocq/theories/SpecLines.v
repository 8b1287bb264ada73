(** The lines of a text, for every text: what ends a line and what is a line. *)
From Coq Require Import Ascii String List Arith.
From Verif Require Import SpecNames SpecMypy.
Import ListNotations.
Local Open Scope string_scope.
Local Open Scope nat_scope.

Definition ends_line (c : ascii) : Prop := In (code c) [10; 11; 12; 13; 28; 29; 30; 133].
(** A carriage return and the line feed after it end one line; text after the last end is a line if there is any. *)
Inductive Lines : string -> list string -> Prop :=
  | lines_none : Lines "" []
  | lines_last : forall l, l <> "" -> one_line_text l -> Lines l [l]
  | lines_more : forall l c s ls, one_line_text l -> ends_line c -> (code c = 13 -> forall r, s <> String (ascii_of_nat 10) r) -> Lines s ls -> Lines (l ++ String c s) (l :: ls)
  | lines_both : forall l s ls, one_line_text l -> Lines s ls -> Lines (l ++ String (ascii_of_nat 13) (String (ascii_of_nat 10) s)) (l :: ls).
