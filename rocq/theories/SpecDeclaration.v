(** What the renaming of a declaration is, written from data_type_tree.py:228-244 and the documentation of the module re,
    without reference to the model. *)
From Coq Require Import Ascii String List Arith.
From Verif Require Import SpecNames SpecText SpecYaml.
Import ListNotations.
Local Open Scope string_scope.

(** Characters that [\w] matches. *)
Definition word_character (c : ascii) : Prop := id_continue c /\ code c <> 183 \/ In (code c) [178; 179; 185; 188; 189; 190].

(** [x] begins with the letters "class", white space and the whole word [n]; [rest] is what follows. *)
Definition class_head (x n rest : string) : Prop :=
  exists gap, x = "class" ++ gap ++ n ++ rest /\ gap <> "" /\ blank gap /\ n <> "" /\ Forall word_character (chars n) /\
    (rest = "" \/ exists c r, rest = String c r /\ ~ word_character c).
Definition no_head (x : string) : Prop := forall n rest, ~ class_head x n rest.

(** [n] is the name after the first such place of the text. *)
Inductive First_head : string -> string -> Prop :=
  | first_here : forall x n rest, class_head x n rest -> First_head x n
  | first_later : forall c x n, no_head (String c x) -> First_head x n -> First_head (String c x) n.

(** The text with "class new" at all these places. *)
Inductive Heads_replaced (new : string) : string -> string -> Prop :=
  | heads_nil : Heads_replaced new "" ""
  | heads_head : forall x n rest y, class_head x n rest -> Heads_replaced new rest y -> Heads_replaced new x ("class " ++ new ++ y)
  | heads_skip : forall c x y, no_head (String c x) -> Heads_replaced new x y -> Heads_replaced new (String c x) (String c y).

Definition equals_sign : ascii := "="%char.

(** [Renames new d d' old]: the declaration [d] becomes [d'], and its old name is said to be [old]. *)
Inductive Renames (new : string -> string) : string -> string -> string -> Prop :=
  | renames_value : forall before after kept old, ~ In equals_sign (chars before) -> Trimmed before old ->
      chars kept = filter (fun c => negb (Ascii.eqb c equals_sign)) (chars after) ->
      Renames new (before ++ "=" ++ after) (new old ++ " =" ++ kept) old
  | renames_class : forall d d' old, ~ In equals_sign (chars d) -> (exists r, d = "class " ++ r) ->
      First_head d old -> Heads_replaced (new old) d d' -> Renames new d d' old
  | renames_nothing : forall d, ~ In equals_sign (chars d) -> (forall r n, d = "class " ++ r -> ~ First_head d n) ->
      Renames new d d "".
