(** Camel case, without reference to the model of the tool. *)
From Coq Require Import Ascii String List Arith.
From Verif Require Import SpecNames SpecEmit.
Import ListNotations.
Local Open Scope string_scope.

Definition digit (c : ascii) : Prop := in_range 48 57 c.
Definition begins (P : ascii -> Prop) (s : string) : Prop := exists c r, s = String c r /\ P c.

(** The words of a text: the longest runs of letters and digits. *)
Inductive words_of : string -> list string -> Prop :=
  | no_word : forall gap, Forall (fun c => ~ alnum_char c) (chars gap) -> words_of gap []
  | one_word : forall gap w rest ws, Forall (fun c => ~ alnum_char c) (chars gap) -> w <> "" -> Forall alnum_char (chars w) ->
      ~ begins alnum_char rest -> words_of rest ws -> words_of (gap ++ w ++ rest) (w :: ws).

(** The capital of a character.  Those of U+00B5 and U+00FF are outside of the range of the model. *)
Inductive capital : ascii -> string -> Prop :=
  | cap_letter : forall c d, in_range 97 122 c \/ in_range 224 246 c \/ in_range 248 254 c -> code c = code d + 32 -> capital c (String d "")
  | cap_sharp : forall c, code c = 223 -> capital c "SS"
  | cap_other : forall c, ~ (in_range 97 122 c \/ in_range 223 246 c \/ in_range 248 254 c) -> capital c (String c "").
Inductive capital_word : string -> string -> Prop :=
  | capital_intro : forall c r u, capital c u -> capital_word (String c r) (u ++ r).

(** Leading digits are left out, unless there is nothing else; the words are capitalised and put together. *)
Definition camel (s x : string) : Prop :=
  exists ds rest, s = ds ++ rest /\ Forall digit (chars ds) /\ ~ begins digit rest /\
    (rest = "" -> x = s) /\
    (rest <> "" -> exists ws xs, words_of rest ws /\ Forall2 capital_word ws xs /\ x = String.concat "" xs).

(** What a column of a data frame adds to the name of the class. *)
Definition column_word (s x : string) : Prop := exists w, camel s w /\ (w <> "" -> x = w) /\ (w = "" -> x = "WSpace").
