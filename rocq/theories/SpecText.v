(** What the words of a text are, independently of [str.split]. *)
From Coq Require Import Ascii String List Arith.
From Verif Require Import SpecNames.
Import ListNotations.
Local Open Scope string_scope.

(** White space (code points 0-255) according to the Unicode database. *)
Definition white (c : ascii) : Prop :=
  In (code c) [9; 10; 11; 12; 13; 28; 29; 30; 31; 32; 133; 160].

Definition blank (s : string) : Prop := Forall white (chars s).

(** A word is a non-empty run of non-white characters. *)
Definition word (w : string) : Prop := w <> "" /\ Forall (fun c => ~ white c) (chars w).

(** [Words s ws]: the words of the text [s] are [ws], in order. *)
Inductive Words : string -> list string -> Prop :=
  | Words_nil : forall s, blank s -> Words s []
  | Words_last : forall b w e, blank b -> word w -> blank e -> Words (b ++ w ++ e) [w]
  | Words_cons : forall b w c s ws, blank b -> word w -> white c -> Words s ws ->
      Words (b ++ w ++ String c s) (w :: ws).
