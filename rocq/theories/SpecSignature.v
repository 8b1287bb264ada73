(** Which typing constructs are looked for in the signature of a function, written from import_manager.py:88-122 and the
    documentation of the module re, without reference to the model. *)
From Coq Require Import Ascii String List Arith.
From Verif Require Import SpecNames SpecText SpecDeclaration.
Import ListNotations.
Local Open Scope string_scope.

(** Characters of a hint: all but white space and the comma. *)
Definition hint_character (c : ascii) : Prop := ~ white c /\ code c <> 44.
Definition hint (h : string) : Prop := h <> "" /\ Forall hint_character (chars h).
Definition hint_ends (rest : string) : Prop := rest = "" \/ exists c r, rest = String c r /\ ~ hint_character c.

(** [Hints s hs]: [hs] are the hints after the colons of [s]; a colon inside a hint starts no other hint. *)
Inductive Hints : string -> list string -> Prop :=
  | hints_nil : Hints "" []
  | hints_other : forall c s hs, code c <> 58 -> Hints s hs -> Hints (String c s) hs
  | hints_found : forall gap h rest hs, blank gap -> hint h -> hint_ends rest -> Hints rest hs -> Hints (":" ++ gap ++ h ++ rest) (h :: hs)
  | hints_comma : forall gap r hs, blank gap -> Hints (gap ++ "," ++ r) hs -> Hints (":" ++ gap ++ "," ++ r) hs
  | hints_end : forall gap, blank gap -> Hints (":" ++ gap) [].

(** [Result s r]: [r] is the hint after the first arrow that is followed by a hint or by the end of the text. *)
Inductive Result : string -> option string -> Prop :=
  | result_none : Result "" None
  | result_found : forall gap h rest, blank gap -> hint h -> hint_ends rest -> Result ("->" ++ gap ++ h ++ rest) (Some h)
  | result_end : forall gap, blank gap -> Result ("->" ++ gap) (Some "")
  | result_comma : forall gap r o, blank gap -> Result (gap ++ "," ++ r) o -> Result ("->" ++ gap ++ "," ++ r) o
  | result_other : forall c s o, (forall r, String c s <> "->" ++ r) -> Result s o -> Result (String c s) o.

(** The text without the pairs "):". *)
Inductive Unpaired : string -> string -> Prop :=
  | unpaired_nil : Unpaired "" ""
  | unpaired_pair : forall s t, Unpaired s t -> Unpaired ("):" ++ s) t
  | unpaired_other : forall c s t, (forall r, String c s <> "):" ++ r) -> Unpaired s t -> Unpaired (String c s) (String c t).

(** The text without the colons at its end. *)
Definition Uncoloned (s t : string) : Prop :=
  exists e, s = t ++ e /\ Forall (fun c => code c = 58) (chars e) /\ (forall p, t <> p ++ ":").

(** [w] is a whole word of [s]. *)
Definition Whole (w s : string) : Prop :=
  exists a b, s = a ++ w ++ b /\ w <> "" /\ Forall word_character (chars w) /\
    (a = "" \/ exists p c, a = p ++ String c "" /\ ~ word_character c) /\ (b = "" \/ exists c r, b = String c r /\ ~ word_character c).

(** The keyword that stands for a word. *)
Definition Keyword (w k : string) : Prop :=
  In (w, k) [("List", "list"); ("Tuple", "tuple"); ("Set", "set"); ("Dict", "dict")] \/ ~ In w ["List"; "Tuple"; "Set"; "Dict"] /\ k = w.

(** The keywords [k], among those of [table], that the signature asks for. *)
Definition Asked (table : list string) (sig k : string) : Prop :=
  In k table /\ exists w, Keyword w k /\
    ((exists hs h t, Hints sig hs /\ In h hs /\ Unpaired h t /\ Whole w t) \/
     (exists h t, Result sig (Some h) /\ Uncoloned h t /\ Whole w t)).
