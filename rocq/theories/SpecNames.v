(** What a Python identifier is, written from the language reference (section 2.3) for code points
    0-255, without reference to the model of the tool. *)
From Coq Require Import Ascii String List Arith.
Import ListNotations.
Local Open Scope string_scope.

Definition code (c : ascii) : nat := nat_of_ascii c.
Definition in_range (a b : nat) (c : ascii) : Prop := a <= code c <= b.

(** Characters that may start an identifier (XID_Start and underscore). *)
Definition id_start (c : ascii) : Prop :=
  in_range 65 90 c \/ in_range 97 122 c \/ code c = 95 \/ code c = 170 \/ code c = 181 \/ code c = 186
  \/ in_range 192 214 c \/ in_range 216 246 c \/ in_range 248 255 c.

(** Characters that may follow (XID_Continue): also digits and the middle dot U+00B7. *)
Definition id_continue (c : ascii) : Prop := id_start c \/ in_range 48 57 c \/ code c = 183.

Fixpoint chars (s : string) : list ascii :=
  match s with "" => [] | String c r => c :: chars r end.

Inductive identifier : string -> Prop :=
  | identifier_intro : forall c r, id_start c -> Forall id_continue (chars r) -> identifier (String c r).

(** keyword.kwlist of CPython 3.8 - 3.12. *)
Definition python_keywords : list string :=
  ["False"; "None"; "True"; "and"; "as"; "assert"; "async"; "await"; "break"; "class"; "continue"; "def";
   "del"; "elif"; "else"; "except"; "finally"; "for"; "from"; "global"; "if"; "import"; "in"; "is";
   "lambda"; "nonlocal"; "not"; "or"; "pass"; "raise"; "return"; "try"; "while"; "with"; "yield"].

(** A name that [class <name>: ...] accepts. *)
Definition class_statement_name (s : string) : Prop := identifier s /\ ~ In s python_keywords.

(** The six Latin-1 characters that [str.isnumeric] accepts although they cannot occur in identifiers
    (superscripts and fractions), and the one identifier character that is not alphanumeric. *)
Definition odd_char (c : ascii) : Prop :=
  In (code c) [178; 179; 185; 188; 189; 190; 183].

Definition has_letter_or_digit (s : string) : Prop :=
  exists c, In c (chars s) /\ id_continue c /\ code c <> 95.
