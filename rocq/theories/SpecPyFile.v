(** What editing a Python file should mean, without reference to the model of the tool. *)
From Coq Require Import Ascii String List Arith ZArith.
From Verif Require Import SpecNames SpecText.
Import ListNotations.
Local Open Scope string_scope.
Local Open Scope nat_scope.

(** ** Assignments *)
Definition quote_mark (c : ascii) : Prop := code c = 34 \/ code c = 39.
Definition equals_sign : ascii := ascii_of_nat 61.

(** The label occurs in the line with no quotation mark in front of it, and the line has a "=". *)
Definition Mentions (label line : string) : Prop :=
  In equals_sign (chars line) /\
  exists a b, line = a ++ label ++ b /\ Forall (fun c => ~ quote_mark c) (chars a).

(** [SplitAtLast l p v]: [l] is [p ++ "=" ++ v] for the last "=" of the line. *)
Definition SplitAtLast (line p v : string) : Prop :=
  line = p ++ "=" ++ v /\ ~ In equals_sign (chars v).

(** [Clean v w]: [w] is [v] without the white space around it and, when it starts with a quotation mark,
    without its first and its last character. *)
Inductive Clean : string -> string -> Prop :=
  | Clean_plain : forall a c w b,
      blank a -> blank b -> ~ white c -> ~ quote_mark c ->
      (w = "" \/ exists x d, w = x ++ String d "" /\ ~ white d) ->
      Clean (a ++ String c w ++ b) (String c w)
  | Clean_quoted : forall a c w d b,
      blank a -> blank b -> quote_mark c -> ~ white d ->
      Clean (a ++ String c (w ++ String d "") ++ b) w
  | Clean_mark : forall a c b, blank a -> blank b -> quote_mark c -> Clean (a ++ String c b) "".

(** ** Insertion: where Python's [list.insert] puts an element. *)
Definition place (len : nat) (i : Z) : nat :=
  Z.to_nat (Z.min (Z.of_nat len) (if (i <? 0)%Z then Z.max 0 (i + Z.of_nat len) else i)).

(** ** Private methods *)
Definition has_at (line : string) : Prop := In (ascii_of_nat 64) (chars line).

(** A line that starts a private method: "def _x" but not "def __x". *)
Definition PrivateDef (sp line : string) : Prop :=
  exists r, line = sp ++ "def _" ++ r /\ blank sp /\ (forall r', r <> "_" ++ r').

Definition closes (line : string) : Prop :=
  exists a b, line = a ++ "):" ++ b \/ line = a ++ "->" ++ b.

(** More deeply indented than [sp]. *)
Definition Deeper (sp line : string) : Prop :=
  exists a c b, line = a ++ String c b /\ String.length a = String.length sp /\ white c.

Definition starts_private (line : string) : Prop := exists sp, PrivateDef sp line.

(** The lines of one private method: decorators, a signature that ends at the first line with "):" or
    "->", and a body without blank lines. *)
Inductive Method : list string -> Prop :=
  | Method_intro : forall decs sp def sig body,
      Forall (fun l => has_at l /\ ~ starts_private l) decs ->
      PrivateDef sp def ->
      (exists first last, def :: sig = (first ++ [last])%list /\ Forall (fun l => ~ closes l) first /\ closes last) ->
      Forall (fun l => ~ starts_private l) sig ->
      Forall (fun l => Deeper sp l /\ ~ starts_private l) body ->
      Method (decs ++ def :: sig ++ body).

(** [Layout p ls ks]: [ls] consists of lines to keep, [ks], and of private methods, each followed by an
    empty line or by the end of the file, and none directly below a line with "@"; [p] says that the
    line before [ls] has an "@". *)
Inductive Layout : Prop -> list string -> list string -> Prop :=
  | Layout_nil : forall p, Layout p [] []
  | Layout_keep : forall p l ls ks,
      ~ starts_private l -> Layout (has_at l) ls ks -> Layout p (l :: ls) (l :: ks)
  | Layout_method : forall (p : Prop) m ls ks,
      ~ p -> Method m -> Layout False ls ks -> Layout p (m ++ "" :: ls) ks
  | Layout_last : forall (p : Prop) m, ~ p -> Method m -> Layout p m [].
