(** When the names of a tree cannot clash. *)
From Coq Require Import Ascii String List Bool Arith.
From Verif Require Import PyStr Strategies Dispatch Values Tree Emit SpecNames SpecData SpecSound SpecCamel.
Import ListNotations.
Local Open Scope string_scope.

Definition capital_letter (c : ascii) : Prop := in_range 65 90 c.
Definition ascii_letter (c : ascii) : Prop := in_range 65 90 c \/ in_range 97 122 c.

(** A node inside of [t] gets a declaration of its own. *)
Definition declared_inside (s : strategies) (t : tree) : Prop := exists y, node_of y t /\ perm s y = true.

(** [b] is [a], or [a] followed by a word that begins with a capital. *)
Definition extends (a b : string) : Prop := exists z, (z = "" \/ begins capital_letter z) /\ b = a ++ z.

(** The names of all types begin with a letter. *)
Definition letter_types (v : pyval) : Prop := forall x, sub x v -> begins ascii_letter (ty_name (type_of x)).

(** No entry of another key has an equal node. *)
Definition only_one (s : strategies) (es : list (key * nat * tree)) (e : key * nat * tree) : Prop :=
  forall e', In e' es -> ekey e' <> ekey e -> teq s (etree e) (etree e') = false.

(** What an entry of a mapping may add to the name of the mapping: the camel case of its key or, if its node is shared, the name of
    its type and a number. *)
Inductive entry_word (s : strategies) (es : list (key * nat * tree)) (e : key * nat * tree) : string -> Prop :=
  | word_key : forall k w, only_one s es e -> ekey e = KStr k -> camel k w -> entry_word s es e w
  | word_type : forall ds, ~ only_one s es e -> Forall digit (chars ds) -> entry_word s es e (capitalize (ty_name (i_type (ti (etree e)))) ++ ds).

Record clear_mapping (s : strategies) (es : list (key * nat * tree)) : Prop := {
  tm_keys : NoDup (map ekey es);
  tm_letter : forall e, In e es -> declared_inside s (etree e) -> only_one s es e -> exists k, ekey e = KStr k /\ begins ascii_letter k;
  tm_words : forall e e' w w', In e es -> In e' es -> declared_inside s (etree e) -> declared_inside s (etree e') -> ekey e <> ekey e' ->
    only_one s es e \/ only_one s es e' \/ i_type (ti (etree e)) <> i_type (ti (etree e')) ->
    entry_word s es e w -> entry_word s es e' w' -> ~ extends w w';
  tm_shared : forall e x e', In e es -> declared_inside s (etree e) -> ~ only_one s es e -> node_of x (etree e) -> In e' (tcs x) ->
    declared_inside s (etree e') -> emult e' = 1
}.
(** Of equal elements of a fixed size tuple, none has a declaration inside, unless they were merged. *)
Definition clear_tuple (s : strategies) (es : list (key * nat * tree)) : Prop :=
  ForallOrdPairs (fun e e' => emult e = 1 -> emult e' = 1 -> declared_inside s (etree e) \/ declared_inside s (etree e') -> teq s (etree e) (etree e') = false) es.
Definition clear_node (s : strategies) (x : tree) : Prop :=
  match tkind x with
  | NProxy | NDict _ _ => clear_mapping s (tcs x)
  | NSeq KTuple => s_tuple s = TFixed -> clear_tuple s (tcs x)
  | _ => True
  end.
Definition clear_names (s : strategies) (t : tree) : Prop := forall x, node_of x t -> clear_node s x.

(** No name that can be declared under the class name [n] is a name of the typing module or of a class met in [v]. *)
Record name_apart (n : string) (v : pyval) : Prop := {
  na_typing : forall x, In x typing_names -> ~ extends n x;
  na_classes : forall x, sub x v -> ~ extends n (ty_name (type_of x));
  na_named : forall m c, sub (VClass m c) v -> ~ extends n c;
  na_keys : forall k, key_in k v -> ~ extends n (ty_name (key_type k))
}.
