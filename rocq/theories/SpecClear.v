(** When the names of the types written for some data cannot clash, said of the data. *)
From Coq Require Import Ascii String List Bool Arith.
From Verif Require Import PyStr Strategies Dispatch Values SpecNames SpecData SpecMerge SpecSound SpecCamel SpecUnique.
Import ListNotations.
Local Open Scope string_scope.

(** Values that get no declaration of their own below the root. *)
Definition plain_leaf (v : pyval) : Prop := match v with VFun _ | VSeq _ _ _ | VMap _ _ _ => False | _ => True end.
(** The source of the function is there if it is looked at. *)
Definition has_source (f : pyfun) : Prop :=
  match f_sig f with
  | None => True
  | Some (p, _) => f_lambda f = true \/ (exists a b, p = a ++ "->" ++ b) \/ f_return f <> None
  end.

(** Values that never get the same type: of different classes; functions with different signatures; dicts, one of which has a value that is told apart from the
    value of the other under the same key (from all values of the other, if the dict is not written as a TypedDict), in
    particular a key that the other lacks; lists, one of which has an element that is told apart from all elements of the
    other, an element of a class of its own, or dicts with a key that the dicts of the other lack. *)
Inductive apart (s : strategies) : pyval -> pyval -> Prop :=
  | apart_class : forall x y, ty_id (type_of x) <> ty_id (type_of y) -> apart s x y
  | apart_function : forall f g, ~ same_function f g -> apart s (VFun f) (VFun g)
  | apart_value : forall mk t d mk' t' d' k x, In (k, x) d ->
      (forall k' y, In (k', y) d' -> (typed_map s mk d -> k' = k) -> apart s x y) -> apart s (VMap mk t d) (VMap mk' t' d')
  | apart_element : forall k t l k' t' l' x, In x l -> (s_dict s = DTypedDict -> match x with VMap _ _ _ => False | _ => True end) ->
      (forall y, In y l' -> apart s x y) -> apart s (VSeq k t l) (VSeq k' t' l')
  | apart_classes : forall k t l k' t' l' x, In x l -> (forall y, In y l' -> ty_id (type_of x) <> ty_id (type_of y)) ->
      apart s (VSeq k t l) (VSeq k' t' l')
  | apart_rows : forall k t l k' t' l' d key, s_dict s = DTypedDict -> In d (string_dicts l) -> has_key key d ->
      (forall d', In d' (string_dicts l') -> ~ has_key key d') -> apart s (VSeq k t l) (VSeq k' t' l')
  | apart_sym : forall x y, apart s x y -> apart s y x.

(** Entries of one dict or, with the TypedDict strategy, of dicts of one list. *)
Inductive together (s : strategies) (v : pyval) (e e' : key * pyval) : Prop :=
  | together_dict : forall k t d, sub (VMap k t d) v -> In e d -> In e' d -> together s v e e'
  | together_rows : forall k t l d d', s_dict s = DTypedDict -> sub (VSeq k t l) v -> In d (string_dicts l) -> In d' (string_dicts l) ->
      In e d -> In e' d' -> together s v e e'.

(** Keys that hold functions, lists or dicts begin with a letter.  Of two such keys of one dict (or of the dicts of one list), neither
    continues the other in camel case, and their values are told apart. *)
Record clear_data (s : strategies) (v : pyval) : Prop := {
  cd_letter : forall k t d key x, sub (VMap k t d) v -> In (key, x) d -> ~ plain_leaf x -> exists n, key = KStr n /\ begins ascii_letter n;
  cd_words : forall n n' x x' w w', together s v (KStr n, x) (KStr n', x') -> ~ plain_leaf x -> ~ plain_leaf x' -> n <> n' ->
    camel n w -> camel n' w' -> ~ extends w w';
  cd_apart : forall n n' x x', together s v (KStr n, x) (KStr n', x') -> ~ plain_leaf x -> ~ plain_leaf x' -> n <> n' -> apart s x x';
  cd_tuples : forall k t l, sub (VSeq k t l) v -> ~ fixed_kind s k;
  cd_source : forall f, sub (VFun f) v -> has_source f
}.
