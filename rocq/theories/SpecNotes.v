(** The documentation of keys: entries of the data, docstrings of the declarations, and where the ones have to become the others. *)
From Coq Require Import Ascii String List Bool Arith.
From Verif Require Import PyStr Strategies Dispatch Values Tree SpecData SpecMerge SpecTypes.
Import ListNotations.
Local Open Scope string_scope.

(** [x] is the documentation of the key [k] in the dict [d]. *)
Definition note_of (d : list (key * pyval)) (k x : string) : Prop := In (KStr ("___docstring_hidden_key_" ++ k), VStr x) d.

(** The declaration shows the docstring [x] under the key [k]; the functional syntax has no place for docstrings. *)
Definition shows (d : decl) (k x : string) : Prop :=
  exists n fs doc f, d = DTyped n false fs doc /\ In f fs /\ fd_key f = k /\ fd_doc f = Some x.

(** No value of the kind of [y] (a dict with string keys or a list) in front of it can be taken for it: dicts have other keys. *)
Definition unlike (x y : pyval) : Prop :=
  match x, y with
  | VMap MDict _ d, VMap MDict _ d' => string_keys d -> exists k, ~ doc_key k /\ ~ (has_key k d <-> has_key k d')
  | _, VMap MDict _ _ => True
  | VSeq KList _ _, VSeq KList _ _ => False
  | _, _ => True
  end.

(** [y] is a dict with string keys or a list, reached from [v] through dicts with string keys by the keys [p], and at every step no earlier
    value of the same dict is like the one that is taken. *)
Inductive first_under : pyval -> list string -> pyval -> Prop :=
  | fu_dict : forall t d, string_keys d -> first_under (VMap MDict t d) [] (VMap MDict t d)
  | fu_list : forall t l, first_under (VSeq KList t l) [] (VSeq KList t l)
  | fu_key : forall t d1 k x d2 p y, string_keys (d1 ++ (KStr k, x) :: d2)%list -> ~ doc_key (KStr k) ->
      (forall k' x', In (k', x') d1 -> ~ doc_key k' -> unlike x' x) ->
      first_under x p y -> first_under (VMap MDict t (d1 ++ (KStr k, x) :: d2)%list) (k :: p) y.

(** The node under the same keys of a tree. *)
Inductive node_at : tree -> list string -> tree -> Prop :=
  | na_here : forall t, node_at t [] t
  | na_key : forall t e k p c, In e (tcs t) -> fst (fst e) = KStr k -> node_at (snd e) p c -> node_at t (k :: p) c.
