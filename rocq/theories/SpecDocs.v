(** Data with documentation entries: what it is without them, and which entries are harmless. *)
From Coq Require Import Ascii String List Bool Arith.
From Verif Require Import PyStr Strategies Dispatch Values Tree Build SpecData SpecMerge SpecTypes.
Import ListNotations.
Local Open Scope string_scope.

(** [w] is [v] without the entries under documentation keys, at every depth. *)
Inductive strips : pyval -> pyval -> Prop :=
  | st_leaf : forall v, match v with VSeq _ _ _ | VMap _ _ _ => False | _ => True end -> strips v v
  | st_seq : forall k t l l', strips_all l l' -> strips (VSeq k t l) (VSeq k t l')
  | st_map : forall k t d d', strips_entries d d' -> strips (VMap k t d) (VMap k t d')
with strips_all : list pyval -> list pyval -> Prop :=
  | sa_nil : strips_all [] []
  | sa_cons : forall x x' l l', strips x x' -> strips_all l l' -> strips_all (x :: l) (x' :: l')
with strips_entries : list (key * pyval) -> list (key * pyval) -> Prop :=
  | se_nil : strips_entries [] []
  | se_keep : forall k x x' d d', ~ doc_key k -> strips x x' -> strips_entries d d' -> strips_entries ((k, x) :: d) ((k, x') :: d')
  | se_drop : forall k x d d', doc_key k -> strips_entries d d' -> strips_entries ((k, x) :: d) d'.

(** Every documentation entry is a text and documents a key of the same dict that is no documentation key itself
    (yaml_file_modifier.py:56, 406-418 adds such entries only). *)
Definition doc_texts (d : list (key * pyval)) : Prop := forall k x, In (k, x) d -> doc_key k ->
  (exists text, x = VStr text) /\
  exists name, k = KStr ("___docstring_hidden_key_" ++ name) /\ ~ doc_key (KStr name) /\ has_key (KStr name) d.
(** So is every entry in [v]; where the element limit counts entries there are none. *)
Definition documented (s : strategies) (v : pyval) : Prop := forall k t d, sub (VMap k t d) v ->
  doc_texts d /\ (effective_limit s = None \/ (k = MDict /\ s_dict s = DTypedDict) \/ forall key, has_key key d -> ~ doc_key key).

(** A declaration without the docstrings of its keys. *)
Definition without_docs (d : decl) : decl :=
  match d with
  | DTyped n b fs doc => DTyped n b (map (fun f => Field (fd_key f) (fd_type f) None) fs) doc
  | _ => d
  end.

(** Trees that differ in nothing but the data and the metadata of dicts whose keys are all strings in both or in none. *)
Definition same_kind (k k' : nkind) : Prop :=
  match k, k' with
  | NDict _ m, NDict _ m' => string_keys (m_data m) <-> string_keys (m_data m')
  | _, _ => k = k'
  end.
Inductive same_shape : tree -> tree -> Prop :=
  | ss_node : forall n d h r k k' t cs cs', same_kind k k' ->
      Forall2 (fun e e' => fst e = fst e' /\ same_shape (snd e) (snd e')) cs cs' ->
      same_shape (Node (Info n d h r k t) cs) (Node (Info n d h r k' t) cs').
(** An order of sets that does not depend on such data (the order of a Python set depends on the hashes, which do not). *)
Definition blind (ord : set_order) : Prop := forall i f l, (forall t, same_shape t (f t)) -> ord i (map f l) = map f (ord i l).
