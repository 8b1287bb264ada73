(** Vocabulary about input data, independent of how trees are built. *)
From Coq Require Import Ascii String List Arith Permutation.
From Verif Require Import SpecNames Strategies Values Tree Build.
Import ListNotations.

(** [x] occurs in [v] (as an element, a value, or [v] itself). *)
Inductive sub (x : pyval) : pyval -> Prop :=
  | sub_refl : sub x x
  | sub_seq : forall k t l y, In y l -> sub x y -> sub x (VSeq k t l)
  | sub_map : forall k t kvs key y, In (key, y) kvs -> sub x y -> sub x (VMap k t kvs).

(** [k] is a key of a mapping that occurs in [v]. *)
Definition key_in (k : key) (v : pyval) : Prop :=
  exists mk t kvs x, sub (VMap mk t kvs) v /\ In (k, x) kvs.

(** All characters are letters, digits or underscores (code points 0-255, including the superscript and fraction
    characters that Python's [str.isalnum] accepts). *)
Definition word_like (s : string) : Prop :=
  Forall (fun c => id_continue c /\ code c <> 183 \/ In (code c) [178; 179; 185; 188; 189; 190]) (chars s).

(** Every class whose instances or keys occur in the data has a name made of such characters; true of all
    classes defined by a [class] statement. *)
Definition ordinary_types (v : pyval) : Prop :=
  (forall x, sub x v -> word_like (ty_name (type_of x))) /\
  (forall k, key_in k v -> word_like (ty_name (key_type k))).

(** Strategies that pass the validation. *)
Definition valid (s : strategies) : Prop := exists r, validated r = Some s.

(** The iteration order of a set is some order of its elements. *)
Definition set_like (ord : set_order) : Prop := forall n l, Permutation l (ord n l).

(** A node of a tree. *)
Inductive node_of (n : tree) : tree -> Prop :=
  | node_refl : node_of n n
  | node_child : forall i cs e, In e cs -> node_of n (snd e) -> node_of n (Node i cs).

(** ** Names *)

(** No superscript or fraction character and no middle dot. *)
Definition plain (s : string) : Prop := forall c, In c (chars s) -> ~ odd_char c.
Definition plain_names (v : pyval) : Prop :=
  (forall x, sub x v -> plain (ty_name (type_of x))) /\
  (forall k, key_in k v -> plain (ty_name (key_type k)) /\ forall s, k = KStr s -> plain s).

(** ** Bookkeeping *)

(** Nodes that can hold others. *)
Definition is_container (t : tree) : bool :=
  match tkind t with NSeq _ | NProxy | NDict _ _ => true | _ => false end.

(** What depth, parent and height of a node have to be, given its children. *)
Record bookkept (n : tree) : Prop := {
  bk_depth : forall e, In e (tcs n) -> i_depth (ti (snd e)) = S (i_depth (ti n));
  bk_parent : forall e, In e (tcs n) -> i_root (ti (snd e)) = false;
  bk_leaf : is_container n = false -> theight n = 0 /\ tcs n = [];
  bk_above : forall c, In c (iter_children n) -> theight c < theight n;
  bk_exact : is_container n = true ->
             theight n = 1 /\ iter_children n = [] \/
             exists c, In c (iter_children n) /\ theight n = S (theight c)
}.

(** ** Renaming *)

(** [t'] is [t] with the prefix [old] of every name replaced by [new]. *)
Inductive prefix_replaced (old new : string) : tree -> tree -> Prop :=
  | pr_node : forall suffix d h r k ty cs cs',
      Forall2 (fun e e' => fst e = fst e' /\ prefix_replaced old new (snd e) (snd e')) cs cs' ->
      prefix_replaced old new (Node (Info (String.append old suffix) d h r k ty) cs)
                              (Node (Info (String.append new suffix) d h r k ty) cs').

(** No node is stored in several places (and none is hidden behind a [None] key). *)
Definition unshared (t : tree) : Prop := forall n e, node_of n t -> In e (tcs n) -> snd (fst e) = 1.
Definition names_start_with (p : string) (t : tree) : Prop :=
  forall n, node_of n t -> exists r, tname n = String.append p r.

(** ** Documentation keys *)

(** The keys the tool reserves for documentation strings. *)
Definition doc_key (k : key) : Prop := exists s, k = KStr (String.append "___docstring_hidden_key_" s).
(** Two dicts agree once the documentation entries are dropped. *)
Inductive same_but_docs : list (key * pyval) -> list (key * pyval) -> Prop :=
  | sd_nil : same_but_docs [] []
  | sd_keep : forall e d d', same_but_docs d d' -> same_but_docs (e :: d) (e :: d')
  | sd_left : forall k x d d', doc_key k -> same_but_docs d d' -> same_but_docs ((k, x) :: d) d'
  | sd_right : forall k x d d', doc_key k -> same_but_docs d d' -> same_but_docs d ((k, x) :: d').
