(** Trees of nodes: lazy_type_hint/data_type_tree. *)
From Coq Require Import Ascii String List Bool Arith.
From Verif Require Import PyStr Strategies Dispatch Values.
Import ListNotations.
Local Open Scope string_scope.

(** dict_data_type_tree.py:60-81 [DictMetadata]: [_data], [_initial_keys] and, for every key in
    [key_info], its [required] flag (the docstring kept in [KeyInfo] is never read). *)
Record meta : Type := Meta {
  m_data : list (key * pyval);
  m_initial : list key;
  m_required : list (key * bool)
}.

(** The class of a node together with the part of [self.data] that is used after construction. *)
Inductive nkind : Type :=
  | NInst
  | NFun (f : pyfun)
  | NClass (name : string)
  | NModule
  | NIO
  | NNumpy (dtype : string)
  | NSeq (k : seqkind)
  | NProxy
  | NDict (data : list (key * pyval)) (m : meta).

(** data_type_tree.py:50-70: attributes of a node.  [i_root] is [self.parent is None];
    [i_type] is [holding_type]. *)
Record info : Type := Info {
  i_name : string;
  i_depth : nat;
  i_height : nat;
  i_root : bool;
  i_kind : nkind;
  i_type : pytype
}.

(** A node with its children.  Each child comes with its key (for mappings; sequences use a dummy)
    and with a multiplicity: in how many of the places that iteration over this node visits the
    same Python object is stored.  Objects are shared between siblings only
    (mapping_data_type_tree.py:63-64, set_and_sequence_operations.py:127-129). *)
Inductive tree : Type := Node (i : info) (cs : list (key * nat * tree)).

Definition ti (t : tree) : info := match t with Node i _ => i end.
Definition tcs (t : tree) : list (key * nat * tree) := match t with Node _ cs => cs end.
Definition tname (t : tree) : string := i_name (ti t).
Definition tkind (t : tree) : nkind := i_kind (ti t).
Definition theight (t : tree) : nat := i_height (ti t).
Definition ekey (e : key * nat * tree) : key := fst (fst e).
Definition emult (e : key * nat * tree) : nat := snd (fst e).
Definition etree (e : key * nat * tree) : tree := snd e.

Definition no_key : key := KStr "".

(** mapping_data_type_tree.py:131-143 [__next__]: iteration over a mapping node ends at a [None] key. *)
Fixpoint before_none {A} (key_of : A -> key) (l : list A) : list A :=
  match l with
  | [] => []
  | e :: r => match key_of e with KNone => [] | _ => e :: before_none key_of r end
  end.

(** The children that [for child in self] visits. *)
Definition iter_entries (cs : list (key * nat * tree)) : list (key * nat * tree) := before_none ekey cs.
Definition iter_children (t : tree) : list tree := map etree (iter_entries (tcs t)).

(** ** Hashes and equality *)

(** The values returned by [_get_hash].  [HMap]/[HTd] are the tuples ("mapping", hash(type(key)), h)
    and ("typed_dict", key, h); [HSet] is a frozenset, [HTup] a tuple. *)
Inductive hk : Type :=
  | HTy (id : nat)
  | HStr (s : string)
  | HTup (l : list hk)
  | HSet (l : list hk)
  | HMap (key_ty : nat) (h : hk)
  | HTd (k : key) (h : hk).

(** Equality of the Python objects, used for [hash(a) == hash(b)]: no accidental collisions. *)
Fixpoint heq (a b : hk) {struct a} : bool :=
  match a, b with
  | HTy m, HTy n => Nat.eqb m n
  | HStr s, HStr t => String.eqb s t
  | HTup l, HTup m =>
      (fix go (l m : list hk) : bool :=
         match l, m with
         | [], [] => true
         | x :: l', y :: m' => heq x y && go l' m'
         | _, _ => false
         end) l m
  | HSet l, HSet m =>
      forallb (fun x => existsb (heq x) m) l && forallb (fun y => existsb (fun x => heq x y) l) m
  | HMap k h, HMap k' h' => Nat.eqb k k' && heq h h'
  | HTd k h, HTd k' h' => key_eqb k k' && heq h h'
  | _, _ => false
  end.

(** dict_data_type_tree.py:107-111, 122-123 [is_typed_dict], [_all_keys_are_string]. *)
Definition all_str {A} (d : list (key * A)) : bool := forallb (fun e => is_str_key (fst e)) d.
Definition is_td_strategy (s : strategies) : bool := match s_dict s with DTypedDict => true | _ => false end.
Definition is_typed_dict (s : strategies) (m : meta) : bool := all_str (m_data m) && is_td_strategy s.
Definition node_is_typed_dict (s : strategies) (t : tree) : bool :=
  match tkind t with NDict _ m => is_typed_dict s m | _ => false end.

(** function_data_type_tree.py:79-86 [_get_hash]. *)
Definition fun_hash (f : pyfun) : hk :=
  match f_sig f with
  | Some (sig, n) => if f_lambda f then HStr ("Callable[[" ++ join ", " (repeat "Any" n) ++ "], Any]") else HStr sig
  | None => HStr "Callable"
  end.

(** [_get_hash] of every node class: simple_data_type_tree.py:33-35, function (above),
    sequence_data_type_tree.py:25-30, set_data_type_tree.py:37-42, pandas_series_data_type_tree.py:32-37,
    tuple_data_type_tree.py:46-55, mapping_data_type_tree.py:125-130, dict_data_type_tree.py:363-369. *)
Fixpoint thash (s : strategies) (t : tree) : hk :=
  match t with
  | Node i cs =>
      let hs := map (fun e => thash s (snd e)) cs in
      match i_kind i with
      | NFun f => fun_hash f
      | NInst | NClass _ | NModule | NIO | NNumpy _ => HTy (ty_id (i_type i))
      | NSeq KTuple => match s_tuple s with TFixed => HTup hs | TAnySize => HSet hs end
      | NSeq _ => HSet hs
      | NProxy => HSet (map (fun e => HMap (ty_id (key_type (fst (fst e)))) (thash s (snd e))) cs)
      | NDict _ m =>
          if is_typed_dict s m then HSet (map (fun e => HTd (fst (fst e)) (thash s (snd e))) cs)
          else HSet (map (fun e => HMap (ty_id (key_type (fst (fst e)))) (thash s (snd e))) cs)
      end
  end.

(** [type(self)]: the parser class. *)
Definition class_of (k : nkind) : parser :=
  match k with
  | NInst => p_instance
  | NFun _ => p_function
  | NClass _ => p_type
  | NModule => p_module
  | NIO => p_io
  | NNumpy _ => p_numpy
  | NSeq KList => p_list
  | NSeq KTuple => p_tuple
  | NSeq KSet => p_set
  | NSeq KIter => p_iterator
  | NSeq KSeries => p_series
  | NProxy => p_mapping_proxy
  | NDict _ _ => p_dict
  end.

(** data_type_tree.py:163-167, 318-322 [__hash__], [__eq__]. *)
Definition teq (s : strategies) (a b : tree) : bool :=
  Nat.eqb (class_of (tkind a)) (class_of (tkind b)) && heq (thash s a) (thash s b).

(** ** Renaming *)

Definition with_name (i : info) (n : string) : info :=
  Info n (i_depth i) (i_height i) (i_root i) (i_kind i) (i_type i).

Fixpoint iterate {A} (n : nat) (f : A -> A) (a : A) : A :=
  match n with O => a | S n' => iterate n' f (f a) end.

(** data_type_tree.py:329-338 [_rename], executed [k] times on the same node: a node stored in [m]
    visited places is visited [m] times for each visit of its parent. *)
Fixpoint ren (k : nat) (new : string) (len_old : nat) (t : tree) : tree :=
  match t with
  | Node i cs =>
      Node (with_name i
              (iterate k (fun n => if i_root i then new else new ++ drop len_old n) (i_name i)))
           (map (fun e => match e with (key, m, c) => (key, m, ren (k * m) new len_old c) end) cs)
  end.

(** data_type_tree.py:324-327 [rename]. *)
Definition rename (new : string) (t : tree) : tree := ren 1 new (String.length (tname t)) t.
