(** Python values as the tool sees them. *)
From Coq Require Import Ascii String List Bool Arith.
From Verif Require Import PyStr Dispatch.
Import ListNotations.
Local Open Scope string_scope.

(** A runtime type: its identity ([id(type)]) and its [__name__].  Identities of the built-in types
    are those of Dispatch.v; classes of the user have other numbers. *)
Record pytype : Type := PyType { ty_id : nat; ty_name : string }.

Definition type_eqb (a b : pytype) : bool := Nat.eqb (ty_id a) (ty_id b) && String.eqb (ty_name a) (ty_name b).

Definition ty_str := PyType t_str "str".
Definition ty_int := PyType t_int "int".
Definition ty_float := PyType t_float "float".
Definition ty_bool := PyType t_bool "bool".
Definition ty_none := PyType t_NoneType "NoneType".
Definition ty_dict := PyType t_dict "dict".
Definition ty_list := PyType t_list "list".
Definition ty_tuple := PyType t_tuple "tuple".
Definition ty_set := PyType t_set "set".
Definition ty_frozenset := PyType t_frozenset "frozenset".
Definition ty_proxy := PyType t_mappingproxy "mappingproxy".

(** Dictionary keys: strings, [None], and any other hashable object (type and identity up to [==]).
    Simplification: subclasses of [str] are not distinguished from [str]. *)
Inductive key : Type := KStr (s : string) | KNone | KObj (t : pytype) (n : nat).

Definition key_type (k : key) : pytype :=
  match k with KStr _ => ty_str | KNone => ty_none | KObj t _ => t end.

Definition key_eqb (a b : key) : bool :=
  match a, b with
  | KStr x, KStr y => String.eqb x y
  | KNone, KNone => true
  | KObj t n, KObj u m => type_eqb t u && Nat.eqb n m
  | _, _ => false
  end.

(** What the tool asks about a function: [type(f)], whether [__name__] is ["<lambda>"],
    [str(inspect.signature(f))] with the number of parameters ([None]: [ValueError]), and the answer of
    [_has_return] ([None]: [inspect.getsource] raises, e.g. for built-in functions).
    Not modelled: objects without [__name__], and [classmethod] objects, for which
    [inspect.signature] raises [TypeError]. *)
Record pyfun : Type := PyFun {
  f_type : pytype;
  f_lambda : bool;
  f_sig : option (string * nat);
  f_return : option bool
}.

Inductive seqkind : Type := KList | KTuple | KSet | KIter | KSeries.
Inductive mapkind : Type := MDict | MProxy.

(** A value.  The constructor tells which parser class [get_subclass] (Dispatch.v) selects:
    list / tuple / (frozen)set / iterator / series, dict / mappingproxy, function, class, module,
    file, array, and everything else (the instance parser).  [VStr] is an instance of [str] whose
    text is kept because documentation strings are read from it.
    A set is given by the list of its elements in iteration order, an iterator by the elements it
    would still yield.  Simplifications: values are finite trees (no cycles, no aliasing). *)
Inductive pyval : Type :=
  | VStr (s : string)
  | VInst (t : pytype)
  | VFun (f : pyfun)
  | VClass (meta : pytype) (name : string)
  | VModule (t : pytype)
  | VIO (t : pytype)
  | VNdarray (t : pytype) (dtype : string)
  | VSeq (k : seqkind) (t : pytype) (l : list pyval)
  | VMap (k : mapkind) (t : pytype) (kvs : list (key * pyval)).

(** [type(v)]. *)
Definition type_of (v : pyval) : pytype :=
  match v with
  | VStr _ => ty_str
  | VInst t => t
  | VFun f => f_type f
  | VClass m _ => m
  | VModule t | VIO t | VNdarray t _ => t
  | VSeq _ t _ | VMap _ t _ => t
  end.

Definition maxl (l : list nat) : nat := fold_right Nat.max 0 l.

(** Nesting depth: the fuel needed by the construction. *)
Fixpoint vdepth (v : pyval) : nat :=
  match v with
  | VSeq _ _ l => S (maxl (map vdepth l))
  | VMap _ _ kvs => S (maxl (map (fun kv => vdepth (snd kv)) kvs))
  | _ => 0
  end.

(** What is left of a value after the tool has walked over it once: iterators are consumed
    (set_and_sequence_operations.py:48).
    Simplification: with an element limit n only n+1 elements are consumed; the model treats the
    iterator as exhausted. *)
Fixpoint exhaust (v : pyval) : pyval :=
  match v with
  | VSeq KIter t _ => VSeq KIter t []
  | VSeq k t l => VSeq k t (map exhaust l)
  | VMap k t kvs => VMap k t (map (fun kv => (fst kv, exhaust (snd kv))) kvs)
  | _ => v
  end.

(** [d[k]], [k in d], [d[k] = v] and [d.update(e)] on insertion ordered dictionaries. *)
Fixpoint dget {A} (k : key) (d : list (key * A)) : option A :=
  match d with
  | [] => None
  | (k', a) :: r => if key_eqb k k' then Some a else dget k r
  end.
Definition dmem {A} (k : key) (d : list (key * A)) : bool := existsb (fun e => key_eqb k (fst e)) d.
Fixpoint dset {A} (k : key) (a : A) (d : list (key * A)) : list (key * A) :=
  match d with
  | [] => [(k, a)]
  | (k', b) :: r => if key_eqb k k' then (k', a) :: r else (k', b) :: dset k a r
  end.
Definition dupdate {A} (d e : list (key * A)) : list (key * A) :=
  fold_left (fun d kv => dset (fst kv) (snd kv) d) e d.

(** yaml_file_modifier.py:56: the prefix of documentation keys. *)
Definition hidden_prefix : string := "___docstring_hidden_key_".

Definition is_str_key (k : key) : bool := match k with KStr _ => true | _ => false end.
(** [isinstance(key, str) and key.startswith(prefix)]. *)
Definition is_hidden (k : key) : bool :=
  match k with KStr s => startswith hidden_prefix s | _ => false end.
