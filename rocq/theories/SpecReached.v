(** Which parts of the data the construction looks at, said of the data and the strategies alone. *)
From Coq Require Import Ascii String List Bool Arith.
From Verif Require Import Strategies Dispatch Values SpecNames SpecData.
Import ListNotations.

(** The elements within the limit; 0 and None mean no limit. *)
Definition first_ones {A} (s : strategies) (l : list A) : list A :=
  match s_max_n s with Some (S n) => firstn (S n) l | _ => l end.
(** The limit does not apply to dicts with the TypedDict strategy. *)
Definition looked_at (s : strategies) (k : mapkind) (kvs : list (key * pyval)) : list (key * pyval) :=
  match k, s_dict s with MDict, DTypedDict => kvs | _, _ => first_ones s kvs end.

(** [x] occurs in [v], within the limits and below no documentation key. *)
Inductive met (s : strategies) (x : pyval) : pyval -> Prop :=
  | met_here : met s x x
  | met_element : forall k t l y, In y (first_ones s l) -> met s x y -> met s x (VSeq k t l)
  | met_value : forall k t kvs key y, In (key, y) (looked_at s k kvs) -> ~ doc_key key -> met s x y -> met s x (VMap k t kvs).
(** [x] is an element of a list, set, tuple ... that is met. *)
Definition element_met (s : strategies) (x v : pyval) : Prop :=
  exists k t l, met s (VSeq k t l) v /\ In x (first_ones s l).
(** [key] is a key of a mapping that is met. *)
Definition key_met (s : strategies) (key : key) (v : pyval) : Prop :=
  exists k t kvs x, met s (VMap k t kvs) v /\ In (key, x) (looked_at s k kvs) /\ ~ doc_key key.
Definition is_dict (v : pyval) : Prop := exists t kvs, v = VMap MDict t kvs.
