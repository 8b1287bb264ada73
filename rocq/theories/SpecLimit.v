(** Specifications for the element limit and for the use of iterators, independent of the construction of trees. *)
From Coq Require Import Ascii String List Bool Arith.
From Verif Require Import PyStr Strategies Dispatch Values.
Import ListNotations.
Local Open Scope string_scope.

(** The value in which every list, tuple, set, iterator, series and read-only mapping keeps its first [n] elements only;
    so do dictionaries unless [td]. *)
Fixpoint cut (td : bool) (n : nat) (v : pyval) : pyval :=
  match v with
  | VSeq k t l => VSeq k t (firstn n (map (cut td n) l))
  | VMap k t kvs =>
      let kvs' := map (fun kv => (fst kv, cut td n (snd kv))) kvs in
      VMap k t (match k with MDict => if td then kvs' else firstn n kvs' | MProxy => firstn n kvs' end)
  | _ => v
  end.

(** One pass of [for idx, element in enumerate(data): if n and idx >= n: break] over an iterator
    (set_and_sequence_operations.py:48-50): the elements that are used, and those that the iterator still has
    afterwards.  The element at which the loop is left has been taken out too. *)
Definition pass {A} (n : option nat) (l : list A) : list A * list A :=
  match n with
  | None => (l, [])
  | Some n => (firstn n l, skipn (S n) l)
  end.

(** What is left of a value after one walk over it with the limit [n]; [td]: dictionaries are walked completely
    (dict_data_type_tree.py:227-229).  Nothing but iterators changes. *)
Fixpoint walked (td : bool) (n : option nat) (v : pyval) : pyval :=
  let upto {A} (f : A -> A) (l : list A) : list A :=
    match n with None => map f l | Some n => firstn n (map f l) ++ skipn n l end%list in
  match v with
  | VSeq KIter t l => VSeq KIter t (snd (pass n l))
  | VSeq k t l => VSeq k t (upto (walked td n) l)
  | VMap k t kvs =>
      let f := fun kv : key * pyval => (fst kv, walked td n (snd kv)) in
      VMap k t (match k with MDict => if td then map f kvs else upto f kvs | MProxy => upto f kvs end)
  | _ => v
  end.

(** No iterator anywhere in the value. *)
Fixpoint no_iterators (v : pyval) : bool :=
  match v with
  | VSeq KIter _ _ => false
  | VSeq _ _ l => forallb no_iterators l
  | VMap _ _ kvs => forallb (fun kv => no_iterators (snd kv)) kvs
  | _ => true
  end.

(** Every iterator in the value has at most [m] elements. *)
Fixpoint iterators_upto (m : nat) (v : pyval) : bool :=
  match v with
  | VSeq k _ l => match k with KIter => Nat.leb (List.length l) m | _ => true end && forallb (iterators_upto m) l
  | VMap _ _ kvs => forallb (fun kv => iterators_upto m (snd kv)) kvs
  | _ => true
  end.

(** [x] is [v] or a part of it that is looked at: the first [n] elements or entries (all entries of dicts if [td]), not the elements of iterators, which are gone. *)
Definition first_ones (n : option nat) (i : nat) : Prop := match n with Some n => i < n | None => True end.
Inductive looked_at (td : bool) (n : option nat) (x : pyval) : pyval -> Prop :=
  | la_self : looked_at td n x x
  | la_element : forall k t l i y, k <> KIter -> nth_error l i = Some y -> first_ones n i -> looked_at td n x y -> looked_at td n x (VSeq k t l)
  | la_value : forall k t d i key y, nth_error d i = Some (key, y) -> (k = MDict /\ td = true) \/ first_ones n i -> looked_at td n x y -> looked_at td n x (VMap k t d).
