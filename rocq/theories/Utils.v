(** Models of lazy_type_hint/utils/utils.py and lazy_type_hint/utils/ordered_set.py. *)
From Coq Require Import Ascii String List Bool Arith.
From Verif Require Import PyStr.
Import ListNotations.
Local Open Scope string_scope.

Definition underscore : ascii := chr 95.

(** utils/utils.py:10-20 [is_string_python_keyword_compatible]:
    [string.replace("_", "").isalnum() and not string[0].isnumeric()].
    ([string[0]] cannot fail: [isalnum] of the empty string is false, so [and] short-circuits.) *)
Definition is_compatible (s : string) : bool :=
  isalnum (remove_char underscore s) &&
  match s with "" => false | String c _ => negb (is_numeric c) end.

(** utils/ordered_set.py:7-41 [OrderedSet]: a set used for membership plus a list used for order. *)
Record oset (A : Type) : Type := OSet { elements_added : list A; lst : list A }.
Arguments OSet {A}. Arguments elements_added {A}. Arguments lst {A}.

Definition oset_empty {A} : oset A := OSet [] [].

(** ordered_set.py:14-23 [add]; [eqb] is the Python equality used by the hash set. *)
Definition oset_add {A} (eqb : A -> A -> bool) (x : A) (s : oset A) : oset A :=
  if existsb (eqb x) (elements_added s) then s
  else OSet (x :: elements_added s) (lst s ++ [x])%list.

(** ordered_set.py:25-41 [as_tuple] / [as_list]. *)
Definition oset_as_list {A} (s : oset A) : list A := lst s.

Definition oset_adds {A} (eqb : A -> A -> bool) (l : list A) (s : oset A) : oset A :=
  fold_left (fun s x => oset_add eqb x s) l s.

(** utils/utils.py:72-106 [cache_returned_value_per_instance]: the wrapper stores the first
    result in an attribute named after the method only; later arguments are ignored.
    State: the attribute, absent or present. *)
Definition cached_call {A R : Type} (f : A -> R) (attr : option R) (arg : A) : R * option R :=
  match attr with
  | Some r => (r, attr)
  | None => let r := f arg in (r, Some r)
  end.

(** A history of calls on one instance: the list of results. *)
Fixpoint cached_calls {A R : Type} (f : A -> R) (attr : option R) (args : list A) : list R :=
  match args with
  | [] => []
  | a :: rest => let (r, attr') := cached_call f attr a in r :: cached_calls f attr' rest
  end.
