(** Model of lazy_type_hint/utils/import_manager.py. *)
From Coq Require Import Ascii String List Bool Arith.
From Verif Require Import PyStr.
Import ListNotations.
Local Open Scope string_scope.

(** import_manager.py:52-85: [PACKAGE], keyword -> (package, symbol).  Every entry has exactly two
    components, so [".".join(reference[:-1])] is the first one. *)
Definition PACKAGE : list (string * (string * string)) :=
  [ ("list", ("typing", "List"));
    ("set", ("typing", "Set"));
    ("tuple", ("typing", "Tuple"));
    ("type", ("typing", "Type"));
    ("dict", ("typing", "Dict"));
    ("Sequence", ("typing", "Sequence"));
    ("Hashable", ("typing", "Hashable"));
    ("FrozenSet", ("typing", "FrozenSet"));
    ("Mapping", ("typing", "Mapping"));
    ("MappingProxyType", ("types", "MappingProxyType"));
    ("TypedDict", ("typing", "TypedDict"));
    ("Any", ("typing", "Any"));
    ("Union", ("typing", "Union"));
    ("Optional", ("typing", "Optional"));
    ("NotRequired", ("typing_extensions", "NotRequired"));
    ("ReadOnly", ("typing_extensions", "ReadOnly"));
    ("Callable", ("typing", "Callable"));
    ("ModuleType", ("types", "ModuleType"));
    ("Protocol", ("typing", "Protocol"));
    ("Literal", ("typing", "Literal"));
    ("overload", ("typing", "overload"));
    ("pandas", ("pandas", "pandas"));
    ("npt", ("npt", "npt"));
    ("NDArray", ("numpy.typing", "NDArray"));
    ("numpy", ("numpy", "numpy"));
    ("TypeAlias", ("typing_extensions", "TypeAlias"));
    ("pd.Scalar", ("pandas._typing", "Scalar"));
    ("TextIO", ("typing", "TextIO"));
    ("Iterator", ("typing", "Iterator"));
    ("annotations", ("__future__", "annotations")) ].

Fixpoint assoc {A} (k : string) (l : list (string * A)) : option A :=
  match l with
  | [] => None
  | (k', v) :: r => if String.eqb k k' then Some v else assoc k r
  end.

Definition package_of (k : string) : option (string * string) := assoc k PACKAGE.

(** import_manager.py:87-89 [add]: [_set] is a Python set; the model keeps a duplicate free list. *)
Definition imp_add (k : string) (set_ : list string) : list string :=
  if mem k set_ then set_ else (set_ ++ [k])%list.
Definition imp_adds (ks set_ : list string) : list string := fold_left (fun s k => imp_add k s) ks set_.

(** [defaultdict(list)][p].append(n), keeping insertion order. *)
Fixpoint dd_append (p n : string) (d : list (string * list string)) : list (string * list string) :=
  match d with
  | [] => [(p, [n])]
  | (p', ns) :: r => if String.eqb p p' then (p', (ns ++ [n])%list) :: r else (p', ns) :: dd_append p n r
  end.

(** import_manager.py:128-137: grouping by package.  [order] is the order in which the Python set is
    iterated.  [None] models the [ValueError] for an unknown keyword. *)
Fixpoint group_imports (order : list string) (d : list (string * list string))
  : option (list (string * list string)) :=
  match order with
  | [] => Some d
  | k :: r => match package_of k with
              | None => None
              | Some (p, n) => group_imports r (dd_append p n d)
              end
  end.

(** [sorted(d.items(), key=lambda x: x[0])]. *)
Fixpoint insert_pkg (x : string * list string) (l : list (string * list string)) :=
  match l with
  | [] => [x]
  | y :: r => if String.leb (fst x) (fst y) then x :: l else y :: insert_pkg x r
  end.
Fixpoint sort_pkg (l : list (string * list string)) :=
  match l with [] => [] | x :: r => insert_pkg x (sort_pkg r) end.

(** import_manager.py:146-159 [_format_single_package]. *)
Definition format_single_package (line_length : nat) (package : string) (imports : list string) : string :=
  let s :=
    match imports with
    | i :: _ =>
        if String.eqb i "pandas" then "import pandas as pd"
        else if String.eqb i "npt" then "import numpy.typing as npt"
        else if String.eqb i "numpy" then "import numpy as np"
        else "from " ++ package ++ " import " ++ join ", " (sort imports)
    | [] => "from " ++ package ++ " import "
    end in
  if Nat.ltb line_length (String.length s)
  then "from " ++ package ++ " import " ++ "(" ++ nl ++ TAB ++ join ("," ++ nl ++ TAB) (sort imports)
       ++ "," ++ nl ++ ")"
  else s.

(** import_manager.py:127-144 [format]. *)
Definition format_imports (line_length : nat) (order : list string) : option string :=
  match group_imports order [] with
  | None => None
  | Some d =>
      let lst := map (fun x => format_single_package line_length (fst x) (snd x)) (sort_pkg d) in
      let lst := match lst with
                 | h :: t => (if contains "__future__" h then h ++ nl else h) :: t
                 | [] => []
                 end in
      Some (join nl lst)
  end.
