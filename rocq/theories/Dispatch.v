(** Model of DataTypeTree.get_subclass, __init_subclass__ and _check_tree_is_correct_one. *)
From Coq Require Import String List Bool Arith.
Import ListNotations.
Local Open Scope string_scope.

(** A Python type is identified by a number (its [id]).  A parser class is a number too. *)
Definition typeid := nat.
Definition parser := nat.

(** data_type_tree.py:72-75, 149-157: the table filled by [__init_subclass__]
    (insertion order) and the [wraps] tuple of each parser. *)
Record registry : Type := Registry {
  subclasses : list (typeid * parser);
  wraps : parser -> list typeid
}.

(** data_type_tree.py:149-157 [__init_subclass__]: [None] is the error for a type registered twice.
    [type_object] is [object], which is never registered. *)
Fixpoint register_wraps (type_object : typeid) (p : parser) (ws : list typeid)
  (tbl : list (typeid * parser)) : option (list (typeid * parser)) :=
  match ws with
  | [] => Some tbl
  | w :: r =>
      if Nat.eqb w type_object then register_wraps type_object p r tbl
      else if existsb (fun e => Nat.eqb (fst e) w) tbl then None
      else register_wraps type_object p r (tbl ++ [(w, p)])
  end.

(** Defining a list of parser classes one after the other. *)
Fixpoint register_all (type_object : typeid) (ps : list (parser * list typeid))
  (tbl : list (typeid * parser)) : option (list (typeid * parser)) :=
  match ps with
  | [] => Some tbl
  | (p, ws) :: r => match register_wraps type_object p ws tbl with
                    | None => None
                    | Some tbl' => register_all type_object r tbl'
                    end
  end.

Definition lookup (t : typeid) (tbl : list (typeid * parser)) : option parser :=
  option_map snd (find (fun e => Nat.eqb (fst e) t) tbl).

(** data_type_tree.py:104-113 [get_subclass].  [ty] is [type(data)], [isinst w] is
    [isinstance(data, w)], [default] is the parser registered for [int]. *)
Definition get_subclass (r : registry) (default : parser) (ty : typeid) (isinst : typeid -> bool) : parser :=
  match lookup ty (subclasses r) with
  | Some p => p
  | None =>
      match find (fun e => existsb isinst (wraps r (snd e))) (subclasses r) with
      | Some e => snd e
      | None => default
      end
  end.

(** data_type_tree.py:115-121 [_check_tree_is_correct_one]; the instance parser overrides it with
    a check that always passes (instance_data_type_tree.py:32-34). *)
Definition check_tree (r : registry) (default : parser) (p : parser) (isinst : typeid -> bool) : bool :=
  Nat.eqb p default || existsb isinst (wraps r p).

(** ** The table of the project *)

(** Type ids. *)
Definition t_object := 0.
Definition t_dict := 1.
Definition t_list := 2.
Definition t_DataFrame := 3.
Definition t_Series := 4.
Definition t_Iterator := 5.
Definition t_mappingproxy := 6.
Definition t_frozenset := 7.
Definition t_set := 8.
Definition t_tuple := 9.
Definition t_function := 10.
Definition t_staticmethod := 11.
Definition t_classmethod := 12.
Definition t_builtin_function := 13.
Definition t_method := 14.
Definition t_bool := 15.
Definition t_int := 16.
Definition t_float := 17.
Definition t_range := 18.
Definition t_slice := 19.
Definition t_str := 20.
Definition t_NoneType := 21.
Definition t_ndarray := 22.
Definition t_IOBase := 23.
Definition t_module := 24.
Definition t_type := 25.

(** Parser ids. *)
Definition p_dict := 0.
Definition p_list := 1.
Definition p_data_frame := 2.
Definition p_series := 3.
Definition p_iterator := 4.
Definition p_mapping_proxy := 5.
Definition p_set := 6.
Definition p_tuple := 7.
Definition p_function := 8.
Definition p_instance := 9.
Definition p_numpy := 10.
Definition p_io := 11.
Definition p_module := 12.
Definition p_type := 13.

(** The parser classes in the order in which importing the package defines them:
    data_type_tree/__init__.py:4-5 imports generic_type before simple_data_type_tree;
    generic_type/__init__.py:3-25, simple_data_type_tree/__init__.py:3-23 give the rest.
    Classes whose [wraps] is the inherited [(object,)] register nothing and are left out. *)
Definition project_parsers : list (parser * list typeid) :=
  [ (p_dict, [t_dict]);
    (p_list, [t_list]);
    (p_data_frame, [t_DataFrame]);
    (p_series, [t_Series]);
    (p_iterator, [t_Iterator]);
    (p_mapping_proxy, [t_mappingproxy]);
    (p_set, [t_frozenset; t_set]);
    (p_tuple, [t_tuple]);
    (p_function, [t_function; t_staticmethod; t_classmethod; t_builtin_function; t_method]);
    (p_instance, [t_bool; t_int; t_float; t_range; t_slice; t_str; t_NoneType]);
    (p_numpy, [t_ndarray]);
    (p_io, [t_IOBase]);
    (p_module, [t_module]);
    (p_type, [t_type]) ].

Definition wraps_of (ps : list (parser * list typeid)) (p : parser) : list typeid :=
  match find (fun e => Nat.eqb (fst e) p) ps with Some e => snd e | None => [] end.

(** The factory (factory.py:239-250) with an arbitrary list of parser classes: [None] when the classes cannot be
    defined, otherwise the class chosen and whether its constructor passes
    [_check_tree_is_correct_one] (data_type_tree.py:90). *)
Definition factory (ps : list (parser * list typeid)) (default : parser) (ty : typeid)
  (isinst : typeid -> bool) : option (parser * bool) :=
  match register_all t_object ps [] with
  | None => None
  | Some tbl =>
      let r := Registry tbl (wraps_of ps) in
      let p := get_subclass r default ty isinst in
      Some (p, check_tree r default p isinst)
  end.
