(** Generation of the declarations: _get_str_top_node of every node class,
    _get_strs_all_nodes_unformatted, _format_node_strings, Tree.to_string. *)
From Coq Require Import Ascii String List Bool Arith.
From Verif Require Import PyStr Utils Strategies Docstring Imports Dispatch Values Tree Build.
Import ListNotations.
Local Open Scope string_scope.

(** A generated string together with the keywords passed to [imports.add] while generating it. *)
Definition out : Type := (string * list string)%type.

(** [getattr(builtins, name)] is a class: the classes of the builtins module (CPython 3.8 and 3.9;
    later versions add EncodingWarning, BaseExceptionGroup and ExceptionGroup, and an interpreter may have the class [__loader__]). *)
Definition builtin_classes : list string :=
  ["bool"; "memoryview"; "bytearray"; "bytes"; "classmethod"; "complex"; "dict"; "enumerate"; "filter"; "float";
   "frozenset"; "property"; "int"; "list"; "map"; "object"; "range"; "reversed"; "set"; "slice"; "staticmethod";
   "str"; "super"; "tuple"; "type"; "zip"; "BaseException"; "Exception"; "TypeError"; "StopAsyncIteration";
   "StopIteration"; "GeneratorExit"; "SystemExit"; "KeyboardInterrupt"; "ImportError"; "ModuleNotFoundError";
   "OSError"; "EnvironmentError"; "IOError"; "EOFError"; "RuntimeError"; "RecursionError"; "NotImplementedError";
   "NameError"; "UnboundLocalError"; "AttributeError"; "SyntaxError"; "IndentationError"; "TabError"; "LookupError";
   "IndexError"; "KeyError"; "ValueError"; "UnicodeError"; "UnicodeEncodeError"; "UnicodeDecodeError";
   "UnicodeTranslateError"; "AssertionError"; "ArithmeticError"; "FloatingPointError"; "OverflowError";
   "ZeroDivisionError"; "SystemError"; "ReferenceError"; "MemoryError"; "BufferError"; "Warning"; "UserWarning";
   "DeprecationWarning"; "PendingDeprecationWarning"; "SyntaxWarning"; "RuntimeWarning"; "FutureWarning";
   "ImportWarning"; "UnicodeWarning"; "BytesWarning"; "ResourceWarning"; "ConnectionError"; "BlockingIOError";
   "BrokenPipeError"; "ChildProcessError"; "ConnectionAbortedError"; "ConnectionRefusedError";
   "ConnectionResetError"; "FileExistsError"; "FileNotFoundError"; "IsADirectoryError"; "NotADirectoryError";
   "InterruptedError"; "PermissionError"; "ProcessLookupError"; "TimeoutError"].
Definition is_builtin (name : string) : bool := mem name builtin_classes.

(** [permission_to_be_created_as_type_alias]: data_type_tree.py:176-185,
    simple_data_type_tree.py:42-47, function_data_type_tree.py:23-28, dict_data_type_tree.py:218-223. *)
Definition perm (s : strategies) (t : tree) : bool :=
  match tkind t with
  | NFun _ => true
  | NInst | NClass _ | NModule | NIO | NNumpy _ => i_root (ti t)
  | NDict _ m => is_typed_dict s m || i_root (ti t) || Nat.ltb (s_min_height s) (theight t)
  | NSeq _ | NProxy => i_root (ti t) || Nat.ltb (s_min_height s) (theight t)
  end.

(** data_type_tree.py:187-190 [get_str_top_node_without_lvalue]. *)
Definition without_lvalue (s : string) : string := strip (last (split_char (chr 61) s) "").

(** generic_data_type_tree.py:61-78: what [_get_types] does with the list of type strings. *)
Definition or_any (l : list string) : list string := match l with [] => ["Any"] | _ => l end.
Definition any_import (l : list string) : list string := match l with [] => ["Any"] | _ => [] end.
Definition union_members (l : list string) : list string :=
  let u := sort (dedup l) in
  if mem "float" l && mem "int" l then filter (fun x => negb (String.eqb x "int")) u else u.

(** generic_data_type_tree.py:36-44 [_format_types]. *)
Definition format_types (l : list string) : out :=
  match l with
  | [x] => (x, [])
  | _ => ("Union[" ++ join ", " l ++ "]", ["Union"])
  end.

(** generic_data_type_tree.py:25-34 [get_type_alias_children] on the strings of the children. *)
Definition types_of (l : list string) : out :=
  let (s, i) := format_types (union_members (or_any l)) in (s, (any_import l ++ i)%list).

(** tuple_data_type_tree.py:24-45 [get_type_alias_children], [_format_types]. *)
Definition tuple_types_of (st : tuple_strategy) (l : list string) : out :=
  let child_types := match st with TFixed => or_any l | TAnySize => union_members (or_any l) end in
  if Nat.eqb (List.length child_types) 1 && mem "Any" child_types
  then ("Any, ...", (any_import l ++ ["Any"])%list)
  else match st with
       | TFixed => (join ", " child_types, any_import l)
       | TAnySize =>
           match dedup child_types with
           | [x] => (x ++ ", ...", any_import l)
           | names => ("Union[" ++ join ", " (sort names) ++ "], ...", (any_import l ++ ["Union"])%list)
           end
       end.

(** ** Typed dicts *)

(** keyword.kwlist. *)
Definition kwlist : list string :=
  ["False"; "None"; "True"; "and"; "as"; "assert"; "async"; "await"; "break"; "class"; "continue"; "def";
   "del"; "elif"; "else"; "except"; "finally"; "for"; "from"; "global"; "if"; "import"; "in"; "is";
   "lambda"; "nonlocal"; "not"; "or"; "pass"; "raise"; "return"; "try"; "while"; "with"; "yield"].

(** dict_data_type_tree.py:113-129 [is_functional_syntax], [_all_keys_are_parsable].  The cache is
    harmless: the first call happens after the last change of the metadata. *)
Definition functional_syntax (m : meta) : bool :=
  negb (forallb (fun e => match fst e with
                          | KStr k => negb (mem k kwlist) && is_compatible k
                          | _ => false
                          end) (m_data m)).

(** dict_data_type_tree.py:178-206 [get_key_docstrings(return_formatted_as_docstring=True)] for one
    visible key of a dict whose keys are all strings. *)
Definition key_docstring (m : meta) (k : string) : string :=
  match dget (KStr (hidden_prefix ++ k)) (m_data m) with
  | Some (VStr d) => nl ++ format_docstring 90 TAB d ++ nl
  | _ => ""
  end.

(** [s[:-1]]. *)
Definition chop (s : string) : string := take (String.length s - 1) s.

Definition field_line (functional : bool) (m : meta) (kv : string * string) : string :=
  let (k, v) := kv in
  if functional then TAB ++ TAB ++ dq ++ k ++ dq ++ ": " ++ v ++ "," ++ nl
  else let d := key_docstring m k in
       TAB ++ k ++ ": " ++ v ++ d ++ (if String.eqb d "" then nl else "").

(** dict_data_type_tree.py:284-344, 350-361 [_build_typed_dict], [_insert_class_docstring].
    [doc] is [self.data[key_used_as_doc]] when the key is in use and the value is a string. *)
Definition build_typed_dict (name : string) (content : list (string * string)) (m : meta) (doc : option string)
  : string :=
  let functional := functional_syntax m in
  let visible := filter (fun kv => negb (startswith hidden_prefix (fst kv))) content in
  let modified := String.concat "" (map (field_line functional m) visible) in
  let lines :=
    if functional then
      [name ++ " = TypedDict("; TAB ++ dq ++ name ++ dq ++ ","; TAB ++ "{"; chop modified; TAB ++ "},"; ")"]
    else
      ["class " ++ name ++ "(TypedDict):";
       if String.eqb modified "" then TAB ++ "..." else chop modified] in
  let lines :=
    match doc with
    | None => lines
    | Some d =>
        if functional then (lines ++ [format_docstring 90 "" d])%list
        else match lines with
             | h :: r => h :: (format_docstring 90 TAB d ++ nl) :: r
             | [] => []
             end
    end in
  join nl lines.

(** The class docstring: dict_data_type_tree.py:341-343, 350-353. *)
Definition class_doc (s : strategies) (data : list (key * pyval)) : option string :=
  if String.eqb (s_key_doc s) "" then None
  else match dget (KStr (s_key_doc s)) data with Some (VStr d) => Some d | _ => None end.

(** dict_data_type_tree.py:261-275: the type of one field.  [ref] is the camel-cased name of the child if it is
    declared, its inlined type otherwise. *)
Definition field_type (s : strategies) (m : meta) (k : key) (ref : string) : out :=
  match dget k (m_required m) with
  | None => (ref, [])
  | Some required =>
      let (v, i) := if required then (ref, []) else ("NotRequired[" ++ ref ++ "]", ["NotRequired"]) in
      if s_read_only s then ("ReadOnly[" ++ v ++ "]", (i ++ ["ReadOnly"])%list) else (v, i)
  end.

Definition key_str (k : key) : string := match k with KStr s => s | _ => "" end.

(** ** Functions *)

(** Maximal runs of characters satisfying [p] ([re.findall("[...]+", s)]). *)
Fixpoint runs_aux (p : ascii -> bool) (s acc : string) : list string :=
  match s with
  | "" => match acc with "" => [] | _ => [acc] end
  | String c r =>
      if p c then runs_aux p r (acc ++ String c "")
      else match acc with "" => runs_aux p r "" | _ => acc :: runs_aux p r "" end
  end.
Fixpoint take_while (p : ascii -> bool) (s : string) : string :=
  match s with "" => "" | String c r => if p c then String c (take_while p r) else "" end.

Definition hint_char (c : ascii) : bool := negb (is_space c) && negb (Nat.eqb (ord c) 44).

(** [re.findall(r":\s*([^\s,]+)", signature)]; the fuel is the length of the string. *)
Fixpoint findall_hints (fuel : nat) (s : string) : list string :=
  match fuel, s with
  | S f, String c r =>
      if Nat.eqb (ord c) 58
      then let after := lstrip r in
           let h := take_while hint_char after in
           match h with
           | "" => findall_hints f r
           | _ => h :: findall_hints f (drop (String.length h) after)
           end
      else findall_hints f r
  | _, _ => []
  end.

(** [re.search(r"->\s*([^\s,]+|$)", signature)] and its group. *)
Fixpoint search_return (s : string) : option string :=
  match s with
  | "" => None
  | String _ r =>
      if startswith "->" s
      then let after := lstrip (drop 2 s) in
           match take_while hint_char after with
           | "" => match after with "" => Some "" | _ => search_return r end
           | h => Some h
           end
      else search_return r
  end.

(** import_manager.py:108-122 [_import_symbols], [_cast_symbol], [_is_importable_symbol]. *)
Definition cast_symbol (w : string) : string :=
  if mem w ["List"; "Tuple"; "Set"; "Dict"] then lower w else w.
Definition import_symbols (s : string) : list string :=
  filter (fun k => mem k (map fst PACKAGE)) (map cast_symbol (runs_aux is_word_char s "")).

(** import_manager.py:88-106 [import_all_unkown_symbols_from_signature]. *)
Definition signature_imports (sig : string) : list string :=
  (flat_map (fun h => import_symbols (replace "):" "" (strip h))) (findall_hints (String.length sig) sig)
   ++ match search_return sig with
      | Some r => import_symbols (rstrip_by (fun c => Nat.eqb (ord c) 58) r)
      | None => []
      end)%list.

(** function_data_type_tree.py:39-77 [_get_str_top_node]; [None] when [inspect.getsource] raises. *)
Definition function_top (name : string) (f : pyfun) : option out :=
  match f_sig f with
  | None => Some (name ++ ": TypeAlias = Callable", ["Callable"; "TypeAlias"])
  | Some (sig, n) =>
      if f_lambda f
      then Some (name ++ ": TypeAlias = Callable[[" ++ join ", " (repeat "Any" n) ++ "], Any]",
                 ["Callable"; "Any"; "TypeAlias"])
      else
        let header := "class " ++ name ++ "(Protocol):" ++ nl ++ TAB ++ "def __call__" ++ sig in
        let imports := ("Protocol" :: signature_imports sig)%list in
        if contains "->" sig then Some (header ++ ": ...", imports)
        else match f_return f with
             | None => None
             | Some true => Some (header ++ " -> Any: ...", (imports ++ ["Any"])%list)
             | Some false => Some (header ++ " -> None: ...", imports)
             end
  end.

(** ** Strings of nodes *)

Definition alias (name rhs : string) : string := name ++ ": TypeAlias = " ++ rhs.

(** instance_data_type_tree.py:12-28. *)
Definition instance_top (i : info) : out :=
  if Nat.eqb (ty_id (i_type i)) t_NoneType then (alias (i_name i) "Optional[object]", ["TypeAlias"; "Optional"])
  else
    let rhs := if is_builtin (ty_name (i_type i)) then ty_name (i_type i) else dq ++ ty_name (i_type i) ++ dq in
    if i_root i then (alias (i_name i) rhs, ["TypeAlias"]) else (i_name i ++ " = " ++ rhs, []).

Definition seq_container (s : strategies) (k : seqkind) (t : pytype) : string * list string :=
  match k with
  | KList => match s_list s with LList => ("List", ["list"]) | LSequence => ("Sequence", ["Sequence"]) end
  | KTuple => ("Tuple", ["tuple"])
  | KSet => if Nat.eqb (ty_id t) t_frozenset then ("FrozenSet", ["FrozenSet"]) else ("Set", ["set"])
  | KIter => ("Iterator", ["Iterator"])
  | KSeries => ("pd.Series", ["annotations"; "pandas"])
  end.

(** mapping_data_type_tree.py:76-85, 89. *)
Definition map_container (s : strategies) (k : nkind) (t : pytype) : string * list string :=
  if String.eqb (ty_name t) "mappingproxy" then ("MappingProxyType", ["MappingProxyType"])
  else match s_dict s with
       | DMapping => ("Mapping", ["Mapping"])
       | DTypedDict | DDict => ("Dict", ["dict"])
       end.

(** What the parent of a node needs to know about it: key, node, its string. *)
Definition child_out : Type := (key * (tree * out))%type.

(** generic_data_type_tree.py:64-70: the type string of one child. *)
Definition child_type (s : strategies) (c : child_out) : out :=
  let t := fst (snd c) in
  if perm s t then (tname t, []) else (without_lvalue (fst (snd (snd c))), snd (snd (snd c))).

Definition outs_strings (l : list out) : list string := map fst l.
Definition outs_imports (l : list out) : list string := flat_map snd l.

(** mapping_data_type_tree.py:69-91 [_parse_dict]; [cs] are all children, [visited] those that iteration
    visits. *)
Definition parse_dict (s : strategies) (i : info) (cs visited : list child_out) : out :=
  let (container, ci) := map_container s (i_kind i) (i_type i) in
  let ctys := map (child_type s) visited in
  let key_names := map (fun c => ty_name (key_type (fst c))) cs in
  let (ks, ki) := match cs with
                  | [] => format_types (union_members (or_any (outs_strings ctys)))
                  | _ => format_types (union_members key_names)
                  end in
  let ki := match cs with [] => (any_import (outs_strings ctys) ++ outs_imports ctys ++ ki)%list | _ => ki end in
  let (vs, vi) := types_of (outs_strings ctys) in
  (alias (i_name i) (container ++ "[" ++ ks ++ ", " ++ vs ++ "]"),
   (ci ++ ki ++ outs_imports ctys ++ vi ++ ["TypeAlias"])%list).

(** dict_data_type_tree.py:243-282 [_parse_typed_dict]. *)
Definition parse_typed_dict (s : strategies) (i : info) (data : list (key * pyval)) (m : meta)
  (cs : list child_out) : out :=
  let fields := map (fun c =>
                  let t := fst (snd c) in
                  let base : out := if perm s t then (to_camel_case (tname t), [])
                                    else (without_lvalue (fst (snd (snd c))), snd (snd (snd c))) in
                  let ft := field_type s m (fst c) (fst base) in
                  (key_str (fst c), (fst ft, (snd base ++ snd ft)%list))) cs in
  (build_typed_dict (i_name i) (map (fun f => (fst f, fst (snd f))) fields) m (class_doc s data),
   ("TypedDict" :: flat_map (fun f => snd (snd f)) fields)%list).

(** [_get_str_top_node] with its imports.  A function whose source cannot be read raises; the model
    returns an empty string here and [emit] below reports the error. *)
Fixpoint top (s : strategies) (t : tree) : out :=
  match t with
  | Node i cs =>
      let all : list child_out := map (fun e => (fst (fst e), (snd e, top s (snd e)))) cs in
      let visited := before_none fst all in
      match i_kind i with
      | NInst => instance_top i
      | NFun f => match function_top (i_name i) f with Some o => o | None => ("", []) end
      | NClass n =>
          (alias (i_name i) ("Type[" ++ (if is_builtin n then n else dq ++ n ++ dq) ++ "]"), ["type"; "TypeAlias"])
      | NModule => (alias (i_name i) "ModuleType", ["ModuleType"; "TypeAlias"])
      | NIO => (alias (i_name i) "TextIO", ["TextIO"; "TypeAlias"])
      | NNumpy d => (alias (i_name i) (dq ++ "NDArray[np." ++ d ++ "]" ++ dq), ["NDArray"; "numpy"; "TypeAlias"])
      | NSeq k =>
          let (container, ci) := seq_container s k (i_type i) in
          let ctys := map (child_type s) visited in
          let (inside, ii) := match k with
                              | KTuple => tuple_types_of (s_tuple s) (outs_strings ctys)
                              | _ => types_of (outs_strings ctys)
                              end in
          (alias (i_name i) (container ++ "[" ++ inside ++ "]"),
           (ci ++ ["TypeAlias"] ++ outs_imports ctys ++ ii)%list)
      | NProxy => parse_dict s i all visited
      | NDict data m => if is_typed_dict s m then parse_typed_dict s i data m all else parse_dict s i all visited
      end
  end.

(** ** All declarations *)

(** data_type_tree.py:246-264 [_get_strs_all_nodes_unformatted]: the nodes whose string is added to
    the [OrderedSet], in order. *)
Fixpoint collect (s : strategies) (t : tree) : list tree :=
  match t with
  | Node i cs =>
      match cs with
      | [] => if Nat.eqb (i_depth i) 0 && perm s t then [t] else []
      | _ =>
          (flat_map (fun x => snd x)
             (before_none fst (map (fun e => (fst (fst e),
                                (collect s (snd e) ++ (if perm s (snd e) then [snd e] else []))%list)) cs))
           ++ (if perm s t then [t] else []))%list
      end
  end.

Definition function_fails (t : tree) : bool :=
  match tkind t with
  | NFun f => match function_top "" f with None => true | Some _ => false end
  | _ => false
  end.

(** data_type_tree.py:208-222 [get_strs_all_nodes_unformatted] without the imports: [None] if a string
    cannot be generated. *)
Definition declarations (s : strategies) (t : tree) : option (list string) :=
  if existsb function_fails (collect s t) then None
  else Some (oset_as_list (oset_adds String.eqb (map (fun n => fst (top s n)) (collect s t)) oset_empty)).

(** The keywords recorded while generating the declarations. *)
Definition recorded_imports (s : strategies) (t : tree) : list string :=
  imp_adds (flat_map (fun n => snd (top s n)) (collect s t)) [].

Definition get_strs (s : strategies) (t : tree) (include_imports : bool) : option (list string) :=
  match declarations s t with
  | None => None
  | Some ds =>
      match ds with
      | [] => None
      | _ => if include_imports
             then option_map (fun i => i :: ds) (format_imports 90 (recorded_imports s t))
             else Some ds
      end
  end.

(** data_type_tree.py:266-284 [_format_node_strings]. *)
Definition format_node_strings (l : list string) : string :=
  match l with
  | [] => ""
  | h :: r =>
      let l := (h ++ nl) :: r in
      match l with
      | a :: b :: rest =>
          join (nl ++ nl) (a :: b :: map (fun x => if startswith "class" x then nl ++ x else x) rest)
      | _ => join (nl ++ nl) l
      end
  end.

(** Tree.to_string on a fresh tree (lazy_type_hint.py:28-30). *)
Definition to_string (s : strategies) (t : tree) (include_imports : bool) : option string :=
  option_map format_node_strings (get_strs s t include_imports).

(** A history of [to_string] calls on one tree: [get_strs_all_nodes_unformatted] is cached per
    instance (data_type_tree.py:209, utils.py:72-106). *)
Definition to_strings (s : strategies) (t : tree) (args : list bool) : list (option string) :=
  map (option_map format_node_strings) (cached_calls (get_strs s t) None args).
