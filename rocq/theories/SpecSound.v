(** What it means that declarations accept a value (Python's typing rules for the part of the typing language that
    the tool writes), and vocabulary about data on which soundness is claimed. *)
From Coq Require Import Ascii String List Bool Arith.
From Verif Require Import PyStr Strategies Dispatch Values SpecTypes SpecData SpecMerge SpecEmit Build.
Import ListNotations.
Local Open Scope string_scope.

(** ** Readable declarations *)

(** Names (also dotted ones): no delimiter inside, something else than a dot in front. *)
Definition name_char (c : ascii) : bool :=
  negb (existsb (Ascii.eqb c) [" "; ","; "["; "]"; """"; ascii_of_nat 10]%char).
Definition is_name (n : string) : Prop :=
  str_forall name_char n = true /\ exists c r, n = String c r /\ c <> "."%char.
Definition unquoted (x : string) : Prop := str_forall (fun c => negb (existsb (Ascii.eqb c) [""""; ascii_of_nat 10]%char)) x = true.
Fixpoint wf_ty (t : ty) : Prop :=
  match t with
  | TName n => is_name n
  | TStr x => unquoted x
  | TApp h args => is_name h /\ (fix all (l : list ty) : Prop := match l with [] => True | a :: r => wf_ty a /\ all r end) args
  | TArgs args => (fix all (l : list ty) : Prop := match l with [] => True | a :: r => wf_ty a /\ all r end) args
  | TDots => True
  end.
(** Without line feeds. *)
Definition single_line (x : string) : Prop := str_forall (fun c => negb (Ascii.eqb (ascii_of_nat 10) c)) x = true.
(** The declarations whose text can be read in one way only ([reading_unique]).  Docstrings are left out. *)
Definition readable (d : decl) : Prop :=
  word_like (declared d) /\ declared d <> "" /\
  match d with
  | DAlias _ t => wf_ty t
  | DTyped _ functional fs doc => doc = None /\ forall f, In f fs ->
      wf_ty (fd_type f) /\ fd_doc f = None /\ if functional then quotable (fd_key f) else word_like (fd_key f)
  | DProto _ sig => single_line sig
  end.

(** ** Acceptance *)

(** Class [c] accepts [v]: the class itself or one of the subtypings and promotions bool < int < float, and the top
    types.  Simplifications: a class is known by its name, subclasses defined by the user are not considered. *)
Definition class_accepts (c : string) (v : pyval) : Prop :=
  c = "Any" \/ c = "object" \/ ty_name (type_of v) = c \/
  (c = "float" /\ (ty_name (type_of v) = "int" \/ ty_name (type_of v) = "bool")) \/
  (c = "int" /\ ty_name (type_of v) = "bool").

(** A dictionary key as a value. *)
Definition key_val (k : key) : pyval :=
  match k with KStr s => VStr s | KNone => VInst ty_none | KObj t _ => VInst t end.

(** The qualifiers of a field of a TypedDict. *)
Fixpoint field_core (t : ty) : ty :=
  match t with TApp h [u] => if mem h ["ReadOnly"; "NotRequired"] then field_core u else t | _ => t end.
Fixpoint field_required (t : ty) : bool :=
  match t with
  | TApp h [u] => if String.eqb h "NotRequired" then false else if String.eqb h "ReadOnly" then field_required u else true
  | _ => true
  end.

(** The sequences and mappings a subscripted name accepts. *)
Definition seq_accepts (h : string) (k : seqkind) (t : pytype) : Prop :=
  match k with
  | KList => h = "List" \/ h = "Sequence"
  | KTuple => h = "Sequence"
  | KSet => if Nat.eqb (ty_id t) t_frozenset then h = "FrozenSet" else h = "Set"
  | KIter => h = "Iterator"
  | KSeries => h = "pd.Series"
  end.
Definition map_accepts (h : string) (k : mapkind) : Prop :=
  match k with MDict => h = "Dict" \/ h = "Mapping" | MProxy => h = "MappingProxyType" \/ h = "Mapping" end.

(** The declarations [ds] let the type [t] accept the value.  Left out: [str] as a [Sequence], iterability of other
    objects, classes as callables. *)
Inductive accepts (ds : list decl) : ty -> pyval -> Prop :=
  | acc_class : forall n v, ~ In n (map declared ds) -> class_accepts n v -> accepts ds (TName n) v
  | acc_forward : forall n v, ~ In n (map declared ds) -> class_accepts n v -> accepts ds (TStr n) v
  | acc_alias : forall n t v, In (DAlias n t) ds -> accepts ds t v -> accepts ds (TName n) v
  | acc_typed : forall n functional fs doc t kvs, In (DTyped n functional fs doc) ds ->
      (forall k x, In (k, x) kvs -> exists f, In f fs /\ k = KStr (fd_key f) /\ accepts ds (field_core (fd_type f)) x) ->
      (forall f, In f fs -> field_required (fd_type f) = true -> has_key (KStr (fd_key f)) kvs) ->
      accepts ds (TName n) (VMap MDict t kvs)
  | acc_proto : forall n sig f p k, In (DProto n sig) ds -> f_sig f = Some (p, k) ->
      (sig = p \/ sig = p ++ " -> Any" \/ sig = p ++ " -> None") -> accepts ds (TName n) (VFun f)
  | acc_callable : forall f, accepts ds (TName "Callable") (VFun f)
  | acc_callable_args : forall f p n, f_sig f = Some (p, n) ->
      accepts ds (TApp "Callable" [TArgs (repeat (TName "Any") n); TName "Any"]) (VFun f)
  | acc_module : forall t, accepts ds (TName "ModuleType") (VModule t)
  | acc_textio : forall t, accepts ds (TName "TextIO") (VIO t)
  | acc_array : forall t d, accepts ds (TStr ("NDArray[np." ++ d ++ "]")) (VNdarray t d)
  | acc_type : forall m n, ~ In n (map declared ds) -> accepts ds (TApp "Type" [TName n]) (VClass m n)
  | acc_type_forward : forall m n, ~ In n (map declared ds) -> accepts ds (TApp "Type" [TStr n]) (VClass m n)
  | acc_none : forall t u, accepts ds (TApp "Optional" [t]) (VInst (PyType t_NoneType u))
  | acc_optional : forall t v, accepts ds t v -> accepts ds (TApp "Optional" [t]) v
  | acc_union : forall ts t v, In t ts -> accepts ds t v -> accepts ds (TApp "Union" ts) v
  | acc_seq : forall h u k t l, seq_accepts h k t -> (forall x, In x l -> accepts ds u x) ->
      accepts ds (TApp h [u]) (VSeq k t l)
  | acc_tuple_any : forall u t l, (forall x, In x l -> accepts ds u x) -> accepts ds (TApp "Tuple" [u; TDots]) (VSeq KTuple t l)
  | acc_tuple : forall us t l, Forall2 (accepts ds) us l -> accepts ds (TApp "Tuple" us) (VSeq KTuple t l)
  | acc_map : forall h kt vt k t kvs, map_accepts h k ->
      (forall key x, In (key, x) kvs -> accepts ds kt (key_val key) /\ accepts ds vt x) ->
      accepts ds (TApp h [kt; vt]) (VMap k t kvs).

(** The names that the generated module takes from elsewhere. *)
Definition typing_names : list string :=
  ["Any"; "object"; "Optional"; "Union"; "List"; "Sequence"; "Tuple"; "Set"; "FrozenSet"; "Iterator"; "pd.Series"; "Dict";
   "Mapping"; "MappingProxyType"; "Type"; "Callable"; "ModuleType"; "TextIO"; "NDArray"; "ReadOnly"; "NotRequired";
   "TypedDict"; "Protocol"; "TypeAlias"; "int"; "float"; "str"].
(** The declared names are told apart from each other, from the names above and from the classes met in [v]. *)
Record unambiguous (ds : list decl) (v : pyval) : Prop := {
  ua_once : NoDup (map declared ds);
  ua_typing : forall n, In n (map declared ds) -> ~ In n typing_names;
  ua_classes : forall x, sub x v -> ~ In (ty_name (type_of x)) (map declared ds);
  ua_named : forall m n, sub (VClass m n) v -> ~ In n (map declared ds);
  ua_keys : forall k, key_in k v -> ~ In (ty_name (key_type k)) (map declared ds)
}.

(** ** Data *)

Definition is_instance (v : pyval) : Prop := match v with VStr _ | VInst _ => True | _ => False end.

(** Functions that get the same type: without a signature, lambdas with as many parameters, other functions with the
    same signature. *)
Definition same_function (f g : pyfun) : Prop :=
  match f_sig f, f_sig g with
  | None, None => True
  | Some (p, n), Some (q, m) => f_lambda f = f_lambda g /\ if f_lambda f then n = m else p = q
  | _, _ => False
  end.
(** [w] has no type that [v] does not have: a description of [v] describes [w]. *)
Inductive covers : pyval -> pyval -> Prop :=
  | cov_refl : forall v, covers v v
  | cov_fun : forall f g, same_function f g -> covers (VFun f) (VFun g)
  | cov_instance : forall v w, is_instance v -> is_instance w -> type_of v = type_of w -> covers v w
  | cov_seq : forall k t l l', k <> KTuple -> (forall y, In y l' -> exists x, In x l /\ covers x y) ->
      covers (VSeq k t l) (VSeq k t l')
  | cov_tuple : forall t l l', Forall2 covers l l' -> covers (VSeq KTuple t l) (VSeq KTuple t l')
  | cov_map : forall k t d d', (forall key, has_key key d <-> has_key key d') ->
      (forall key y, In (key, y) d' -> exists x, In (key, x) d /\ covers x y) ->
      covers (VMap k t d) (VMap k t d').

(** Values without parts. *)
Definition is_leaf (v : pyval) : Prop := match v with VSeq _ _ _ | VMap _ _ _ => False | _ => True end.
(** Tuples whose length is part of their type. *)
Definition fixed_kind (s : strategies) (k : seqkind) : Prop := k = KTuple /\ s_tuple s = TFixed.
(** Mappings that are described by a TypedDict. *)
Definition typed_map (s : strategies) (k : mapkind) (d : list (key * pyval)) : Prop :=
  k = MDict /\ s_dict s = DTypedDict /\ string_keys d.
Definition map_class (k : mapkind) : pytype := match k with MDict => ty_dict | MProxy => ty_proxy end.
(** Plain data: no iterators and no subclasses of [dict]; signatures are one line and begin with a parenthesis; all sequences are of one kind,
    only fixed size tuples may occur besides another kind; all mappings that are not described by a TypedDict are of one kind;
    functions that get the same type are of the same class. *)
Definition plain_data (s : strategies) (v : pyval) : Prop :=
  (forall x, sub x v ->
     match x with
     | VFun f => match f_sig f with Some (p, _) => single_line p /\ exists r, p = "(" ++ r | None => True end
     | VSeq k _ _ => k <> KIter
     | VMap k t _ => t = map_class k
     | _ => True
     end) /\
  (forall k t l k' t' l', sub (VSeq k t l) v -> sub (VSeq k' t' l') v -> (fixed_kind s k <-> fixed_kind s k') -> k = k' /\ t = t') /\
  (forall k t d k' t' d', sub (VMap k t d) v -> sub (VMap k' t' d') v -> ~ typed_map s k d -> ~ typed_map s k' d' -> k = k') /\
  (forall f g, sub (VFun f) v -> sub (VFun g) v -> same_function f g -> ty_id (f_type f) = ty_id (f_type g)).
(** A class is determined by its identity: leaves of one class are the same kind of object; classes that occur as
    values have one name and arrays one element type. *)
Definition same_leaf (x y : pyval) : Prop :=
  match x, y with
  | VFun _, VFun _ => True
  | VClass _ n, VClass _ n' => n = n'
  | VModule _, VModule _ => True
  | VIO _, VIO _ => True
  | VNdarray _ d, VNdarray _ d' => d = d'
  | _, _ => is_instance x /\ is_instance y /\ type_of x = type_of y
  end.
Definition consistent_leaves (v : pyval) : Prop := forall x y, sub x v -> sub y v -> is_leaf x -> is_leaf y ->
  ty_id (type_of x) = ty_id (type_of y) -> same_leaf x y.
Definition consistent_keys (v : pyval) : Prop := forall k k', key_in k v -> key_in k' v ->
  ty_id (key_type k) = ty_id (key_type k') -> key_type k = key_type k'.

(** JSON data: [None], booleans, numbers, strings, lists, dicts with string keys. *)
Definition json (v : pyval) : Prop :=
  (forall x, sub x v ->
     match x with
     | VStr _ => True
     | VInst t => In t [ty_none; ty_bool; ty_int; ty_float]
     | VSeq KList t _ => t = ty_list
     | VMap MDict t _ => t = ty_dict
     | _ => False
     end) /\
  (forall k, key_in k v -> exists x, k = KStr x).

(** Classes and array elements that occur as values have names made of letters, digits and underscores. *)
Definition named_by_words (v : pyval) : Prop := forall x, sub x v ->
  match x with VClass _ n => word_like n | VNdarray _ d => word_like d | _ => True end.

(** No element lies beyond the limit. *)
Definition within_limit (s : strategies) (v : pyval) : Prop :=
  (forall k t l, sub (VSeq k t l) v -> limit s l = l) /\
  (forall k t d, sub (VMap k t d) v -> k = MProxy \/ s_dict s <> DTypedDict -> limit s d = d).
Definition no_doc_keys (v : pyval) : Prop := forall k, key_in k v -> ~ doc_key k.
Definition no_none_keys (v : pyval) : Prop := ~ key_in KNone v.
(** Not both an empty sequence and an empty mapping (empty fixed size tuples do not matter), nor both an empty dict and an
    empty mapping proxy. *)
Definition empties_differ (s : strategies) (v : pyval) : Prop :=
  (forall k t k' t', sub (VSeq k t []) v -> sub (VMap k' t' []) v -> fixed_kind s k) /\
  (forall t t', sub (VMap MDict t []) v -> ~ sub (VMap MProxy t' []) v).

(** The dicts of one sequence agree: values under the same key that have the same class have the same shape, and a key
    does not hold ints in one dict and floats in another. *)
Definition rows_agree (v : pyval) : Prop := forall k t l d d' key x y,
  sub (VSeq k t l) v -> In d (string_dicts l) -> In d' (string_dicts l) -> In (key, x) d -> In (key, y) d' ->
  (ty_id (type_of x) = ty_id (type_of y) -> covers x y) /\
  ~ (ty_id (type_of x) = t_int /\ ty_id (type_of y) = t_float).
(** If the dicts of two sequences have the same keys together, they have the same keys in common. *)
Definition optional_keys_agree (v : pyval) : Prop := forall k t l k' t' l',
  sub (VSeq k t l) v -> sub (VSeq k' t' l') v -> string_dicts l <> [] -> string_dicts l' <> [] ->
  (forall key, in_some (string_dicts l) key <-> in_some (string_dicts l') key) ->
  forall key, in_all (string_dicts l) key <-> in_all (string_dicts l') key.

(** All conditions together. *)
Record tidy (s : strategies) (v : pyval) : Prop := {
  tidy_plain : plain_data s v;
  tidy_leaves : consistent_leaves v;
  tidy_keys : consistent_keys v;
  tidy_unique : unique_keys v;
  tidy_nodoc : no_doc_keys v;
  tidy_limit : within_limit s v;
  tidy_empty : empties_differ s v;
  tidy_rows : s_dict s = DTypedDict -> rows_agree v;
  tidy_optional : s_dict s = DTypedDict -> optional_keys_agree v
}.

(** The conditions on names under which the declarations can be read: classes are named by words, keys are of builtin
    classes; TypedDicts have names in camel case, keys that need no escapes and no docstring. *)
Definition names_ok (s : strategies) (v : pyval) (n : string) : Prop :=
  ordinary_types v /\ named_by_words v /\ builtin_keys v /\
  (s_dict s = DTypedDict -> camel_name n /\ solid_types v /\ (forall k, key_in (KStr k) v -> quotable k) /\
     (s_key_doc s = "" \/ ~ key_in (KStr (s_key_doc s)) v)).
