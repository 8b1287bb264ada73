(** The form of a declaration, as the value and the strategies demand it. *)
From Coq Require Import Ascii String List Bool Arith.
From Verif Require Import PyStr Strategies Dispatch Values Emit SpecTypes SpecData SpecMerge.
Import ListNotations.
Local Open Scope string_scope.

(** Built-in classes are named, others are quoted. *)
Definition names_class (c : string) (u : ty) : Prop := (In c builtin_classes /\ u = TName c) \/ (~ In c builtin_classes /\ u = TStr c).
Definition list_class (s : strategies) : string := match s_list s with LList => "List" | LSequence => "Sequence" end.

(** [has_form s v n d]: [d] is a declaration of [n] that suits the value [v].  The type arguments are left open. *)
Inductive has_form (s : strategies) : pyval -> string -> decl -> Prop :=
  | form_str x n : has_form s (VStr x) n (DAlias n (TName "str"))
  | form_none t n : ty_id t = t_NoneType -> has_form s (VInst t) n (DAlias n (TApp "Optional" [TName "object"]))
  | form_inst t n u : ty_id t <> t_NoneType -> names_class (ty_name t) u -> has_form s (VInst t) n (DAlias n u)
  | form_class m c n u : names_class c u -> has_form s (VClass m c) n (DAlias n (TApp "Type" [u]))
  | form_opaque f n : f_sig f = None -> has_form s (VFun f) n (DAlias n (TName "Callable"))
  | form_lambda f sg k n : f_sig f = Some (sg, k) -> f_lambda f = true ->
      has_form s (VFun f) n (DAlias n (TApp "Callable" [TArgs (repeat (TName "Any") k); TName "Any"]))
  | form_fun f sg k n r : f_sig f = Some (sg, k) -> f_lambda f = false -> has_form s (VFun f) n (DProto n (sg ++ r))
  | form_module t n : has_form s (VModule t) n (DAlias n (TName "ModuleType"))
  | form_io t n : has_form s (VIO t) n (DAlias n (TName "TextIO"))
  | form_array t d n : has_form s (VNdarray t d) n (DAlias n (TStr ("NDArray[np." ++ d ++ "]")))
  | form_list t l n u : has_form s (VSeq KList t l) n (DAlias n (TApp (list_class s) [u]))
  | form_tuple t l n us : s_tuple s = TFixed -> has_form s (VSeq KTuple t l) n (DAlias n (TApp "Tuple" us))
  | form_tuple_any t l n u : s_tuple s = TAnySize -> has_form s (VSeq KTuple t l) n (DAlias n (TApp "Tuple" [u; TDots]))
  | form_set t l n u : ty_id t <> t_frozenset -> has_form s (VSeq KSet t l) n (DAlias n (TApp "Set" [u]))
  | form_frozenset t l n u : ty_id t = t_frozenset -> has_form s (VSeq KSet t l) n (DAlias n (TApp "FrozenSet" [u]))
  | form_iterator t l n u : has_form s (VSeq KIter t l) n (DAlias n (TApp "Iterator" [u]))
  | form_series t l n u : has_form s (VSeq KSeries t l) n (DAlias n (TApp "pd.Series" [u]))
  | form_proxy t kvs n a u : has_form s (VMap MProxy t kvs) n (DAlias n (TApp "MappingProxyType" [a; u]))
  | form_typed t kvs n b fs doc : s_dict s = DTypedDict -> string_keys kvs -> has_form s (VMap MDict t kvs) n (DTyped n b fs doc)
  | form_dict t kvs n a u : s_dict s = DDict \/ (s_dict s = DTypedDict /\ ~ string_keys kvs) ->
      has_form s (VMap MDict t kvs) n (DAlias n (TApp "Dict" [a; u]))
  | form_mapping t kvs n a u : s_dict s = DMapping -> has_form s (VMap MDict t kvs) n (DAlias n (TApp "Mapping" [a; u])).

(** Only mapping proxies belong to a class named [mappingproxy]. *)
Definition honest_maps (v : pyval) : Prop := forall x, sub x v ->
  match x with VMap MProxy t _ => ty_name t = "mappingproxy" | VMap MDict t _ => ty_name t <> "mappingproxy" | _ => True end.

(** The same kind of value of the same class, with other contents. *)
Definition alike (x w : pyval) : Prop :=
  match x, w with
  | VSeq k t _, VSeq k' t' _ => k = k' /\ t = t'
  | VMap k t _, VMap k' t' _ => k = k' /\ t = t'
  | _, _ => x = w
  end.
