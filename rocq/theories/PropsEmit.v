(** Property theorems about the generated declarations. *)
From Coq Require Import Ascii String List Bool Arith ZArith Lia Permutation.
From Verif Require Import PyStr Utils Strategies Dispatch Imports Values Tree Build Emit SpecNames SpecData SpecMerge SpecTypes SpecEmit.
From Verif Require Import PyStrFacts TreeFacts BuildFacts TreeProofs SmallFacts GroupFacts Elab ElabFacts Provenance DictInv EmitFacts EmitTop TypedFacts AlikeFacts Samples SampleEmit.
Import ListNotations.
Local Open Scope string_scope.
Local Open Scope nat_scope.

Definition ty_fun : pytype := PyType 951 "function".
(** A value with most kinds of nodes. *)
Definition team : pyval :=
  vdict [("name", vstr);
         ("points", vlist [vdict [("x", vint); ("y", vfloat)]; vdict [("x", vfloat)]; vlist [vlist [vint]]; vtuple [vint; vstr; vlist [vlist [vbool]]]]);
         ("first", vdict [("class", vnone); ("b c", vset [vint; vfloat; vstr])]);
         ("call", VFun (PyFun ty_fun true (Some ("(a, b)", 2)) None)); ("kind", VClass (PyType 1 "type") "Thing")].
Ltac hyps := repeat match goal with |- _ /\ _ => split end;
  first [apply default_valid | apply as_inserted_set_like | apply ordinaryb_spec; reflexivity | apply plain_textsb_spec; reflexivity
       | apply builtin_keysb_spec; reflexivity | apply solid_typesb_spec; reflexivity | apply camel_nameb_spec; reflexivity
       | apply unique_keysb_spec; reflexivity | idtac].

(** ** C12: references are declared before use.
    Full claim: for all values and class names, every name a declaration mentions is declared earlier, imported or
    built in.  Proved when the classes of all keys are built in and, with the TypedDict strategy, the class name and
    the names of all classes are made of letters and digits and the class name starts with a capital letter.
    False otherwise: a field of a TypedDict refers to the camel-cased name of the child, which is not the name under
    which the child is declared; and the name of the class of a key is written without any import. *)
Theorem C12_declared_before_use_partial : forall s ord v n t texts,
  valid s -> set_like ord -> ordinary_types v -> plain_texts v -> builtin_keys v ->
  (s_dict s = DTypedDict -> camel_name n /\ solid_types v) ->
  from_data s ord v n = Ok t -> declarations s t = Some texts ->
  exists ds, texts = map print_decl ds /\ names_resolved (recorded_imports s t) ds.
Proof. intros. eapply from_data_resolved; eauto. Qed.
Print Assumptions C12_declared_before_use_partial.

Example C12_hypotheses : valid default_strategies /\ set_like as_inserted /\ ordinary_types team /\ plain_texts team /\ builtin_keys team /\
  camel_name "Team" /\ solid_types team /\ exists t texts, from_data default_strategies as_inserted team "Team" = Ok t /\
  declarations default_strategies t = Some texts /\ List.length texts = 8.
Proof. hyps. do 2 eexists. split; [vm_compute; reflexivity|]. split; [vm_compute; reflexivity|]. vm_compute; reflexivity. Qed.

(** A mentioned name that is declared nowhere, not built in and provided by no import. *)
Definition dangling (ds : list decl) (x : string) : Prop :=
  (exists d, In d ds /\ In x (mentioned d)) /\ ~ In x (map declared ds) /\ ~ In x builtin_classes /\ forall kw, ~ provides kw x.
Definition providesb (x : string) : bool := existsb (fun e => String.eqb x (snd (snd e))) PACKAGE || String.eqb x "pd.Series".
Lemma providesb_spec x : providesb x = false -> forall kw, ~ provides kw x.
Proof.
  intros H kw [(p & F)|[_ ->]]; [|vm_compute in H; discriminate]. apply orb_false_iff in H as [H _]. apply not_true_iff_false in H. apply H.
  apply existsb_exists. exists (kw, (p, x)). split; auto. apply String.eqb_refl.
Qed.
Ltac not_in := let F := fresh in intros F; apply mem_spec in F; vm_compute in F; discriminate.
Definition key_class : pytype := PyType 950 "Color".
Theorem C12_declared_before_use_refuted :
  (exists v t ds x, from_data default_strategies as_inserted v "example" = Ok t /\ ordinary_types v /\ builtin_keys v /\
     declarations default_strategies t = Some (map print_decl ds) /\ dangling ds x) /\
  (exists v t ds x, from_data default_strategies as_inserted v "Example" = Ok t /\ ordinary_types v /\
     declarations default_strategies t = Some (map print_decl ds) /\ dangling ds x).
Proof.
  split.
  - exists (vdict [("a", vdict [("b", vint)])]).
    destruct (from_data default_strategies as_inserted (vdict [("a", vdict [("b", vint)])]) "example") as [t| |] eqn:E; try (vm_compute in E; discriminate).
    exists t, (decls default_strategies t), "ExampleA". split; auto. split; [apply ordinaryb_spec; reflexivity|]. split; [apply builtin_keysb_spec; reflexivity|].
    vm_compute in E. injection E as <-. split; [vm_compute; reflexivity|]. split; [|split; [|split]].
    + eexists. split; [right; left; reflexivity|]. vm_compute. tauto.
    + not_in.
    + not_in.
    + apply providesb_spec. reflexivity.
  - exists (VMap MDict ty_dict [(KObj key_class 0, vint)]).
    destruct (from_data default_strategies as_inserted (VMap MDict ty_dict [(KObj key_class 0, vint)]) "Example") as [t| |] eqn:E; try (vm_compute in E; discriminate).
    exists t, (decls default_strategies t), "Color". split; auto. split; [apply ordinaryb_spec; reflexivity|].
    vm_compute in E. injection E as <-. split; [vm_compute; reflexivity|]. split; [|split; [|split]].
    + eexists. split; [left; reflexivity|]. vm_compute. tauto.
    + not_in.
    + not_in.
    + apply providesb_spec. reflexivity.
Qed.
Print Assumptions C12_declared_before_use_refuted.

(** ** C27: imports are complete.
    Full claim: every typing construct used by a declaration has been recorded and every recorded keyword is in the
    table.  Proved for all declarations except the signatures of functions, which are copied as text; there the names
    after a comma inside brackets are missed. *)
Theorem C27_imports_complete_partial : forall s ord v n t texts,
  valid s -> set_like ord -> ordinary_types v -> plain_texts v ->
  from_data s ord v n = Ok t -> declarations s t = Some texts ->
  (exists ds, texts = map print_decl ds /\ forall d x, In d ds -> In x (mentioned d) ->
    imported (recorded_imports s t) x \/ In x builtin_classes \/
    (exists c, node_of c t /\ (x = tname c \/ x = to_camel_case (tname c))) \/ (exists k, key_in k v /\ x = ty_name (key_type k))) /\
  (forall kw, In kw (recorded_imports s t) -> In kw (map fst PACKAGE)).
Proof. intros. split; [eapply from_data_names_known; eauto|]. apply recorded_known. Qed.
Print Assumptions C27_imports_complete_partial.

Example C27_hypotheses : valid default_strategies /\ set_like as_inserted /\ ordinary_types team /\ plain_texts team /\
  exists t texts, from_data default_strategies as_inserted team "Team" = Ok t /\ declarations default_strategies t = Some texts /\
  List.length (recorded_imports default_strategies t) = 11.
Proof. hyps. do 2 eexists. split; [vm_compute; reflexivity|]. split; [vm_compute; reflexivity|]. vm_compute; reflexivity. Qed.

Definition annotated_function : pyval := VFun (PyFun ty_fun false (Some ("(x: Dict[str, Sequence[int]]) -> int", 1)) None).
Theorem C27_imports_complete_refuted : exists t text, from_data default_strategies as_inserted annotated_function "Example" = Ok t /\
  declarations default_strategies t = Some [text] /\ contains " Sequence[int]" text = true /\
  ~ imported (recorded_imports default_strategies t) "Sequence".
Proof.
  do 2 eexists. split; [vm_compute; reflexivity|]. split; [vm_compute; reflexivity|]. split; [vm_compute; reflexivity|].
  intros (kw & H & P). vm_compute in H. destruct H as [<-|[<-|[]]]; (destruct P as [(p & F)|[F _]]; [|discriminate]); cbn in F;
    repeat (destruct F as [F|F]; [discriminate|]); destruct F.
Qed.
Print Assumptions C27_imports_complete_refuted.

(** ** C18: unions are canonical.  For every node that is a sequence (a tuple with the any-size strategy) or a
    mapping that is not a TypedDict: the printed type is the canonical union of what its children are written as. *)
Theorem C18_unions_canonical :
  (forall s n k, tkind n = NSeq k -> (k = KTuple -> s_tuple s = TAnySize) ->
     exists h u, fst (top s n) = tname n ++ ": TypeAlias = " ++ h ++ "[" ++ u ++ dots k ++ "]" /\
       In h ["List"; "Sequence"; "Tuple"; "Set"; "FrozenSet"; "Iterator"; "pd.Series"] /\
       canonical_union (map (written s) (iter_children n)) u) /\
  (forall s n, is_td s n = false -> (tkind n = NProxy \/ exists d m, tkind n = NDict d m) ->
     exists h ks u, fst (top s n) = tname n ++ ": TypeAlias = " ++ h ++ "[" ++ ks ++ ", " ++ u ++ "]" /\ In h ["MappingProxyType"; "Mapping"; "Dict"] /\
       canonical_union (map (fun e => ty_name (key_type (ekey e))) (tcs n)) ks /\ canonical_union (map (written s) (iter_children n)) u) /\
  (forall l l' u u', (forall x, In x l <-> In x l') -> canonical_union l u -> canonical_union l' u' -> u = u').
Proof. split; [exact seq_text|]. split; [exact map_text|]. exact canonical_unique. Qed.
Print Assumptions C18_unions_canonical.

Example C18_example : exists t, from_data default_strategies as_inserted (vlist [vstr; vint; vfloat; vlist [vint]; vlist [vfloat]; vint]) "Example" = Ok t /\
  fst (top default_strategies t) = "Example: TypeAlias = List[Union[List[float], List[int], float, str]]" /\ tkind t = NSeq KList.
Proof. eexists. split; [vm_compute; reflexivity|]. split; vm_compute; reflexivity. Qed.

(** ** C17: fixed tuple hints have the arity of the tuple.
    Full claim: one type per element, in order.  Proved for the elements within the element limit and class names
    other than A, An and Any.  Elements beyond the limit are dropped, which refutes the claim. *)
Theorem C17_tuple_arity_partial : forall s ord ty l n t,
  valid s -> set_like ord -> ordinary_types (VSeq KTuple ty l) -> plain_texts (VSeq KTuple ty l) ->
  s_tuple s = TFixed -> l <> [] -> ~ In n ["A"; "An"; "Any"] ->
  from_data s ord (VSeq KTuple ty l) n = Ok t ->
  exists cs, fst (top s t) = n ++ ": TypeAlias = Tuple[" ++ join ", " (map (written s) cs) ++ "]" /\ cs = map etree (tcs t) /\
    List.length cs = match s_max_n s with Some (S m) => Nat.min (S m) (List.length l) | _ => List.length l end /\
    Forall2 kind_of_value (limit s l) cs.
Proof.
  intros s ord ty l n t Hs Ho Hv Hp T Hl Hn H. destruct (tuple_text s ord ty l n t Hs Ho Hv Hp T Hl Hn H) as [A B].
  exists (map etree (tcs t)). split; auto. split; auto. split; auto. replace (List.length (map etree (tcs t))) with (List.length (limit s l)) by (clear -B; induction B; simpl; auto). unfold limit, effective_limit.
  destruct (s_max_n s) as [[|m]|]; auto. apply firstn_length.
Qed.
Print Assumptions C17_tuple_arity_partial.
Example C17_example : exists t, from_data default_strategies as_inserted (vtuple [vint; vstr; vint; vdict [("a", vint)]]) "Example" = Ok t /\
  fst (top default_strategies t) = "Example: TypeAlias = Tuple[int, str, int, ExampleDict]".
Proof. eexists. split; [vm_compute; reflexivity|]. vm_compute; reflexivity. Qed.

Definition limit_2 : strategies := Strategies LList TFixed DTypedDict (s_pandas default_strategies) 1 "" 50 false (Some 2).
Theorem C17_tuple_arity_refuted : exists t, valid limit_2 /\ from_data limit_2 as_inserted (vtuple [vint; vstr; vfloat]) "Example" = Ok t /\
  fst (top limit_2 t) = "Example: TypeAlias = Tuple[int, str]".
Proof.
  eexists. split; [exists (Raw "list" "fixed" "TypedDict" "Full type hint" 1 "" 50 false (Some 2%Z)); reflexivity|]. split; [vm_compute; reflexivity|]. vm_compute; reflexivity.
Qed.
Print Assumptions C17_tuple_arity_refuted.

(** ** C23 (fields) and C24: the fields of a TypedDict.  [m] is the metadata of the node; for a dict that was not merged
    all keys are required (C24_plain_dict); for merged dicts C21 tells which keys are optional. *)
Theorem C24_typed_dict_fields : forall s ord v n t, set_like ord -> unique_keys v -> from_data s ord v n = Ok t ->
  forall c D m, node_of c t -> tkind c = NDict D m -> is_td s c = true ->
  exists f fields doc, decl_of s c = DTyped (tname c) f fields doc /\
    map (fun x => KStr (fd_key x)) fields = map ekey (tcs c) /\ NoDup (map fd_key fields) /\
    (forall k, ~ doc_key (KStr k) -> (In k (map fd_key fields) <-> has_key (KStr k) D)) /\
    (forall x, In x fields -> ~ doc_key (KStr (fd_key x))) /\
    map fd_type fields = map (fun e => wrapped (s_read_only s) (optional m (ekey e)) (typed_ref s (snd e) (rhs s (snd e)))) (tcs c).
Proof.
  intros s ord v n t Ho Hu H c D m Hc K T. unfold from_data in H. destruct (is_compatible n); [|discriminate].
  pose proof (build_dinv s ord Ho _ _ _ _ _ _ Hu H c Hc) as Hd. destruct (typed_fields s c D m Hd K T) as (A1 & A2 & A3 & A4 & A5).
  do 3 eexists. split; [exact A1|]. split; [exact A2|]. split; [exact A3|]. split; [|split; [exact A4|exact A5]].
  intros k Hk. destruct (Hd D m K) as (_ & B & _). rewrite (B _ Hk). unfold child_key. rewrite <- A2. rewrite in_map_iff. rewrite in_map_iff. split.
  - intros (x & <- & Hx). eauto.
  - intros (x & E & Hx). injection E as E. eauto.
Qed.
Print Assumptions C24_typed_dict_fields.

(** The root: all fields are required, in the order of the dict. *)
Theorem C24_plain_dict : forall s ord ty kvs n t, set_like ord -> s_dict s = DTypedDict -> unique_keys (VMap MDict ty kvs) -> string_keys kvs ->
  from_data s ord (VMap MDict ty kvs) n = Ok t ->
  exists f fields doc, decl_of s t = DTyped n f fields doc /\
    map (fun x => KStr (fd_key x)) fields = filter (fun k => negb (is_hidden k)) (map fst kvs) /\
    map fd_type fields = map (fun e => wrapped (s_read_only s) false (typed_ref s (snd e) (rhs s (snd e)))) (tcs t) /\
    List.length fields = List.length (tcs t).
Proof.
  intros s ord ty kvs n t Ho Hs Hu Hk H. pose proof H as H0. unfold from_data in H. destruct (is_compatible n); [|discriminate].
  assert (TS : is_td_strategy s = true) by (unfold is_td_strategy; now rewrite Hs).
  destruct (build_dict_node s ord _ _ _ _ _ _ _ TS H) as [K C].
  assert (T : is_td s t = true).
  { unfold is_td, node_is_typed_dict. rewrite K. unfold is_typed_dict. rewrite TS, andb_true_r. unfold all_str. apply forallb_forall. cbn [init_meta m_data].
    intros kv Hkv. destruct (Hk (fst kv)) as (x & E); [unfold has_key; now apply in_map|]. now rewrite E. }
  pose proof (build_dinv s ord Ho _ _ _ _ _ _ Hu H t (node_refl _)) as Hd. destruct (typed_fields s t _ _ Hd K T) as (A1 & A2 & A3 & A4 & A5).
  assert (Tn : tname t = n). { now apply TotalFacts.build_from_els in H as [_ H]. } rewrite Tn in A1.
  do 3 eexists. split; [exact A1|]. split; [rewrite A2; exact C|]. split.
  - rewrite A5. apply map_ext_in. intros e He. f_equal. destruct (td_node s t _ _ Hd K T) as [E _]. destruct (E e He) as (ND & _ & R).
    unfold optional. destruct (dget (ekey e) (m_required (init_meta kvs))) as [[]|] eqn:G; auto.
    exfalso. destruct (MergeFacts.meta_ok_init kvs) as [M _]. destruct (M (ekey e) ND) as (_ & M1 & M2 & M3).
    assert (has_key (ekey e) kvs) as HK by (apply M3; congruence). apply M2 in HK. congruence.
  - apply (f_equal (@List.length key)) in A2. now rewrite !map_length in A2.
Qed.
Print Assumptions C24_plain_dict.

Example C24_example : set_like as_inserted /\ unique_keys team /\ exists t c D m,
  from_data default_strategies as_inserted team "Team" = Ok t /\ node_of c t /\ tkind c = NDict D m /\ is_td default_strategies c = true /\
  tname c = "TeamPointsDict" /\ map (fun e => optional m (ekey e)) (tcs c) = [false; true].
Proof.
  split; [apply as_inserted_set_like|]. split; [apply unique_keysb_spec; reflexivity|].
  destruct (from_data default_strategies as_inserted team "Team") as [t| |] eqn:E; try (vm_compute in E; discriminate). exists t.
  assert (F : find (fun c => String.eqb (tname c) "TeamPointsDict") (nodes t) <> None) by (vm_compute in E; injection E as <-; vm_compute; discriminate).
  destruct (find (fun c => String.eqb (tname c) "TeamPointsDict") (nodes t)) as [c|] eqn:G; [|congruence]. clear F.
  pose proof G as G'. apply find_some in G' as [G1 _]. exists c. apply nodes_node_of in G1.
  vm_compute in E. injection E as <-. vm_compute in G. injection G as <-. do 2 eexists. split; auto. split; auto. split; [reflexivity|]. split; [reflexivity|]. split; reflexivity.
Qed.
Theorem C23_no_doc_fields : forall s ord v n t, set_like ord -> unique_keys v -> from_data s ord v n = Ok t ->
  forall c, node_of c t -> forall nm f fields doc, decl_of s c = DTyped nm f fields doc -> forall x, In x fields -> ~ doc_key (KStr (fd_key x)).
Proof.
  intros s ord v n t Ho Hu H c Hc nm f fields doc E x Hx.
  assert (T : is_td s c = true /\ exists D m, tkind c = NDict D m).
  { unfold decl_of in E. unfold is_td, node_is_typed_dict. destruct (tkind c); try discriminate.
    - unfold fun_decl in E. destruct (f_sig f0) as [[]|]; [destruct (f_lambda f0)|]; discriminate.
    - destruct (is_typed_dict s m); [eauto|discriminate]. }
  destruct T as (T & D & m & K). destruct (C24_typed_dict_fields s ord v n t Ho Hu H c D m Hc K T) as (f' & fields' & doc' & E' & _ & _ & _ & G & _).
  rewrite E in E'. injection E' as _ _ <- _. auto.
Qed.
Print Assumptions C23_no_doc_fields.
Example C23_fields_example : exists t f fields doc,
  from_data default_strategies as_inserted (vdict [("___docstring_hidden_key_a", vstr); ("a", vint); ("___docstring_hidden_key_", vstr)]) "Example" = Ok t /\
  unique_keys (vdict [("___docstring_hidden_key_a", vstr); ("a", vint); ("___docstring_hidden_key_", vstr)]) /\
  decl_of default_strategies t = DTyped "Example" f fields doc /\ map fd_key fields = ["a"].
Proof. do 4 eexists. split; [vm_compute; reflexivity|]. split; [apply unique_keysb_spec; reflexivity|]. split; reflexivity. Qed.

(** ** C25: class and functional syntax.
    Full claim: class syntax exactly when all keys can be written as attributes of a class; in the functional syntax the
    text between the quotes reads as the key.  Proved for keys without the characters of [odd_char], with a letter or
    digit; and for keys without quotes, backslashes and line ends.  False for the key [_], for keys with a quote, and for
    keys such as [__a], which class syntax mangles. *)
Definition mangled (k : string) : Prop := (exists r, k = "__" ++ r) /\ ~ exists r, k = r ++ "__".
Theorem C25_syntax_partial : forall s c D m, tkind c = NDict D m -> is_td s c = true ->
  (forall k, has_key (KStr k) (m_data m) -> plain k /\ has_letter_or_digit k) ->
  exists f fields doc, decl_of s c = DTyped (tname c) f fields doc /\
    (f = false <-> forall k, has_key (KStr k) (m_data m) -> class_statement_name k) /\
    (forall x, In x fields -> quotable (fd_key x) -> exists lit, print_item x = TAB ++ TAB ++ dq ++ lit ++ dq ++ ": " ++ print_ty (fd_type x) ++ "," /\ reads lit (fd_key x)).
Proof.
  intros s c D m K T H. assert (TD : is_typed_dict s m = true) by (unfold is_td, node_is_typed_dict in T; now rewrite K in T).
  assert (A : all_str (m_data m) = true) by (unfold is_typed_dict in TD; now apply andb_true_iff in TD).
  do 3 eexists. split; [unfold decl_of; rewrite K, TD; reflexivity|]. split; [now apply functional_spec|].
  intros x _ Hq. exists (fd_key x). split; [reflexivity|]. now apply quotable_reads.
Qed.
Print Assumptions C25_syntax_partial.
Example C25_hypotheses : exists t D m, from_data default_strategies as_inserted (vdict [("a", vint); ("b_1", vstr)]) "Example" = Ok t /\
  tkind t = NDict D m /\ is_td default_strategies t = true /\ (forall k, has_key (KStr k) (m_data m) -> plain k /\ has_letter_or_digit k) /\
  (forall k, has_key (KStr k) (m_data m) -> class_statement_name k) /\ functional_syntax m = false.
Proof.
  do 3 eexists. split; [vm_compute; reflexivity|]. split; [reflexivity|]. split; [reflexivity|].
  assert (G : forall k, In k ["a"; "b_1"] -> plain k /\ identifier k /\ has_letter_or_digit k).
  { intros k Hk. assert (P : plain k) by (destruct Hk as [<-|[<-|[]]]; apply plain_spec; reflexivity). split; auto.
    apply NamesFacts.is_compatible_identifier; auto. destruct Hk as [<-|[<-|[]]]; reflexivity. }
  assert (I : forall k, has_key (KStr k) [(KStr "a", vint); (KStr "b_1", vstr)] -> In k ["a"; "b_1"]).
  { intros k [E|[E|[]]]; injection E as <-; cbn; tauto. }
  split; [|split].
  - intros k Hk. destruct (G k (I k Hk)) as (A & _ & B). auto.
  - intros k Hk. destruct (G k (I k Hk)) as (_ & A & _). split; auto. apply I in Hk. destruct Hk as [<-|[<-|[]]]; not_in.
  - reflexivity.
Qed.
Theorem C25_syntax_refuted :
  (exists t m, from_data default_strategies as_inserted (vdict [("_", vint)]) "Example" = Ok t /\ tkind t = NDict [(KStr "_", vint)] m /\
     class_statement_name "_" /\ functional_syntax m = true) /\
  (exists t f fields, from_data default_strategies as_inserted (vdict [("a" ++ dq, vint)]) "Example" = Ok t /\
     decl_of default_strategies t = DTyped "Example" true fields None /\ In f fields /\
     print_item f = TAB ++ TAB ++ dq ++ ("a" ++ dq) ++ dq ++ ": int," /\ ~ reads ("a" ++ dq) (fd_key f)) /\
  (exists t fields, from_data default_strategies as_inserted (vdict [("__a", vint)]) "Example" = Ok t /\
     decl_of default_strategies t = DTyped "Example" false fields None /\ map fd_key fields = ["__a"] /\ mangled "__a").
Proof.
  split; [|split].
  - do 2 eexists. split; [vm_compute; reflexivity|]. split; [reflexivity|]. split; [|reflexivity]. split; [|not_in].
    constructor; [|constructor]. right. right. left. reflexivity.
  - do 3 eexists. split; [vm_compute; reflexivity|]. split; [vm_compute; reflexivity|]. split; [left; reflexivity|]. split; [reflexivity|].
    cbn [fd_key]. intros H. apply reads_quotable in H. apply (H """"%char); [cbn; tauto|cbn; tauto].
  - do 2 eexists. split; [vm_compute; reflexivity|]. split; [vm_compute; reflexivity|]. split; [reflexivity|]. split; [exists "a"; reflexivity|].
    intros (r & E). destruct r as [|a [|b [|c r]]]; try discriminate. destruct r; discriminate.
Qed.
Print Assumptions C25_syntax_refuted.

(** ** C26: raising the height for aliases.
    Full claim: with a larger minimal height no node is declared that was not declared before; TypedDicts, functions and
    the root are always declared.  Proved for data without [None] among the keys of its mappings; children behind a [None]
    key are not visited (the iteration of a mapping stops there), which refutes the second half. *)
Theorem C26_min_height_partial : forall s s' ord v n t, set_like ord ->
  s_tuple s = s_tuple s' -> s_dict s = s_dict s' -> s_merge s = s_merge s' -> s_max_n s = s_max_n s' -> s_min_height s <= s_min_height s' ->
  from_data s ord v n = Ok t ->
  from_data s' ord v n = Ok t /\ incl (collect s' t) (collect s t) /\ In t (collect s' t) /\
  ((forall k, key_in k v -> k <> KNone) -> forall c, node_of c t -> is_td s c = true \/ (exists f, tkind c = NFun f) -> In c (collect s' t)).
Proof.
  intros s s' ord v n t Ho A1 A2 A3 A4 Hh H. assert (A : alike s s') by (repeat split; auto).
  assert (M : effective_limit s = effective_limit s') by (unfold effective_limit; now rewrite A4).
  split; [now rewrite <- (alike_from_data s s' A M)|]. split; [now apply collect_anti|].
  assert (R : In t (collect s' t)).
  { pose proof H as H0. unfold from_data in H. destruct (is_compatible n); [|discriminate]. apply build_root in H as [R D]. now apply root_collected. }
  split; auto. intros Hk c Hc Hf.
  assert (P : perm s' c = true).
  { destruct Hf as [T|(f & K)].
    - rewrite (alike_is_td s s' A) in T. unfold is_td, node_is_typed_dict in T. unfold perm. destruct (tkind c); try discriminate. now rewrite T.
    - unfold perm. now rewrite K. }
  destruct (always_collected s' t c) as [->|F]; auto. apply visited_all; auto. intros x e Hx He.
  destruct (from_data_keys s ord v n t (fun k => k <> KNone) Ho Hk H x e Hx He) as [G| ->]; [exact G|discriminate].
Qed.
Print Assumptions C26_min_height_partial.
Definition height_2 : strategies := Strategies LList TFixed DTypedDict (s_pandas default_strategies) 2 "" 50 false (Some 500).
Example C26_example : exists t, from_data default_strategies as_inserted team "Team" = Ok t /\ (forall k, key_in k team -> k <> KNone) /\
  List.length (collect default_strategies t) = 14 /\ List.length (collect height_2 t) = 10.
Proof.
  eexists. split; [vm_compute; reflexivity|]. split; [|split; vm_compute; reflexivity].
  intros k Hk. apply key_in_keys in Hk. intros ->. vm_compute in Hk. repeat (destruct Hk as [Hk|Hk]; [discriminate|]). destruct Hk.
Qed.
Theorem C26_min_height_refuted : exists v t c, from_data default_strategies as_inserted v "Example" = Ok t /\ node_of c t /\
  is_td default_strategies c = true /\ ~ In c (collect default_strategies t).
Proof.
  exists (VMap MDict ty_dict [(KNone, vint); (KStr "a", vdict [("b", vint)])]).
  do 2 eexists. split; [vm_compute; reflexivity|]. split; [eapply node_child; [right; left; reflexivity|constructor]|]. split; [reflexivity|].
  vm_compute. intros [F|[]]. discriminate.
Qed.
Print Assumptions C26_min_height_refuted.

(** ** C31: the result of to_string depends on its argument only.
    Full claim: in every history of calls on one tree the result of a call is that of the same call on a fresh tree.
    The result is cached regardless of the argument, so this holds only for histories that repeat one argument; the first
    argument decides for all of them. *)
Theorem C31_to_string_partial : forall s t a args,
  to_strings s t (a :: args) = repeat (to_string s t a) (S (List.length args)).
Proof. intros. unfold to_strings. rewrite cached_calls_none. unfold to_string. rewrite map_repeat. reflexivity. Qed.
Print Assumptions C31_to_string_partial.
Theorem C31_to_string_refuted : exists t args, from_data default_strategies as_inserted (vlist [vint]) "Example" = Ok t /\
  to_strings default_strategies t args <> map (to_string default_strategies t) args.
Proof. exists (match from_data default_strategies as_inserted (vlist [vint]) "Example" with Ok t => t | _ => Node (Info "" 0 0 false NInst ty_int) [] end), [false; true]. split; [reflexivity|]. vm_compute. discriminate. Qed.
Print Assumptions C31_to_string_refuted.
Example C31_example : exists t, from_data default_strategies as_inserted (vlist [vint]) "Example" = Ok t /\
  to_strings default_strategies t [true; true] = map (to_string default_strategies t) [true; true] /\ to_string default_strategies t true <> None.
Proof. eexists. split; [vm_compute; reflexivity|]. split; vm_compute; [reflexivity|discriminate]. Qed.

(** ** C35: hints of functions.
    Full claim: a lambda with k parameters becomes Callable with k times Any; any other inspectable function becomes a
    Protocol with its own signature, to which a return annotation is added exactly when it has none.  Proved for signatures
    whose parameter list does not contain an arrow; false for [def f(x="->")]. *)
Theorem C35_function_hints_partial : forall s ord f n t params ret k,
  from_data s ord (VFun f) n = Ok t -> f_sig f = Some (signature params ret, k) ->
  (f_lambda f = true -> declarations s t = Some [n ++ ": TypeAlias = Callable[[" ++ join ", " (repeat "Any" k) ++ "], Any]"]) /\
  (f_lambda f = false -> forall r, ret = Some r ->
     declarations s t = Some ["class " ++ n ++ "(Protocol):" ++ nl ++ TAB ++ "def __call__" ++ signature params (Some r) ++ ": ..."]) /\
  (f_lambda f = false -> ret = None -> contains "->" params = false -> forall b, f_return f = Some b ->
     declarations s t = Some ["class " ++ n ++ "(Protocol):" ++ nl ++ TAB ++ "def __call__" ++ signature params (Some (if b then "Any" else "None")) ++ ": ..."]).
Proof.
  intros s ord f n t params ret k H Sg. rewrite (fun_declarations s ord f n t H). unfold function_top. rewrite Sg, arrow_signature. split; [|split].
  - intros ->. reflexivity.
  - intros -> r ->. cbv zeta. unfold fst. now rewrite !app_assoc_s.
  - intros -> -> -> b ->. cbv zeta. destruct b; unfold fst, signature; rewrite !app_assoc_s; reflexivity.
Qed.
Print Assumptions C35_function_hints_partial.
Definition arrow_function : pyfun := PyFun ty_fun false (Some (signature "x='->'" None, 1)) (Some false).
Theorem C35_function_hints_refuted : exists t, from_data default_strategies as_inserted (VFun arrow_function) "Example" = Ok t /\
  declarations default_strategies t = Some ["class Example(Protocol):" ++ nl ++ TAB ++ "def __call__(x='->'): ..."].
Proof. eexists. split; [vm_compute; reflexivity|]. vm_compute; reflexivity. Qed.
Print Assumptions C35_function_hints_refuted.
Example C35_example : exists t, from_data default_strategies as_inserted (VFun (PyFun ty_fun false (Some (signature "a, b: int" None, 2)) (Some true))) "Example" = Ok t /\
  declarations default_strategies t = Some ["class Example(Protocol):" ++ nl ++ TAB ++ "def __call__(a, b: int) -> Any: ..."].
Proof. eexists. split; [vm_compute; reflexivity|]. vm_compute; reflexivity. Qed.

(** ** C13: declared names are unique.
    Full claim: no name is declared twice with different contents.  False: the names of children are built by
    concatenation, so that different nodes can get the same name.  What holds: no text is declared twice. *)
Theorem C13_unique_names_partial : forall s t texts, declarations s t = Some texts -> NoDup texts.
Proof.
  intros s t texts H. unfold declarations in H. destruct (existsb _ _); [discriminate|]. injection H as <-.
  unfold oset_as_list. destruct (oset_adds_spec String.eqb String.eqb_eq (map (fun n => fst (top s n)) (collect s t)) oset_empty oset_ok_empty) as [[A _] _]. exact A.
Qed.
Print Assumptions C13_unique_names_partial.
Theorem C13_unique_names_refuted :
  (exists t d d', from_data default_strategies as_inserted (vdict [("a b", vdict [("x", vint)]); ("aB", vdict [("y", vint)])]) "Example" = Ok t /\
     In d (decls default_strategies t) /\ In d' (decls default_strategies t) /\ declared d = declared d' /\ print_decl d <> print_decl d') /\
  (exists t d d', from_data default_strategies as_inserted (vdict [("a", vdict [("b", vdict [("x", vint)])]); ("aB", vdict [("y", vint)])]) "Example" = Ok t /\
     In d (decls default_strategies t) /\ In d' (decls default_strategies t) /\ declared d = declared d' /\ print_decl d <> print_decl d').
Proof.
  split.
  - do 3 eexists. split; [vm_compute; reflexivity|]. split; [left; reflexivity|]. split; [right; left; reflexivity|]. split; [reflexivity|]. vm_compute. discriminate.
  - do 3 eexists. split; [vm_compute; reflexivity|]. split; [left; reflexivity|]. split; [right; right; left; reflexivity|]. split; [reflexivity|]. vm_compute. discriminate.
Qed.
Print Assumptions C13_unique_names_refuted.
Example C13_example : exists t texts, from_data default_strategies as_inserted team "Team" = Ok t /\ declarations default_strategies t = Some texts /\ List.length texts = 8.
Proof. do 2 eexists. split; [vm_compute; reflexivity|]. split; [vm_compute; reflexivity|]. vm_compute; reflexivity. Qed.
