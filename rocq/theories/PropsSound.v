(** C08, C09, C10, C22: the declarations accept the data they were generated from. *)
From Coq Require Import Ascii String List Bool Arith ZArith Lia.
From Verif Require Import PyStr PyStrFacts Strategies Dispatch Values Tree Build Emit SpecTypes SpecData SpecMerge SpecEmit Elab TreeProofs EmitFacts SpecSound SoundRead SoundTop SoundJson Samples SampleEmit SampleSound.
Import ListNotations.
Local Open Scope string_scope.
Local Open Scope nat_scope.

(** The text of readable declarations has one reading, so that "the" declarations of a text can be spoken of. *)
Lemma readings ds : Forall readable ds -> forall ds', Forall readable ds' -> map print_decl ds = map print_decl ds' -> ds = ds'.
Proof.
  induction 1 as [|d ds Hd H IH]; intros [|d' ds'] H' E; try discriminate; auto. inversion H'; subst. cbn [map] in E. injection E as E1 E2.
  f_equal; [now apply reading_unique|now apply IH].
Qed.

(** ** C08 *)

(** Partial: JSON data without documentation keys and within the element limit; not both an empty list and an empty
    dict occur; with the TypedDict strategy the dicts of one list agree where they have a key in common, lists whose
    dicts have the same keys together have the same optional keys, keys need no escapes, and the class name is in
    camel case.  Declared names must be told apart from each other and from the names of the typing module.
    Without these conditions the claim is false ([C08_…_refuted]). *)
Theorem C08_json_sound_partial : forall s ord v n t texts, valid s -> set_like ord ->
  json v -> unique_keys v -> no_doc_keys v -> within_limit s v -> empties_differ s v ->
  (s_dict s = DTypedDict -> rows_agree v /\ optional_keys_agree v /\ camel_name n /\
     (forall k, key_in (KStr k) v -> quotable k) /\ (s_key_doc s = "" \/ ~ key_in (KStr (s_key_doc s)) v)) ->
  from_data s ord v n = Ok t -> declarations s t = Some texts ->
  exists ds, texts = map print_decl ds /\ Forall readable ds /\
    (forall ds', Forall readable ds' -> texts = map print_decl ds' -> ds' = ds) /\
    (unambiguous ds v -> accepts ds (TName n) v).
Proof.
  intros s ord v n t texts Hs Ho J U N L E T H D.
  destruct (sound s ord Hs Ho v n t texts) as (ds & Ed & R & A); auto.
  - apply json_tidy; auto. intros Td. now destruct (T Td) as (? & ? & _).
  - apply json_names; auto. intros Td. now destruct (T Td) as (_ & _ & ?).
  - exists ds. split; auto. split; auto. split; auto. intros ds' R' E'. apply readings; auto. congruence.
Qed.
Print Assumptions C08_json_sound_partial.

(** With the other dict strategies the conditions on the dicts disappear. *)
Theorem C08_json_sound_plain_dicts_partial : forall s ord v n t texts, valid s -> set_like ord -> s_dict s <> DTypedDict ->
  json v -> unique_keys v -> no_doc_keys v -> within_limit s v -> empties_differ s v ->
  from_data s ord v n = Ok t -> declarations s t = Some texts ->
  exists ds, texts = map print_decl ds /\ Forall readable ds /\
    (forall ds', Forall readable ds' -> texts = map print_decl ds' -> ds' = ds) /\
    (unambiguous ds v -> accepts ds (TName n) v).
Proof. intros s ord v n t texts Hs Ho Nd J U N L E H D. apply (C08_json_sound_partial s ord v n t texts); auto. intros T. congruence. Qed.
Print Assumptions C08_json_sound_plain_dicts_partial.

Definition sample_json : pyval :=
  vdict [("name", vstr); ("rows", vlist [vdict [("x", vint); ("tags", vlist [vstr; vnone])]; vdict [("x", vint)]; vstr]);
         ("nothing", vlist []); ("two words", vbool); ("deep", vdict [("y", vlist [vlist [vfloat; vint]]); ("x", vlist [vdict [("x", vint); ("z", vlist [vnone])]])])].
Ltac run H D := match goal with |- context [from_data ?s ?o ?v ?n] => 
  destruct (from_data s o v n) as [t| |] eqn:H; [|vm_compute in H; discriminate|vm_compute in H; discriminate]; destruct (declarations s t) as [texts|] eqn:D; [|vm_compute in H; injection H as <-; vm_compute in D; discriminate] end.
Ltac done_texts t H D := exists t; eexists; (split; [reflexivity|]); (split; [exact D|]); vm_compute in H; injection H as <-; vm_compute in D; injection D as <-.
Example C08_sample : exists t texts, from_data default_strategies as_inserted sample_json "Example" = Ok t /\ declarations default_strategies t = Some texts /\
  exists ds, texts = map print_decl ds /\ length ds = 7 /\ accepts ds (TName "Example") sample_json.
Proof.
  run H D. destruct (C08_json_sound_partial default_strategies as_inserted sample_json "Example" t texts) as (ds & E & R & Uq & A); auto.
  - apply default_valid.
  - apply as_inserted_set_like.
  - apply jsonb_spec. vm_compute. reflexivity.
  - apply unique_keysb_spec. vm_compute. reflexivity.
  - apply no_doc_keysb_spec. vm_compute. reflexivity.
  - apply within_limitb_spec. vm_compute. reflexivity.
  - apply empties_differb_spec. vm_compute. reflexivity.
  - intros _. split; [apply rows_agreeb_spec; vm_compute; reflexivity|]. split; [apply optional_keys_agreeb_spec; vm_compute; reflexivity|].
    split; [apply camel_nameb_spec; vm_compute; reflexivity|]. split; [apply keys_quotableb_spec; vm_compute; reflexivity|]. now left.
  - done_texts t H D. exists ds. split; auto. split; [apply (f_equal (@length string)) in E; now rewrite map_length in E|].
    apply A. apply (unambiguous_texts _ _ _ E R). vm_compute. reflexivity.
Qed.

(** Conditions that cannot be dropped.  In each case the declarations, read in the only way, reject the data. *)
Definition rejects (s : strategies) (ord : set_order) (v : pyval) (n : string) : Prop :=
  exists t ds, from_data s ord v n = Ok t /\ declarations s t = Some (map print_decl ds) /\ Forall readable ds /\ unambiguous ds v /\ ~ accepts ds (TName n) v.

(** How a list and a declared name accept. *)
Lemma list_rejects ds u t l x : In x l -> ~ accepts ds u x -> ~ accepts ds (TApp "List" [u]) (VSeq KList t l).
Proof. intros Hx N H. inversion H; subst; eauto. Qed.
Lemma alias_rejects ds n t v : In n (map declared ds) -> ~ In n typing_names -> (forall d, In d ds -> declared d = n -> d = DAlias n t) -> ~ accepts ds t v ->
  ~ accepts ds (TName n) v.
Proof.
  intros Hn Ht U N H. inversion H; subst; try contradiction; try (now (apply Ht; apply mem_spec)).
  - match goal with D : In (DAlias _ _) ds |- _ => specialize (U _ D eq_refl); injection U as ->; contradiction end.
  - match goal with D : In (DTyped _ _ _ _) ds |- _ => specialize (U _ D eq_refl); discriminate end.
  - match goal with D : In (DProto _ _) ds |- _ => specialize (U _ D eq_refl); discriminate end.
Qed.
Lemma typed_rejects ds n b fs doc t kvs : In n (map declared ds) -> ~ In n typing_names -> (forall d, In d ds -> declared d = n -> d = DTyped n b fs doc) ->
  ((exists k x, In (k, x) kvs /\ forall f, In f fs -> k = KStr (fd_key f) -> ~ accepts ds (field_core (fd_type f)) x) \/
   (exists f, In f fs /\ field_required (fd_type f) = true /\ ~ has_key (KStr (fd_key f)) kvs)) ->
  ~ accepts ds (TName n) (VMap MDict t kvs).
Proof.
  intros Hn Ht U N H. inversion H; subst; try contradiction.
  - match goal with D : In (DAlias _ _) ds |- _ => specialize (U _ D eq_refl); discriminate end.
  - match goal with D : In (DTyped _ _ _ _) ds |- _ => specialize (U _ D eq_refl); injection U as -> -> ->  end.
    destruct N as [(k & x & Hk & N)|(f & Hf & Rf & N)]; [|now apply N; auto].
    match goal with D : forall k x, In (k, x) kvs -> _ |- _ => destruct (D k x Hk) as (f & Hf & E & A) end. exact (N f Hf E A).
Qed.
Ltac one_decl := let d := fresh "d" in let D := fresh "D" in let E := fresh "E" in intros d D E; simpl in D; repeat (destruct D as [D|D]; [subst d; solve [reflexivity | discriminate E]|]); destruct D.
Ltac undeclared := let F := fresh "F" in intros F; apply mem_spec in F; vm_compute in F; discriminate F.
Ltac by_alias u := apply (alias_rejects _ _ u); [simpl; tauto | undeclared | one_decl |].
Ltac by_class := let H := fresh "H" in intros H; inversion H; subst; repeat match goal with
  | D : In _ (_ :: _) |- _ => destruct D as [D|D]; [discriminate D|] | D : In _ [] |- _ => destruct D
  | K : class_accepts _ _ |- _ => unfold class_accepts in K; simpl in K; intuition discriminate end.
Ltac rejected l := match goal with |- rejects ?s ?o ?v ?n =>
  unfold rejects; let H := fresh "H" in destruct (from_data s o v n) as [t| |] eqn:H; [|vm_compute in H; discriminate|vm_compute in H; discriminate]; exists t; vm_compute in H; injection H as <-;
  exists l; split; [reflexivity|]; split; [vm_compute; reflexivity|]; split; [apply readableb_spec; vm_compute; reflexivity|]; split; [apply unambiguousb_spec; vm_compute; reflexivity|] end.

(** [[{"a": [1]}, {"a": ["x"]}]]: the two dicts are merged, the values of "a" are not ([rows_agree] fails). *)
Definition two_rows : pyval := vlist [vdict [("a", vlist [vint])]; vdict [("a", vlist [vstr])]].
Theorem C08_values_of_merged_dicts_refuted : json two_rows /\ rejects default_strategies as_inserted two_rows "Example".
Proof.
  split; [apply jsonb_spec; reflexivity|].
  rejected [DTyped "ExampleDict" false [Field "a" (TApp "List" [TName "str"]) None] None; DAlias "Example" (TApp "List" [TName "ExampleDict"])].
  by_alias (TApp "List" [TName "ExampleDict"]). eapply list_rejects; [left; reflexivity|].
  eapply typed_rejects; [simpl; tauto|undeclared|one_decl|]. left. do 2 eexists. split; [left; reflexivity|]. intros f [<-|[]] _. cbn [fd_type field_core mem existsb].
  eapply list_rejects; [left; reflexivity|]. by_class.
Qed.
Print Assumptions C08_values_of_merged_dicts_refuted.

(** [{"x": [{"a": 1, "b": 2}], "y": [{"a": 1, "b": 2}, {"a": 1}]}]: "y" shares the type of "x", which requires "b"
    ([optional_keys_agree] fails). *)
Definition shared_rows : pyval :=
  vdict [("x", vlist [vdict [("a", vint); ("b", vint)]]); ("y", vlist [vdict [("a", vint); ("b", vint)]; vdict [("a", vint)]])].
Theorem C08_shared_rows_refuted : json shared_rows /\ rejects default_strategies as_inserted shared_rows "Example".
Proof.
  split; [apply jsonb_spec; reflexivity|].
  rejected [DTyped "ExampleListDict" false [Field "a" (TName "int") None; Field "b" (TName "int") None] None; DAlias "ExampleList" (TApp "List" [TName "ExampleListDict"]);
            DTyped "Example" false [Field "x" (TName "ExampleList") None; Field "y" (TName "ExampleList") None] None].
  eapply typed_rejects; [simpl; tauto|undeclared|one_decl|]. left. do 2 eexists. split; [right; left; reflexivity|]. intros f [<-|[<-|[]]] E; [discriminate E|]. cbn [fd_type field_core].
  by_alias (TApp "List" [TName "ExampleListDict"]). eapply list_rejects; [right; left; reflexivity|].
  eapply typed_rejects; [simpl; tauto|undeclared|one_decl|]. right. exists (Field "b" (TName "int") None). split; [right; now left|]. split; [reflexivity|].
  intros [F|[]]. discriminate F.
Qed.
Print Assumptions C08_shared_rows_refuted.

(** [[[[]], [{}]]] with dicts as [Dict]: an empty list and an empty dict are taken for the same ([empties_differ]
    fails). *)
Definition plain_dicts : strategies := Strategies LList TFixed DDict (s_pandas default_strategies) 1 "" 50 false (Some 500).
Lemma plain_dicts_valid : valid plain_dicts.
Proof. exists (Raw "list" "fixed" "dict" "Full type hint" 1 "" 50 false (Some 500%Z)). reflexivity. Qed.
Definition two_empties : pyval := vlist [vlist [vlist []]; vlist [vdict []]].
Theorem C08_empty_containers_refuted : json two_empties /\ rejects plain_dicts as_inserted two_empties "Example".
Proof.
  split; [apply jsonb_spec; reflexivity|].
  rejected [DAlias "ExampleList" (TApp "List" [TApp "List" [TName "Any"]]); DAlias "Example" (TApp "List" [TName "ExampleList"])].
  by_alias (TApp "List" [TName "ExampleList"]). eapply list_rejects; [right; left; reflexivity|]. by_alias (TApp "List" [TApp "List" [TName "Any"]]).
  eapply list_rejects; [left; reflexivity|]. intros H. inversion H.
Qed.
Print Assumptions C08_empty_containers_refuted.

(** ** C09 *)

(** Partial: tidy data (SpecSound.v [tidy]): no iterators; one kind of sequence (besides
    fixed size tuples) and of mapping (besides TypedDicts); classes and arrays of one kind; and the conditions of C08.  The names of classes and keys are
    readable ([names_ok]). *)
Theorem C09_sound_partial : forall s ord v n t texts, valid s -> set_like ord -> tidy s v -> names_ok s v n ->
  from_data s ord v n = Ok t -> declarations s t = Some texts ->
  exists ds, texts = map print_decl ds /\ Forall readable ds /\
    (forall ds', Forall readable ds' -> texts = map print_decl ds' -> ds' = ds) /\
    (unambiguous ds v -> accepts ds (TName n) v).
Proof.
  intros s ord v n t texts Hs Ho T N H D. destruct (sound s ord Hs Ho v n t texts T N H D) as (ds & Ed & R & A).
  exists ds. split; auto. split; auto. split; auto. intros ds' R' E'. apply readings; auto. congruence.
Qed.
Print Assumptions C09_sound_partial.

Definition vclass (n : string) := VClass (PyType t_type "type") n.
Definition ty_decimal := PyType 901 "Decimal".
Definition sample_data : pyval :=
  VMap MDict ty_dict [(KObj ty_int 1, vset [vint; vfloat; VInst ty_decimal]); (KObj ty_bool 2, vtuple [vset [vstr]; vclass "Decimal"]);
    (KStr "k", vtuple [VNdarray (PyType 902 "ndarray") "float64"; vtuple [vset [vtuple [vint; vnone]; vtuple [vint]]]])].
Example C09_sample : exists t texts, from_data default_strategies reversed_order sample_data "Example" = Ok t /\ declarations default_strategies t = Some texts /\
  exists ds, texts = map print_decl ds /\ length ds = 5 /\ accepts ds (TName "Example") sample_data.
Proof.
  run H D. destruct (C09_sound_partial default_strategies reversed_order sample_data "Example" t texts) as (ds & E & R & Uq & A); auto.
  - apply default_valid.
  - apply reversed_set_like.
  - apply tidyb_spec. vm_compute. reflexivity.
  - apply names_okb_spec. vm_compute. reflexivity.
  - done_texts t H D. exists ds. split; auto. split; [apply (f_equal (@length string)) in E; now rewrite map_length in E|].
    apply A. apply (unambiguous_texts _ _ _ E R). vm_compute. reflexivity.
Qed.

(** [[{1}, frozenset({1})]] is described as [List[Set[int]]]. *)
Definition two_sets : pyval := vlist [vset [vint]; vfrozenset [vint]].
Theorem C09_frozenset_refuted : rejects default_strategies as_inserted two_sets "Example".
Proof.
  rejected [DAlias "Example" (TApp "List" [TApp "Set" [TName "int"]])].
  by_alias (TApp "List" [TApp "Set" [TName "int"]]). eapply list_rejects; [right; left; reflexivity|]. intros H. inversion H. subst.
  match goal with K : seq_accepts _ _ _ |- _ => discriminate K end.
Qed.
Print Assumptions C09_frozenset_refuted.

(** [[int, str]] is described as [List[Type[int]]]. *)
Definition two_classes : pyval := vlist [vclass "int"; vclass "str"].
Theorem C09_classes_refuted : rejects default_strategies as_inserted two_classes "Example".
Proof.
  rejected [DAlias "Example" (TApp "List" [TApp "Type" [TName "int"]])].
  by_alias (TApp "List" [TApp "Type" [TName "int"]]). eapply list_rejects; [right; left; reflexivity|]. intros H. inversion H.
Qed.
Print Assumptions C09_classes_refuted.

(** [[[[1]], [{1}]]]: a list and a set of the same elements are taken for the same below the first level. *)
Definition nested_set : pyval := vlist [vlist [vlist [vint]]; vlist [vset [vint]]].
Theorem C09_list_and_set_refuted : rejects default_strategies as_inserted nested_set "Example".
Proof.
  rejected [DAlias "ExampleList" (TApp "List" [TApp "List" [TName "int"]]); DAlias "Example" (TApp "List" [TName "ExampleList"])].
  by_alias (TApp "List" [TName "ExampleList"]). eapply list_rejects; [right; left; reflexivity|]. by_alias (TApp "List" [TApp "List" [TName "int"]]).
  eapply list_rejects; [left; reflexivity|]. intros H. inversion H. subst. match goal with K : seq_accepts _ _ _ |- _ => discriminate K end.
Qed.
Print Assumptions C09_list_and_set_refuted.

(** [[[{1: 2}], [MappingProxyType({1: 2})]]]: so are a dict and a mapping proxy. *)
Definition nested_proxy : pyval :=
  vlist [vlist [VMap MDict ty_dict [(KObj ty_int 1, vint)]]; vlist [VMap MProxy ty_proxy [(KObj ty_int 1, vint)]]].
Theorem C09_dict_and_proxy_refuted : rejects default_strategies as_inserted nested_proxy "Example".
Proof.
  rejected [DAlias "ExampleList" (TApp "List" [TApp "Dict" [TName "int"; TName "int"]]); DAlias "Example" (TApp "List" [TName "ExampleList"])].
  by_alias (TApp "List" [TName "ExampleList"]). eapply list_rejects; [right; left; reflexivity|]. by_alias (TApp "List" [TApp "Dict" [TName "int"; TName "int"]]).
  eapply list_rejects; [left; reflexivity|]. intros H. inversion H. subst. match goal with K : map_accepts _ _ |- _ => destruct K as [K|K]; discriminate K || (destruct K; discriminate) end.
Qed.
Print Assumptions C09_dict_and_proxy_refuted.

(** Arrays with different element types. *)
Definition two_arrays : pyval := vlist [VNdarray (PyType 902 "ndarray") "float64"; VNdarray (PyType 902 "ndarray") "int64"].
Theorem C09_arrays_refuted : rejects default_strategies as_inserted two_arrays "Example".
Proof.
  rejected [DAlias "Example" (TApp "List" [TStr "NDArray[np.float64]"])].
  by_alias (TApp "List" [TStr "NDArray[np.float64]"]). eapply list_rejects; [right; left; reflexivity|]. intros H.
  assert (G : forall u w, accepts [DAlias "Example" (TApp "List" [TStr "NDArray[np.float64]"])] u w -> u = TStr "NDArray[np.float64]" -> w <> VNdarray (PyType 902 "ndarray") "int64").
  { intros u w A E F. destruct A; try discriminate E; try discriminate F.
    - injection E as ->. subst v. match goal with K : class_accepts _ _ |- _ => unfold class_accepts in K; simpl in K; intuition discriminate end.
    - injection F as _ ->. discriminate E. }
  exact (G _ _ H eq_refl eq_refl).
Qed.
Print Assumptions C09_arrays_refuted.

(** ** C10 *)

(** Partial: for values that occur in tidy data, equal trees mean the same class, and the declarations of the one
    accept the other. *)
Theorem C10_equal_trees_partial : forall s ord v x y n m tx ty texts, valid s -> set_like ord -> tidy s v -> sub x v -> sub y v -> names_ok s y m ->
  from_data s ord x n = Ok tx -> from_data s ord y m = Ok ty -> teq s tx ty = true -> declarations s ty = Some texts ->
  ty_id (type_of x) = ty_id (type_of y) /\
  exists ds, texts = map print_decl ds /\ Forall readable ds /\ (unambiguous ds y -> accepts ds (TName m) x).
Proof. intros s ord v x y n m tx ty texts Hs Ho. now apply sound_equal. Qed.
Print Assumptions C10_equal_trees_partial.

Definition pair_x : pyval := vdict [("a", vlist [vint; vstr]); ("b", vnone)].
Definition pair_y : pyval := vdict [("b", vnone); ("a", vlist [vstr; vint; vint])].
Example C10_sample : exists tx ty texts, from_data plain_dicts as_inserted pair_x "X" = Ok tx /\ from_data plain_dicts as_inserted pair_y "Y" = Ok ty /\
  teq plain_dicts tx ty = true /\ declarations plain_dicts ty = Some texts /\ texts <> [] /\
  exists ds, texts = map print_decl ds /\ accepts ds (TName "Y") pair_x.
Proof.
  destruct (from_data plain_dicts as_inserted pair_x "X") as [tx| |] eqn:Hx; [|vm_compute in Hx; discriminate|vm_compute in Hx; discriminate].
  destruct (from_data plain_dicts as_inserted pair_y "Y") as [t| |] eqn:H; [|vm_compute in H; discriminate|vm_compute in H; discriminate].
  destruct (declarations plain_dicts t) as [texts|] eqn:D; [|vm_compute in H; injection H as <-; vm_compute in D; discriminate].
  assert (E : teq plain_dicts tx t = true) by (vm_compute in H, Hx; injection H as <-; injection Hx as <-; vm_compute; reflexivity).
  destruct (C10_equal_trees_partial plain_dicts as_inserted (vlist [pair_x; pair_y]) pair_x pair_y "X" "Y" tx t texts) as (_ & ds & Ed & R & A); auto.
  - apply plain_dicts_valid.
  - apply as_inserted_set_like.
  - apply tidyb_spec. vm_compute. reflexivity.
  - eapply sub_seq; [left; reflexivity|constructor].
  - eapply sub_seq; [right; left; reflexivity|constructor].
  - apply names_okb_spec. vm_compute. reflexivity.
  - exists tx, t, texts. split; auto. split; auto. split; auto. split; auto. vm_compute in H. injection H as <-. vm_compute in D. injection D as <-. split; [discriminate|].
    exists ds. split; auto. apply A. apply (unambiguous_texts _ _ _ Ed R). vm_compute. reflexivity.
Qed.

Theorem C10_equal_trees_refuted : exists x y tx ty, from_data default_strategies as_inserted x "X" = Ok tx /\ from_data default_strategies as_inserted y "X" = Ok ty /\
  teq default_strategies tx ty = true /\ ty_id (type_of x) <> ty_id (type_of y).
Proof.
  exists (vset [vint]), (vfrozenset [vint]). do 2 eexists. split; [vm_compute; reflexivity|]. split; [vm_compute; reflexivity|]. split; [vm_compute; reflexivity|]. discriminate.
Qed.
Print Assumptions C10_equal_trees_refuted.

(** ** C22 *)

(** Partial: in tidy data every dict with string keys in a list (set, tuple) is accepted by one of the TypedDicts
    declared for the elements of the list, whether it was merged or not. *)
Theorem C22_merged_dicts_partial : forall s ord k ty l n t texts, valid s -> set_like ord -> s_dict s = DTypedDict ->
  tidy s (VSeq k ty l) -> names_ok s (VSeq k ty l) n ->
  from_data s ord (VSeq k ty l) n = Ok t -> declarations s t = Some texts ->
  exists ds, texts = map print_decl ds /\ Forall readable ds /\ (unambiguous ds (VSeq k ty l) -> forall x, In x (string_dicts l) ->
    exists c, In c (map etree (tcs t)) /\ node_is_typed_dict s c = true /\ accepts ds (TName (tname c)) (VMap MDict ty_dict x)).
Proof. intros s ord k ty l n t texts Hs Ho. now apply sound_dicts. Qed.
Print Assumptions C22_merged_dicts_partial.

Definition row1 : list (key * pyval) := [(KStr "a", vint); (KStr "b", vlist [vint])].
Definition row2 : list (key * pyval) := [(KStr "b", vlist [vint; vint]); (KStr "c", vstr); (KStr "a", vint)].
Definition rows : list pyval := [VMap MDict ty_dict row1; vint; VMap MDict ty_dict row2].
Example C22_sample : exists t texts, from_data default_strategies as_inserted (vlist rows) "Example" = Ok t /\ declarations default_strategies t = Some texts /\
  exists ds, texts = map print_decl ds /\ length ds = 2 /\ accepts ds (TName "ExampleDict") (VMap MDict ty_dict row1) /\ accepts ds (TName "ExampleDict") (VMap MDict ty_dict row2).
Proof.
  run H D. destruct (C22_merged_dicts_partial default_strategies as_inserted KList ty_list rows "Example" t texts) as (ds & E & R & A); auto.
  - apply default_valid.
  - apply as_inserted_set_like.
  - apply tidyb_spec. vm_compute. reflexivity.
  - apply names_okb_spec. vm_compute. reflexivity.
  - assert (U : unambiguous ds (vlist rows)).
    { vm_compute in H. injection H as <-. vm_compute in D. injection D as <-. apply (unambiguous_texts _ _ _ E R). vm_compute. reflexivity. }
    assert (G : forall x, In x (string_dicts rows) -> accepts ds (TName "ExampleDict") (VMap MDict ty_dict x)).
    { intros x Hx. destruct (A U x Hx) as (c & Hc & Tc & Ac). vm_compute in H. injection H as <-. cbn in Hc. repeat (destruct Hc as [Hc|Hc]; [subst c; (discriminate Tc || exact Ac)|]). destruct Hc. }
    exists t, texts. split; auto. split; auto. exists ds. split; auto. split; [|split; apply G; simpl; auto].
    vm_compute in H. injection H as <-. vm_compute in D. injection D as <-. apply (f_equal (@length string)) in E. now rewrite map_length in E.
Qed.

(** [[{"a": [1]}, {"a": ["x"]}]]: the only TypedDict rejects the first dict. *)
Theorem C22_merged_dicts_refuted : exists t ds x, from_data default_strategies as_inserted two_rows "Example" = Ok t /\
  declarations default_strategies t = Some (map print_decl ds) /\ Forall readable ds /\ unambiguous ds two_rows /\
  two_rows = vlist [VMap MDict ty_dict x; vdict [("a", vlist [vstr])]] /\ map tname (map etree (tcs t)) = ["ExampleDict"] /\
  ~ accepts ds (TName "ExampleDict") (VMap MDict ty_dict x).
Proof.
  destruct (from_data default_strategies as_inserted two_rows "Example") as [t| |] eqn:H; [|vm_compute in H; discriminate|vm_compute in H; discriminate]. exists t. vm_compute in H. injection H as <-.
  exists [DTyped "ExampleDict" false [Field "a" (TApp "List" [TName "str"]) None] None; DAlias "Example" (TApp "List" [TName "ExampleDict"])], [(KStr "a", vlist [vint])].
  split; [reflexivity|]. split; [vm_compute; reflexivity|]. split; [apply readableb_spec; vm_compute; reflexivity|]. split; [apply unambiguousb_spec; vm_compute; reflexivity|].
  split; [reflexivity|]. split; [reflexivity|].
  eapply typed_rejects; [simpl; tauto|undeclared|one_decl|]. left. do 2 eexists. split; [left; reflexivity|]. intros f [<-|[]] _. cbn [fd_type field_core mem existsb].
  eapply list_rejects; [left; reflexivity|]. by_class.
Qed.
Print Assumptions C22_merged_dicts_refuted.
