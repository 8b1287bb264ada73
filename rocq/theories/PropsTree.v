(** Property theorems about construction, names, bookkeeping, equality and renaming. *)
From Coq Require Import Ascii String List Bool Arith ZArith Permutation.
From Verif Require Import PyStr Utils Strategies Dispatch Values Tree Build SpecNames SpecData.
From Verif Require Import TreeFacts TreeProofs SeqFacts FuelFacts TotalFacts BegunFacts Samples.
Import ListNotations.
Local Open Scope string_scope.

(** ** C01: the gate for class names.
    Full claim: accepted exactly when the name is an identifier (usable in a class statement) with a letter or
    a digit.  Proved for names without the seven characters of [odd_char]; keywords are accepted and so are
    superscripts, which refutes the claim. *)
Theorem C01_class_name_gate_partial : forall s ord v n,
  valid s -> set_like ord -> ordinary_types v -> plain n ->
  (identifier n /\ has_letter_or_digit n <-> exists t, from_data s ord v n = Ok t) /\
  (~ (identifier n /\ has_letter_or_digit n) -> from_data s ord v n = Err (BadName n)).
Proof.
  intros s ord v n Hs Ho Hv Hp. rewrite <- (NamesFacts.is_compatible_identifier n Hp). split; [split|].
  - now apply from_data_total.
  - intros [t H]. destruct (is_compatible n) eqn:E; auto. rewrite from_data_refused in H by auto. discriminate.
  - intros H. apply from_data_refused. destruct (is_compatible n); congruence.
Qed.
Print Assumptions C01_class_name_gate_partial.

Theorem C01_class_name_gate_refuted :
  (exists v t n, from_data default_strategies as_inserted v n = Ok t /\ ~ class_statement_name n /\ In n python_keywords) /\
  (exists v t n, from_data default_strategies as_inserted v n = Ok t /\ ~ identifier n).
Proof.
  split.
  - exists vint, (Node (Info "class" 0 0 true NInst ty_int) []), "class". split; [reflexivity|].
    assert (In "class" python_keywords) by (vm_compute; tauto). split; auto. intros [_ H']. contradiction.
  - exists vint, (Node (Info ("a" ++ String (ascii_of_nat 178) "") 0 0 true NInst ty_int) []), ("a" ++ String (ascii_of_nat 178) "").
    split; [reflexivity|]. intros H. inversion H as [c r _ H2 E]. apply Forall_inv in H2.
    apply NamesFacts.id_continueb_spec in H2. vm_compute in H2. discriminate.
Qed.
Print Assumptions C01_class_name_gate_refuted.

Definition nested_value : pyval :=
  vdict [("name", vstr); ("points", vlist [vdict [("x", vint); ("y", vfloat)]; vdict [("x", vfloat)]; vlist [vint]; vtuple [vint; vstr; vint]])].
Example C01_hypotheses : valid default_strategies /\ set_like as_inserted /\ ordinary_types nested_value /\ plain "Example_1" /\
  identifier "Example_1" /\ has_letter_or_digit "Example_1".
Proof.
  split; [apply default_valid|]. split; [apply as_inserted_set_like|]. split; [apply ordinaryb_spec; reflexivity|].
  split; [apply plain_spec; reflexivity|]. apply NamesFacts.is_compatible_identifier; [apply plain_spec; reflexivity | reflexivity].
Qed.

(** ** C02: an accepted class name never leads to a naming failure later.
    Full claim: for all values: either the name is refused at once, whatever the data, or a tree is returned.
    Proved for values whose classes have names made of letters, digits and
    underscores; false for a class created with [type("a b", (), {})]. *)
Theorem C02_no_later_naming_failure_partial : forall s ord v n,
  valid s -> set_like ord -> ordinary_types v ->
  (forall w, from_data s ord w n = Err (BadName n)) \/ exists t, from_data s ord v n = Ok t.
Proof.
  intros s ord v n Hs Ho Hv. destruct (is_compatible n) eqn:E.
  - right. now apply from_data_total.
  - left. intros w. now apply from_data_refused.
Qed.
Print Assumptions C02_no_later_naming_failure_partial.

Definition odd_class : pytype := PyType 901 "a b".
Theorem C02_no_later_naming_failure_refuted : exists v w n m,
  (exists t, from_data default_strategies as_inserted w n = Ok t) /\
  from_data default_strategies as_inserted v n = Err (BadName m) /\ m <> n.
Proof.
  exists (vlist [VInst odd_class]), vint, "Example", "ExampleA b".
  split; [eexists; reflexivity|]. split; [reflexivity | discriminate].
Qed.
Print Assumptions C02_no_later_naming_failure_refuted.
Example C02_hypotheses : ordinary_types nested_value /\ exists t, from_data default_strategies as_inserted nested_value "Example" = Ok t.
Proof. split; [apply ordinaryb_spec; reflexivity | eexists; vm_compute; reflexivity]. Qed.

(** ** C05: totality.  The construction never diverges (the fuel of the model is never exhausted, and any
    larger fuel gives the same result), and returns a tree when the type names are ordinary. *)
Theorem C05_never_diverges : forall s ord v n, set_like ord ->
  from_data s ord v n <> OutOfFuel /\
  forall fuel, vdepth v <= fuel -> (exists t, from_data s ord v n = Ok t) -> build s ord fuel n 0 true v = from_data s ord v n.
Proof.
  intros s ord v n Ho. split; [now apply FuelFacts.from_data_terminates|]. intros fuel Hf [t H].
  apply FuelFacts.from_data_fuel; auto. destruct (is_compatible n) eqn:E; auto. rewrite from_data_refused in H by auto. discriminate.
Qed.
Print Assumptions C05_never_diverges.
Theorem C05_totality_partial : forall s ord v n,
  valid s -> set_like ord -> ordinary_types v -> plain n -> identifier n -> has_letter_or_digit n ->
  exists t, from_data s ord v n = Ok t.
Proof. intros s ord v n Hs Ho Hv Hp Hi Hl. apply from_data_total; auto. now apply (NamesFacts.is_compatible_identifier n Hp). Qed.
Print Assumptions C05_totality_partial.
(** C05 as stated fails with C02: a class whose name is not a word. *)
Theorem C05_totality_refuted : exists v n m, is_compatible n = true /\ from_data default_strategies as_inserted v n = Err (BadName m).
Proof. exists (vlist [VInst odd_class]), "Example", "ExampleA b". split; reflexivity. Qed.
Print Assumptions C05_totality_refuted.
(** A case in which dicts are merged and rebuilt inside the construction. *)
Definition merging_value : pyval :=
  vlist [vdict [("a", vint); ("b", vlist [vdict [("c", vint); ("d", vint)]; vdict [("c", vint)]])]; vdict [("a", vint)]].
Example C05_merging : exists t, from_data default_strategies reversed_order merging_value "Example" = Ok t /\
  map (fun e => theight (snd e)) (tcs t) = [3].
Proof. eexists. split; vm_compute; reflexivity. Qed.

(** ** C03: names of nodes start with the class name and are identifiers.
    Full claim: for all values with identifier-named types.  False when a key contains a superscript or fraction
    character: it is kept. *)
Theorem C03_names_extend_class_name : forall s ord v n t,
  set_like ord -> from_data s ord v n = Ok t -> forall x, node_of x t -> exists r, tname x = n ++ r.
Proof.
  intros s ord v n t Ho H x Hx. unfold from_data in H. destruct (is_compatible n); [|discriminate]. apply build_begun in H; auto. exact (all_names_nodes _ _ H x Hx).
Qed.
Print Assumptions C03_names_extend_class_name.
Theorem C03_names_are_identifiers_partial : forall s ord v n t,
  valid s -> set_like ord -> ordinary_types v -> plain_names v -> plain n ->
  from_data s ord v n = Ok t -> forall x, node_of x t -> identifier (tname x).
Proof. exact from_data_identifiers. Qed.
Print Assumptions C03_names_are_identifiers_partial.
Theorem C03_names_are_identifiers_refuted : exists v t x,
  from_data default_strategies as_inserted v "Example" = Ok t /\ ordinary_types v /\ node_of x t /\ ~ identifier (tname x).
Proof.
  exists (vdict [("m" ++ String (ascii_of_nat 178) "", vlist [vlist [vint]])]).
  eexists. exists (Node (Info ("ExampleM" ++ String (ascii_of_nat 178) "") 1 2 false (NSeq KList) ty_list)
            [(no_key, 1, Node (Info ("ExampleM" ++ String (ascii_of_nat 178) "List") 2 1 false (NSeq KList) ty_list)
                [(no_key, 1, Node (Info ("ExampleM" ++ String (ascii_of_nat 178) "ListInt") 3 0 false NInst ty_int) [])])]).
  split; [vm_compute; reflexivity|]. split; [apply ordinaryb_spec; reflexivity|]. split.
  - apply nodes_node_of. vm_compute. auto.
  - intros H. inversion H as [c r H1 H2 E1]. rewrite Forall_forall in H2.
    assert (C : id_continue (ascii_of_nat 178)) by (apply H2; vm_compute; tauto).
    apply NamesFacts.id_continueb_spec in C. vm_compute in C. discriminate.
Qed.
Print Assumptions C03_names_are_identifiers_refuted.
Example C03_hypotheses : ordinary_types nested_value /\ plain_names nested_value.
Proof. split; [apply ordinaryb_spec | apply plainb_spec]; reflexivity. Qed.

(** ** C07: depth, parent and height ([bookkept] in SpecData.v). *)
Theorem C07_bookkeeping : forall s ord v n t,
  set_like ord -> from_data s ord v n = Ok t ->
  i_depth (ti t) = 0 /\ i_root (ti t) = true /\ forall x, node_of x t -> bookkept x.
Proof. exact from_data_booked. Qed.
Print Assumptions C07_bookkeeping.
Example C07_example : exists t, from_data default_strategies as_inserted nested_value "Example" = Ok t /\ theight t = 3 /\ List.length (nodes t) = 12.
Proof. eexists. split; [vm_compute; reflexivity|]. vm_compute. auto. Qed.

(** ** C11: equality of trees. *)
Theorem C11_equality_is_an_equivalence : forall s,
  (forall a, teq s a a = true) /\ (forall a b, teq s a b = true -> teq s b a = true) /\
  (forall a b c, teq s a b = true -> teq s b c = true -> teq s a c = true).
Proof.
  intros s. split; [apply teq_refl|]. split; [intros a b; now rewrite teq_sym | apply teq_trans].
Qed.
Print Assumptions C11_equality_is_an_equivalence.
Theorem C11_equality_ignores_names : forall s a b new, teq s a b = true -> teq s (rename new a) b = true /\ teq s a (rename new b) = true.
Proof.
  intros s a b new H. split.
  - eapply teq_trans; [apply teq_rename | exact H].
  - eapply teq_trans; [exact H|]. rewrite teq_sym. apply teq_rename.
Qed.
Print Assumptions C11_equality_ignores_names.
(** Documentation keys are ignored when no element limit cuts the dict.  (With a limit and the "dict" strategy
    they count as elements.) *)
Theorem C11_equality_ignores_docs_partial : forall s ord kvs kvs' n a b,
  set_like ord -> s_max_n s = None -> same_but_docs kvs kvs' ->
  from_data s ord (VMap MDict ty_dict kvs) n = Ok a -> from_data s ord (VMap MDict ty_dict kvs') n = Ok b ->
  teq s a b = true.
Proof.
  intros s ord kvs kvs' n a b Ho Hl Hd Ha Hb.
  assert (Hc : is_compatible n = true) by (destruct (is_compatible n) eqn:E; auto; rewrite from_data_refused in Ha by auto; discriminate).
  set (f := Nat.max (vdepth (VMap MDict ty_dict kvs)) (vdepth (VMap MDict ty_dict kvs'))).
  rewrite <- (FuelFacts.from_data_fuel s ord _ n f) in Ha; auto using Nat.le_max_l.
  rewrite <- (FuelFacts.from_data_fuel s ord _ n f) in Hb; auto using Nat.le_max_r.
  assert (L : forall l : list (key * pyval), limit s l = l) by (intros; unfold limit, effective_limit; now rewrite Hl).
  2, 3: unfold f; auto using Nat.le_max_l, Nat.le_max_r. eapply build_same_docs; eauto.
Qed.
Print Assumptions C11_equality_ignores_docs_partial.
Definition dict_limit_1 : strategies := Strategies LList TFixed DDict PFull 1 "" 50 false (Some 1).
Theorem C11_equality_ignores_docs_refuted : exists kvs kvs' a b,
  same_but_docs kvs kvs' /\ from_data dict_limit_1 as_inserted (VMap MDict ty_dict kvs) "Example" = Ok a /\
  from_data dict_limit_1 as_inserted (VMap MDict ty_dict kvs') "Example" = Ok b /\ teq dict_limit_1 a b = false.
Proof.
  exists [(KStr "___docstring_hidden_key_a", vstr); (KStr "a", vint)], [(KStr "a", vint)]. do 2 eexists. split.
  - apply sd_left; [exists "a"; reflexivity|]. apply sd_keep. apply sd_nil.
  - split; [vm_compute; reflexivity|]. split; vm_compute; reflexivity.
Qed.
Print Assumptions C11_equality_ignores_docs_refuted.
Definition no_limit : strategies := Strategies LList TFixed DTypedDict PFull 1 "" 50 false None.
Example C11_docs_example : exists a b,
  from_data no_limit as_inserted (vdict [("___docstring_hidden_key_a", vstr); ("a", vint)]) "Example" = Ok a /\
  from_data no_limit as_inserted (vdict [("a", vint)]) "Example" = Ok b /\ a <> b /\ teq no_limit a b = true.
Proof. do 2 eexists. split; [vm_compute; reflexivity|]. split; [vm_compute; reflexivity|]. split; [discriminate | vm_compute; reflexivity]. Qed.

(** ** C14: names of siblings.  Lists, sets, iterators, series and any-size tuples: all names are different, and children
    that compare equal are one child.  Fixed tuples: two children have the same name exactly when they compare equal.
    Proved for the children of a sequence at the moment of its construction, anywhere in a tree ([build] is called with any
    name and depth), hence for a sequence given to [from_data].  False later on for sequences inside a node that is
    shared by several keys: the repeated renaming of such nodes can give the same name to different children. *)
Definition sibling_names (s : strategies) (k : seqkind) (t : tree) : Prop :=
  let fixed := match k, s_tuple s with KTuple, TFixed => true | _, _ => false end in
  (fixed = false ->
     NoDup (map (fun e => tname (etree e)) (tcs t)) /\
     forall e e', In e (tcs t) -> In e' (tcs t) -> teq s (etree e) (etree e') = true -> etree e = etree e') /\
  (fixed = true ->
     forall e e', In e (tcs t) -> In e' (tcs t) ->
       (teq s (etree e) (etree e') = true <-> tname (etree e) = tname (etree e'))).
Theorem C14_sibling_names_partial : forall s ord k ty l,
  set_like ord ->
  (forall fuel n d r t, build s ord fuel n d r (VSeq k ty l) = Ok t -> sibling_names s k t) /\
  (forall n t, from_data s ord (VSeq k ty l) n = Ok t -> sibling_names s k t).
Proof.
  intros s ord k ty l Ho.
  assert (G : forall fuel n d r t, build s ord fuel n d r (VSeq k ty l) = Ok t -> sibling_names s k t).
  { intros fuel n d r t H. unfold sibling_names. apply build_siblings in H; auto.
    destruct k, (s_tuple s); split; intros; try discriminate; apply H; auto. }
  split; auto. intros n t H. unfold from_data in H. destruct (is_compatible n); [|discriminate]. eauto.
Qed.
Print Assumptions C14_sibling_names_partial.
Definition twice_shared : pyval :=
  let l := vlist [vlist [vlist [vint]]; vtuple [vlist [vint]]] in
  let d := vdict [("p", l); ("q", l)] in
  vdict [("somelongkeyname", d); ("b", d)].
Theorem C14_sibling_names_refuted : exists t x a b,
  from_data default_strategies as_inserted twice_shared "Example" = Ok t /\
  node_of x t /\ tkind x = NSeq KList /\ map etree (tcs x) = [a; b] /\
  teq default_strategies a b = false /\ tname a = tname b.
Proof.
  destruct (from_data default_strategies as_inserted twice_shared "Example") as [t| |] eqn:E; [|vm_compute in E; discriminate..].
  pose (x := nth 2 (nodes t) t). exists t, x. pose proof (nth_In (nodes t) t (n := 2)) as Hx.
  vm_compute in E. injection E as <-. vm_compute in x. subst x.
  do 2 eexists. split; [reflexivity|]. split; [apply nodes_node_of, Hx; vm_compute; repeat constructor|].
  split; [reflexivity|]. split; [reflexivity|]. split; reflexivity.
Qed.
Print Assumptions C14_sibling_names_refuted.
Example C14_example : exists t,
  from_data default_strategies as_inserted (vtuple [vlist [vint]; vlist [vstr]; vint; vlist [vint]]) "Example" = Ok t /\
  map (fun e => tname (snd e)) (tcs t) = ["ExampleList"; "ExampleList2"; "ExampleInt"; "ExampleList"].
Proof. eexists. split; vm_compute; reflexivity. Qed.

(** ** C23 (nodes): no node is created for a documentation key; see PropsEmit.v for the fields. *)
Theorem C23_no_node_for_documentation : forall s ord v n t,
  set_like ord -> from_data s ord v n = Ok t ->
  forall x e, node_of x t -> In e (tcs x) -> ~ doc_key (ekey e).
Proof. exact from_data_no_doc_node. Qed.
Print Assumptions C23_no_node_for_documentation.

(** ** C30: rename.
    Full claim: for all trees.  Proved when every node is in one place, or every node is in some place and the new name is as long
    as the old one; false otherwise, since a shared node is renamed once per place. *)
Theorem C30_rename_partial : forall s ord v n t new,
  set_like ord -> from_data s ord v n = Ok t ->
  unshared t \/ (forall x e, node_of x t -> In e (tcs x) -> 1 <= snd (fst e)) /\ String.length new = String.length n ->
  tname (rename new t) = new /\ prefix_replaced n new t (rename new t).
Proof.
  intros s ord v n t new Ho H Hu. assert (En : tname t = n).
  { unfold from_data in H. destruct (is_compatible n); [|discriminate]. now apply TotalFacts.build_from_els in H. }
  split; [apply rename_name|]. rewrite <- En. apply rename_replaced; auto.
  - intros x e Hx He. destruct Hu as [Hu|[Hu L]]; [left; eauto|]. right. rewrite En. eauto.
  - rewrite En. intros x Hx. eapply C03_names_extend_class_name; eauto.
  - intros x e Hx He. eapply bk_parent; eauto. apply (from_data_booked _ _ _ _ _ Ho H). exact Hx.
Qed.
Print Assumptions C30_rename_partial.
Definition shared_value : pyval := vdict [("a", vlist [vlist [vint]]); ("b", vlist [vlist [vint]])].
Theorem C30_rename_refuted : exists t,
  from_data default_strategies as_inserted shared_value "Example" = Ok t /\
  map tname (nodes t) = ["Example"; "ExampleList"; "ExampleListList"; "ExampleListListInt"; "ExampleList"; "ExampleListList"; "ExampleListListInt"] /\
  map tname (nodes (rename "Ab" t)) = ["Ab"; "Ab"; "Abist"; "AbistInt"; "Ab"; "Abist"; "AbistInt"].
Proof. eexists. split; [vm_compute; reflexivity|]. split; vm_compute; reflexivity. Qed.
Print Assumptions C30_rename_refuted.
Definition distinct_values : pyval := vdict [("a", vlist [vint; vlist [vstr]]); ("b", vtuple [vint; vstr; vint])].
Example C30_hypotheses : exists t,
  from_data default_strategies as_inserted distinct_values "Example" = Ok t /\ unshared t /\ List.length (nodes t) = 9.
Proof. eexists. split; [vm_compute; reflexivity|]. split; [apply unsharedb_spec|]; reflexivity. Qed.
Example C30_shared_example : exists t, from_data default_strategies as_inserted shared_value "Example" = Ok t /\
  forallb (fun x => forallb (fun e => Nat.leb 1 (snd (fst e))) (tcs x)) (nodes t) = true /\ ~ unshared t /\
  map tname (nodes (rename "Renamed" t)) = ["Renamed"; "RenamedList"; "RenamedListList"; "RenamedListListInt"; "RenamedList"; "RenamedListList"; "RenamedListListInt"].
Proof.
  eexists. split; [vm_compute; reflexivity|]. split; [reflexivity|]. split; [|vm_compute; reflexivity].
  intros H. specialize (H _ _ (node_refl _) (or_introl eq_refl)). discriminate H.
Qed.
