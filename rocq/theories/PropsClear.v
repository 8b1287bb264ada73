(** C13, C08 and C09 for data that cannot make names clash: nothing is assumed about the tree or the declarations. *)
From Coq Require Import Ascii String List Bool Arith Lia.
From Verif Require Import PyStr PyStrFacts Utils Strategies Dispatch Values Tree Build Emit TreeFacts SpecNames SpecData SpecTypes SpecEmit SpecMerge Elab BuildFacts TotalFacts Provenance TreeProofs EmitFacts EmitTop SpecSound SoundTop SoundJson
  SpecCamel SpecUnique UniqueFacts SampleUnique Samples SampleEmit SampleSound PropsTree PropsEmit PropsSound PropsUnique SpecClear ClearFacts SampleClear.
Import ListNotations.
Local Open Scope string_scope.
Local Open Scope nat_scope.

(** Declarations are always written if the sources of the functions are there. *)
Lemma tidy_declared s ord v n t : set_like ord -> clear_data s v -> from_data s ord v n = Ok t -> exists texts, declarations s t = Some texts.
Proof.
  intros Ho T H. unfold declarations. destruct (existsb function_fails (collect s t)) eqn:E; [|eauto]. exfalso. apply existsb_exists in E as (m & Hm & F). apply collect_nodes in Hm as [Hm _].
  set (P := fun x : pyval => match x with VFun f => has_source f | _ => True end).
  assert (Ok : tree_ok P (fun _ => True) t).
  { unfold from_data in H. destruct (is_compatible n); [|discriminate]. eapply (build_prov s ord Ho P (fun _ => True)); eauto.
    - intros x. unfold P. destruct x as [| | | | | | |[]|]; auto.
    - intros d _. exact I.
    - split; auto. intros x Hx. unfold P. destruct x; auto. exact (cd_source s v T f Hx). }
  destruct (Ok m Hm) as ((x & Px & _ & M) & _). unfold function_fails in F. destruct (tkind m) as [|f| | | | | | |]; try discriminate. destruct x as [| |g| | | | | |[]]; try discriminate; try (destruct M as (? & ? & M); discriminate).
  injection M as <-. apply has_sourceb_spec in Px. unfold has_sourceb in Px. unfold function_top in F. destruct (f_sig f) as [[p k]|]; [|discriminate]. destruct (f_lambda f); [discriminate|]. cbn [orb] in Px.
  destruct (contains "->" p); [discriminate|]. destruct (f_return f) as [[]|]; discriminate.
Qed.

(** ** C13 *)

(** Partial: tidy data (no iterators, one kind of lists and of mappings; see [tidy]) whose keys and values are told apart ([clear_data]).  A tree
    and declarations are always made for it; no name is declared twice, and every declared name continues the class name. *)
Theorem C13_data_partial : forall s ord v n, valid s -> set_like ord -> tidy s v -> clear_data s v -> ordinary_types v -> named_by_words v -> letter_types v ->
  plain n -> identifier n -> has_letter_or_digit n ->
  exists t ds, from_data s ord v n = Ok t /\ declarations s t = Some (map print_decl ds) /\ NoDup (map declared ds) /\ forall d, In d ds -> extends n (declared d).
Proof.
  intros s ord v n Hs Ho T C O W L P I Hl. destruct (C05_totality_partial s ord v n Hs Ho O P I Hl) as (t & H). destruct (tidy_declared s ord v n t Ho C H) as (texts & D).
  pose proof (data_clear s ord Ho v T C n t H) as Cn. destruct (C13_clear_names_partial s ord v n t texts Hs Ho O (named_plain v W) L H Cn D) as (ds & E & A & B). subst texts. exists t, ds. auto.
Qed.
Print Assumptions C13_data_partial.

(** ** C08 and C09 *)

(** Partial: as [C09_sound_partial], for data that is told apart. *)
Theorem C09_data_partial : forall s ord v n, valid s -> set_like ord -> tidy s v -> clear_data s v -> names_ok s v n -> letter_types v -> name_apart n v ->
  plain n -> identifier n -> has_letter_or_digit n ->
  exists t ds, from_data s ord v n = Ok t /\ declarations s t = Some (map print_decl ds) /\ Forall readable ds /\
    (forall ds', Forall readable ds' -> map print_decl ds = map print_decl ds' -> ds' = ds) /\ NoDup (map declared ds) /\ accepts ds (TName n) v.
Proof.
  intros s ord v n Hs Ho T C N L A P I Hl. pose proof N as (O & W & _).
  destruct (C13_data_partial s ord v n Hs Ho T C O W L P I Hl) as (t & ds0 & H & D & Nd & _). pose proof (data_clear s ord Ho v T C n t H) as Cn.
  destruct (C09_clear_partial s ord v n t _ Hs Ho T N L H Cn A D) as (ds & E & R & U & Acc). exists t, ds. split; auto. split; [now rewrite D, E|]. split; auto. split; [intros ds' R' E'; apply U; congruence|]. split; auto.
  destruct (C13_clear_names_partial s ord v n t _ Hs Ho O (named_plain v W) L H Cn D) as (ds1 & E1 & N1 & _).
  assert (Q : map declared ds = map head_name (map print_decl ds)) by now apply declared_texts.
  destruct (clear_declared s ord v n t _ Hs Ho O (named_plain v W) L H Cn D) as (E2 & N2 & _ & Wd). rewrite Q, <- E, E2, map_map. erewrite map_ext_in; [exact N2|]. intros d Hd. apply print_decl_name. auto.
Qed.
Print Assumptions C09_data_partial.

(** Partial: as [C08_json_sound_partial], for data that is told apart.  All conditions are about the data, the strategies and the
    class name. *)
Theorem C08_data_partial : forall s ord v n, valid s -> set_like ord ->
  json v -> unique_keys v -> no_doc_keys v -> within_limit s v -> empties_differ s v -> clear_data s v ->
  (s_dict s = DTypedDict -> rows_agree v /\ optional_keys_agree v /\ camel_name n /\
     (forall k, key_in (KStr k) v -> quotable k) /\ (s_key_doc s = "" \/ ~ key_in (KStr (s_key_doc s)) v)) ->
  (forall x, In x (typing_names ++ json_classes) -> ~ extends n x) -> plain n -> identifier n -> has_letter_or_digit n ->
  exists t ds, from_data s ord v n = Ok t /\ declarations s t = Some (map print_decl ds) /\ Forall readable ds /\
    (forall ds', Forall readable ds' -> map print_decl ds = map print_decl ds' -> ds' = ds) /\ NoDup (map declared ds) /\ accepts ds (TName n) v.
Proof.
  intros s ord v n Hs Ho J U N W E C T A P I Hl. apply C09_data_partial; auto.
  - apply json_tidy; auto. intros Td. now destruct (T Td) as (? & ? & _).
  - apply json_names; auto. intros Td. now destruct (T Td) as (_ & _ & ?).
  - now apply json_letters.
  - now apply json_apart.
Qed.
Print Assumptions C08_data_partial.

(** A table of handlers: a function, a lambda with two parameters, a [numpy] function without a signature, a mapping proxy. *)
Definition handlers : pyval :=
  vdict [("on event", VFun (PyFun ty_fun false (Some ("(name: str, *args)", 2)) (Some false))); ("compare", VFun (PyFun ty_fun true (Some ("(a, b)", 2)) None));
         ("add", VFun (PyFun (PyType 952 "ufunc") false None None)); ("id", vint);
         ("environment", VMap MProxy ty_proxy [(KStr "home", vstr); (KStr "seen", vlist [VFun (PyFun ty_fun false (Some ("(x) -> int", 1)) None)])])].
Lemma named_apartb n v : forallb (fun x => negb (extendsb n x)) (typing_names ++ map (fun x => ty_name (type_of x)) (subs v) ++ map (fun k => ty_name (key_type k)) (map_keys v)) = true ->
  forallb (fun x => match x with VClass _ c => negb (extendsb n c) | _ => true end) (subs v) = true -> name_apart n v.
Proof.
  intros A B. rewrite forallb_forall in B. pose proof (name_apartb _ _ A) as Q. split.
  - intros x Hx. apply Q. apply in_or_app. now left.
  - intros x Hx. apply Q. apply in_or_app. right. apply in_or_app. left. apply (in_map (fun x => ty_name (type_of x))). now apply sub_subs.
  - intros m c Hx E. specialize (B _ (sub_subs _ _ Hx)). cbv beta iota in B. apply extendsb_spec in E. now rewrite E in B.
  - intros k Hk. apply Q. apply in_or_app. right. apply in_or_app. right. apply (in_map (fun k => ty_name (key_type k))). now apply key_in_keys.
Qed.
Example C09_data_example : exists t ds, from_data default_strategies as_inserted handlers "Handlers" = Ok t /\ declarations default_strategies t = Some (map print_decl ds) /\ NoDup (map declared ds) /\ accepts ds (TName "Handlers") handlers /\ map declared ds = ["HandlersOnEvent"; "HandlersCompare"; "HandlersAdd"; "HandlersEnvironmentSeenFunction"; "HandlersEnvironment"; "Handlers"].
Proof.
  assert (Pl : plain "Handlers") by (apply plain_spec; reflexivity).
  destruct (C09_data_partial default_strategies as_inserted handlers "Handlers") as (t & ds & H & D & R & U & N & A).
  - apply default_valid.
  - apply as_inserted_set_like.
  - apply tidyb_spec. vm_compute. reflexivity.
  - apply clear_datab_spec. vm_compute. reflexivity.
  - apply names_okb_spec. vm_compute. reflexivity.
  - apply letter_typesb_spec. reflexivity.
  - apply named_apartb; vm_compute; reflexivity.
  - exact Pl.
  - exact (proj1 (proj1 (NamesFacts.is_compatible_identifier _ Pl) eq_refl)).
  - exact (proj2 (proj1 (NamesFacts.is_compatible_identifier _ Pl) eq_refl)).
  - exists t, ds. do 4 (split; auto). rewrite (declared_texts ds) by auto.
    assert (L : option_map (map head_name) (declarations default_strategies t) = Some ["HandlersOnEvent"; "HandlersCompare"; "HandlersAdd"; "HandlersEnvironmentSeenFunction"; "HandlersEnvironment"; "Handlers"])
      by (vm_compute in H; injection H as <-; vm_compute; reflexivity).
    rewrite D in L. cbn [option_map] in L. now injection L as ->.
Qed.

(** An order: lists of records with different keys, a record with an optional list, nested lists and nested dicts. *)
Definition order : pyval :=
  vdict [("customer", vdict [("name", vstr); ("address", vdict [("street", vstr); ("zip", vint)])]);
         ("items", vlist [vdict [("sku", vstr); ("tags", vlist [vstr])]; vdict [("sku", vstr); ("price", vfloat)]]);
         ("payments", vlist [vdict [("amount", vfloat); ("history", vlist [vint])]]);
         ("notes", vlist [vlist [vstr]]); ("marks", vlist [vlist [vint]]); ("id", vint)].
Example C08_data_example : exists t ds, from_data default_strategies as_inserted order "Order" = Ok t /\ declarations default_strategies t = Some (map print_decl ds) /\
  NoDup (map declared ds) /\ accepts ds (TName "Order") order /\ length ds = 10.
Proof.
  assert (Pl : plain "Order") by (apply plain_spec; reflexivity).
  destruct (C08_data_partial default_strategies as_inserted order "Order") as (t & ds & H & D & R & U & N & A).
  - apply default_valid.
  - apply as_inserted_set_like.
  - apply jsonb_spec. vm_compute. reflexivity.
  - apply unique_keysb_spec. vm_compute. reflexivity.
  - apply no_doc_keysb_spec. vm_compute. reflexivity.
  - apply within_limitb_spec. vm_compute. reflexivity.
  - apply empties_differb_spec. vm_compute. reflexivity.
  - apply clear_datab_spec. vm_compute. reflexivity.
  - intros _. split; [apply rows_agreeb_spec; vm_compute; reflexivity|]. split; [apply optional_keys_agreeb_spec; vm_compute; reflexivity|].
    split; [apply camel_nameb_spec; vm_compute; reflexivity|]. split; [apply keys_quotableb_spec; vm_compute; reflexivity|]. now left.
  - apply name_apartb. reflexivity.
  - exact Pl.
  - exact (proj1 (proj1 (NamesFacts.is_compatible_identifier _ Pl) eq_refl)).
  - exact (proj2 (proj1 (NamesFacts.is_compatible_identifier _ Pl) eq_refl)).
  - exists t, ds. do 4 (split; auto). assert (L : option_map (@length string) (declarations default_strategies t) = Some 10) by (vm_compute in H; injection H as <-; vm_compute; reflexivity).
    rewrite D in L. cbn [option_map] in L. injection L as L. now rewrite map_length in L.
Qed.
