(** C12 for all data: which names can be left unresolved. *)
From Coq Require Import Ascii String List Bool Arith Lia.
From Verif Require Import PyStr PyStrFacts Utils Strategies Imports Dispatch Values Tree Build Emit TreeFacts SpecNames SpecData SpecMerge BuildFacts GroupFacts SpecTypes Elab ElabFacts DictInv SpecEmit EmitFacts EmitTop SpecCamel CamelFacts MentionFacts Samples TreeProofs SmallFacts SampleEmit PropsEmit.
Import ListNotations.
Local Open Scope string_scope.

(** Keys of any class, [None] keys, any class name and any type names: a mentioned name that is not declared before, built in or imported is the name of the class of a key of the data, or the
    declaration is a TypedDict and the name is the camel case of a name that is declared before. *)
Theorem C12_all_data : forall s ord v n t texts,
  valid s -> set_like ord -> ordinary_types v -> plain_texts v -> unique_keys v ->
  from_data s ord v n = Ok t -> declarations s t = Some texts ->
  exists ds, texts = map print_decl ds /\
  forall a d b x, ds = (a ++ d :: b)%list -> In x (mentioned d) ->
    (In x (map declared a) \/ In x builtin_classes \/ imported (recorded_imports s t) x) \/
    (exists k, key_in k v /\ x = ty_name (key_type k)) \/
    (s_dict s = DTypedDict /\ (exists m f fields doc, d = DTyped m f fields doc) /\ exists d', In d' a /\ camel (declared d') x).
Proof.
  intros s ord v n t texts Hs Ho Hv Hp Hu H D. exists (decls s t).
  destruct (mentions s t texts) as [E M]; auto.
  - eapply from_data_eq_free; eauto.
  - intros c Hc T. assert (K : exists data m, tkind c = NDict data m) by (unfold is_td, node_is_typed_dict in T; destruct (tkind c); try discriminate; eauto). destruct K as (data & m & K).
    destruct (C24_typed_dict_fields s ord v n t Ho Hu H c data m Hc K T) as (f & fields & doc & _ & A & _).
    apply before_none_all. intros e He X. assert (I : In (ekey e) (map ekey (tcs c))) by now apply in_map. rewrite <- A in I. apply in_map_iff in I as (fd & I & _). congruence.
  - eapply from_data_wordy; eauto.
  - split; [exact E|]. intros a d b x Ea Hx. destruct (M a d b Ea x Hx) as [R|[R|(c & d' & Hc & -> & T & I & ->)]]; [now left| |].
    + apply (from_data_key_name s ord v n t x Ho H) in R as [-> |R]; [|right; now left]. left. right. left. apply mem_spec. reflexivity.
    + right. right. split; [|split].
      * unfold is_td, node_is_typed_dict, is_typed_dict in T. destruct (tkind c); try discriminate. apply andb_true_iff in T as [_ T]. unfold is_td_strategy in T. destruct (s_dict s); congruence.
      * unfold is_td, node_is_typed_dict in T. unfold decl_of. destruct (tkind c); try discriminate. rewrite T. eauto 6.
      * exists d'. split; auto. now apply camel_iff.
Qed.
Print Assumptions C12_all_data.
(** A [None] key, a key of a class of the user and the class name "example": the names NoneType and Color are not declared, ExampleA is written for exampleA. *)
Definition mention_data : pyval := vdict [("a", vdict [("b", vint)]); ("c", VMap MDict ty_dict [(KObj key_class 0, vdict [("d", vint)]); (KNone, vint)])].
Example C12_all_example : valid default_strategies /\ set_like as_inserted /\ ordinary_types mention_data /\ plain_texts mention_data /\ unique_keys mention_data /\
  exists t texts, from_data default_strategies as_inserted mention_data "example" = Ok t /\ declarations default_strategies t = Some texts /\
  map declared (decls default_strategies t) = ["exampleA"; "exampleCColor"; "exampleC"; "example"] /\
  flat_map mentioned (decls default_strategies t) = ["TypedDict"; "int"; "TypedDict"; "int"; "TypeAlias"; "Dict"; "Union"; "Color"; "NoneType"; "exampleCColor"; "TypedDict"; "ExampleA"; "ExampleC"].
Proof.
  hyps. do 2 eexists. split; [vm_compute; reflexivity|]. split; [vm_compute; reflexivity|]. split; vm_compute; reflexivity.
Qed.
