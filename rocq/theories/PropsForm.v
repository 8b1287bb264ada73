(** C74: the form of the declarations follows the value and the strategies. *)
From Coq Require Import Ascii String List Bool Arith ZArith Lia.
From Verif Require Import PyStr PyStrFacts Utils Strategies Dispatch Values Tree Build Emit TreeFacts SpecNames SpecData SpecTypes SpecEmit SpecMerge Elab BuildFacts TreeProofs Provenance MergeFacts ElabFacts EmitFacts EmitTop TypedFacts GroupFacts
  SoundTop SpecForm Samples SampleEmit PropsEmit.
Import ListNotations.
Local Open Scope string_scope.
Local Open Scope nat_scope.

Lemma names_class_ref c : names_class c (class_ref c).
Proof.
  unfold names_class, class_ref. destruct (is_builtin c) eqn:E; [left|right]; (split; [|reflexivity]).
  - now apply mem_spec.
  - intros H. apply mem_spec in H. unfold is_builtin in E. congruence.
Qed.
Lemma all_str_keys d : all_str d = true <-> string_keys d.
Proof.
  unfold all_str, string_keys, has_key. rewrite forallb_forall. split.
  - intros H k Hk. apply in_map_iff in Hk as (e & <- & He). specialize (H e He). destruct (fst e); try discriminate. eauto.
  - intros H e He. destruct (H (fst e)) as (x & ->); [now apply in_map|reflexivity].
Qed.

(** The contents of [x] matter only where they decide between a TypedDict and a dict. *)
Lemma decl_form s c x : made_from x c ->
  match x with VMap MProxy t _ => ty_name t = "mappingproxy" | VMap MDict t _ => ty_name t <> "mappingproxy" | _ => True end ->
  (forall t kvs D m, x = VMap MDict t kvs -> tkind c = NDict D m -> s_dict s = DTypedDict -> (string_keys (m_data m) <-> string_keys kvs)) ->
  has_form s x (tname c) (decl_of s c).
Proof.
  destruct c as [i cs]. intros [T M] Hm Hd. cbn [ti] in T. unfold tkind in M, Hd. cbn [ti] in M, Hd. unfold decl_of, tkind. cbn [ti tname tcs]. rewrite (rhs_node s i cs).
  destruct x as [x|t|f|mt c|t|t|t d|k t l|[] t kvs]; cbn [type_of] in T; try (rewrite M).
  - rewrite T. cbn. apply form_str.
  - rewrite T. destruct (Nat.eqb_spec (ty_id t) t_NoneType); [now apply form_none|]. apply form_inst; auto. apply names_class_ref.
  - unfold fun_decl. destruct (f_sig f) as [[sg k]|] eqn:E; [|now apply form_opaque]. destruct (f_lambda f) eqn:L; [eapply form_lambda; eauto|].
    assert (A : forall y, (exists r, y = sg ++ r) -> has_form s (VFun f) (tname (Node i cs)) (DProto (tname (Node i cs)) y)) by (intros y (r & ->); eapply form_fun; eauto).
    destruct (contains "->" sg); [apply A; exists ""; now rewrite app_nil_r_s|]. destruct (f_return f) as [[]|]; apply A; eauto.
  - apply form_class. apply names_class_ref.
  - apply form_module.
  - apply form_io.
  - apply form_array.
  - unfold seq_container. destruct k; cbn [fst].
    + assert (E : fst (match s_list s with LList => ("List", ["list"]) | LSequence => ("Sequence", ["Sequence"]) end) = list_class s) by (unfold list_class; destruct (s_list s); reflexivity).
      rewrite E. apply form_list.
    + destruct (s_tuple s) eqn:Et; [apply form_tuple; auto|]. unfold tuple_args. destruct (_ && _); apply form_tuple_any; auto.
    + rewrite T. destruct (Nat.eqb_spec (ty_id t) t_frozenset); [now apply form_frozenset|now apply form_set].
    + apply form_iterator.
    + apply form_series.
  - destruct M as (D & m & M). rewrite M in *. specialize (Hd t kvs D m eq_refl eq_refl).
    assert (R : rhs_dict s i cs = TApp (match s_dict s with DMapping => "Mapping" | _ => "Dict" end) [key_ty (map (fun e => fst (fst e)) cs); union_ty (inside s cs)]).
    { unfold rhs_dict, map_container. rewrite T. apply String.eqb_neq in Hm. rewrite Hm. destruct (s_dict s); reflexivity. }
    rewrite R. unfold is_typed_dict, is_td_strategy. destruct (s_dict s) eqn:Sd; rewrite ?andb_true_r, ?andb_false_r.
    + destruct (all_str (m_data m)) eqn:A.
      * apply form_typed; auto. apply Hd; auto. now apply all_str_keys.
      * apply form_dict; auto. right. split; auto. intros K. apply Hd in K; auto. apply all_str_keys in K. congruence.
    + now apply form_mapping.
    + apply form_dict; auto.
  - unfold rhs_dict, map_container. rewrite T, Hm. cbn. apply form_proxy.
Qed.

Lemma firsts_covers {A} (f : A -> string) l : forall seen x, In x l -> In (f x) seen \/ In (f x) (map f (firsts f seen l)).
Proof.
  induction l as [|y l IH]; intros seen x Hx; [destruct Hx|]. cbn [firsts]. destruct (mem (f y) seen) eqn:E.
  - destruct Hx as [->|Hx]; [left; now apply mem_spec|]. auto.
  - destruct Hx as [->|Hx]; [right; now left|]. destruct (IH (f y :: seen) x Hx) as [[<-|G]|G]; [right; now left|now left|right; now right].
Qed.

Lemma collected_text s t texts m : eq_free t -> declarations s t = Some texts -> In m (collect s t) -> In (print_decl (decl_of s m)) texts.
Proof.
  intros F D Hm. unfold declarations in D. destruct (existsb function_fails (collect s t)) eqn:X; [discriminate|]. injection D as <-.
  assert (Y : function_fails m = false).
  { apply not_true_iff_false. intros Y. assert (existsb function_fails (collect s t) = true) by (apply existsb_exists; eauto). congruence. }
  unfold oset_as_list. rewrite (oset_firsts (fun n => fst (top s n)) (collect s t) oset_empty) by (cbn; tauto). cbn [lst oset_empty app].
  pose proof Hm as Hc. apply collect_nodes in Hm as [A B]. rewrite <- (top_decl s m); auto.
  - destruct (firsts_covers (fun n => fst (top s n)) (collect s t) [] m Hc) as [[]|G]. exact G.
  - intros y Hy. apply F. eapply node_of_trans; eauto.
Qed.

(** The root: one of the texts declares the class name in the form that the value demands. *)
Theorem C74_root_partial : forall s ord v n t texts, valid s -> set_like ord -> ordinary_types v -> plain_texts v -> honest_maps v ->
  from_data s ord v n = Ok t -> declarations s t = Some texts ->
  exists d, In (print_decl d) texts /\ has_form s v n d.
Proof.
  intros s ord v n t texts Hs Ho Hv Hp Hm H D. pose proof (from_data_eq_free _ _ _ _ _ Hs Ho Hv Hp H) as F.
  destruct (root_perm s ord v n t H) as (P & C & Tn). exists (decl_of s t). split; [eapply collected_text; eauto|].
  rewrite <- Tn. pose proof H as H0. unfold from_data in H0. destruct (is_compatible n); [|discriminate]. pose proof (made_from_root _ _ _ _ _ _ _ _ H0) as M.
  apply decl_form; auto. { specialize (Hm v (sub_refl v)). destruct v as [| | | | | | | |[]]; auto. }
  intros ty kvs E m -> K Sd. assert (TS : is_td_strategy s = true) by (unfold is_td_strategy; now rewrite Sd).
  destruct (build_dict_node s ord _ _ _ _ _ _ _ TS H0) as [K' _]. rewrite K in K'. injection K' as _ ->. reflexivity.
Qed.
Print Assumptions C74_root_partial.

(** A part of the value, up to the contents of containers, or a merged dict. *)
Definition part_of (v x : pyval) : Prop := (exists w, sub w v /\ alike x w) \/ exists kvs, x = VMap MDict ty_dict kvs.
Lemma node_form s ord v n t : set_like ord -> honest_maps v -> from_data s ord v n = Ok t -> forall c, node_of c t ->
  exists x, part_of v x /\ has_form s x (tname c) (decl_of s c).
Proof.
  intros Ho Hm H c Hc.
  set (T := part_of v).
  assert (P : tree_ok T (fun _ => True) t).
  { unfold from_data in H. destruct (is_compatible n); [|discriminate]. eapply (build_prov s ord Ho T (fun _ => True)); [| | |exact H].
    - intros x [(w & Hw & A)|(kvs & ->)]; [left|right; cbn; eauto]. exists w. split; auto. destruct x as [| | | | | | |k ? ?|k ? ?]; auto; destruct w; try destruct k; cbn in A |- *; congruence || intuition congruence.
    - intros d _. right. eauto.
    - split; auto. intros x Hx. left. exists x. split; auto. destruct x; cbn; auto. }
  destruct (P c Hc) as ((x & Tx & M) & _).
  assert (Hon : match x with VMap MProxy ty _ => ty_name ty = "mappingproxy" | VMap MDict ty _ => ty_name ty <> "mappingproxy" | _ => True end).
  { destruct Tx as [(w & Hw & A)|(kvs & ->)]; [|discriminate]. specialize (Hm w Hw). destruct x as [| | | | | | | |k ty kvs]; auto. destruct w as [| | | | | | | |k' ty' kvs']; try discriminate A.
    destruct A as [-> ->]. exact Hm. }
  assert (G : exists y, T y /\ made_from y c /\ match y with VMap MProxy ty _ => ty_name ty = "mappingproxy" | VMap MDict ty _ => ty_name ty <> "mappingproxy" | _ => True end /\
    forall ty kvs E m, y = VMap MDict ty kvs -> tkind c = NDict E m -> kvs = m_data m).
  { destruct x as [| | | | | | | |[] ty kvs]; try (exists x || (eexists; split; [exact Tx|]; split; [exact M|]; split; [exact I|]; intros; discriminate)).
    - destruct M as [M1 (E & m & M2)]. exists (VMap MDict ty (m_data m)). split; [|split; [|split]].
      + destruct Tx as [(w & Hw & A)|(d & A)]; [left; exists w; split; auto; destruct w; try discriminate A; exact A|right; injection A as -> _; eauto].
      + split; auto. eauto.
      + exact Hon.
      + intros ty' kvs' E' m' Eq K. injection Eq as _ <-. rewrite M2 in K. now injection K as _ ->.
    - eexists. split; [exact Tx|]. split; [exact M|]. split; [exact Hon|]. intros; discriminate. }
  destruct G as (y & Ty & My & Hy & Ey). exists y. split; [exact Ty|]. apply decl_form; auto. intros ty kvs E m E1 E2 _. rewrite (Ey _ _ _ _ E1 E2). reflexivity.
Qed.

(** Every node, declared or not: its declaration has the form of some part of the value, and where it is mentioned either its name
    or the right side of that declaration is written. *)
Theorem C74_nodes_partial : forall s ord v n t, valid s -> set_like ord -> ordinary_types v -> plain_texts v -> honest_maps v ->
  from_data s ord v n = Ok t ->
  forall c, node_of c t -> exists x d, part_of v x /\ has_form s x (tname c) d /\
    (written s c = tname c \/ exists u, d = DAlias (tname c) u /\ written s c = print_ty u).
Proof.
  intros s ord v n t Hs Ho Hv Hp Hm H c Hc. pose proof (from_data_eq_free _ _ _ _ _ Hs Ho Hv Hp H) as F.
  assert (Fc : eq_free c) by (intros y Hy; apply F; eapply node_of_trans; eauto).
  destruct (node_form s ord v n t Ho Hm H c Hc) as (x & Px & Fx). exists x, (decl_of s c). split; auto. split; auto.
  unfold written. destruct (perm s c) eqn:P; [now left|right]. exists (rhs s c). split; [|exact (child_ok_all s c Fc P)].
  unfold decl_of, perm in *. destruct (tkind c); auto; [discriminate|]. now destruct (is_typed_dict s m).
Qed.
Print Assumptions C74_nodes_partial.

(** All declarations. *)
Theorem C74_declarations_partial : forall s ord v n t texts, valid s -> set_like ord -> ordinary_types v -> plain_texts v -> honest_maps v ->
  from_data s ord v n = Ok t -> declarations s t = Some texts ->
  forall text, In text texts -> exists x m d, text = print_decl d /\ has_form s x m d /\ part_of v x.
Proof.
  intros s ord v n t texts Hs Ho Hv Hp Hm H D. pose proof (from_data_eq_free _ _ _ _ _ Hs Ho Hv Hp H) as F. apply declarations_decls in D as [-> _]; auto.
  intros text Ht. apply in_map_iff in Ht as (d & <- & Hd). unfold decls in Hd. apply in_map_iff in Hd as (c & <- & Hc). unfold kept in Hc. apply firsts_incl, collect_nodes in Hc as [Hc _].
  destruct (node_form s ord v n t Ho Hm H c Hc) as (x & Px & Fx). exists x, (tname c), (decl_of s c). auto.
Qed.
Print Assumptions C74_declarations_partial.
(** A subclass of [dict] that is called [mappingproxy]. *)
Definition fake_proxy : pyval := VMap MDict (PyType 900 "mappingproxy") [(KStr "a", vint)].
Definition dict_strategies (d : dict_strategy) : strategies := Strategies LSequence TAnySize d (s_pandas default_strategies) 1 "" 50 false None.
Lemma dict_strategies_valid d : valid (dict_strategies d).
Proof. destruct d; [exists (Raw "Sequence" "any size" "TypedDict" "Full type hint" 1%Z "" 50%Z false None)|exists (Raw "Sequence" "any size" "Mapping" "Full type hint" 1%Z "" 50%Z false None)|exists (Raw "Sequence" "any size" "dict" "Full type hint" 1%Z "" 50%Z false None)]; reflexivity. Qed.
Theorem C74_root_refuted : exists t texts, ordinary_types fake_proxy /\ plain_texts fake_proxy /\ from_data (dict_strategies DDict) as_inserted fake_proxy "Example" = Ok t /\
  declarations (dict_strategies DDict) t = Some texts /\ texts = ["Example: TypeAlias = MappingProxyType[str, int]"] /\
  forall d, In (print_decl d) texts -> ~ has_form (dict_strategies DDict) fake_proxy "Example" d.
Proof.
  do 2 eexists. hyps; [vm_compute; reflexivity|vm_compute; reflexivity|reflexivity|].
  intros d [E|[]] F. inversion F; subst; try discriminate; cbn in E; discriminate.
Qed.
Print Assumptions C74_root_refuted.

Definition mixed : pyval :=
  vdict [("a", vlist [vint; vstr]); ("b", vtuple [vint; VMap MProxy ty_proxy [(KStr "x", vint)]]); ("c", VMap MDict ty_dict [(KObj ty_int 1, vstr)]); ("d", VSeq KSet ty_frozenset [vint])].
Example C74_example : valid (dict_strategies DMapping) /\ set_like as_inserted /\ ordinary_types mixed /\ plain_texts mixed /\ honest_maps mixed /\
  (exists t, from_data (dict_strategies DMapping) as_inserted mixed "Example" = Ok t /\ declarations (dict_strategies DMapping) t = Some
    ["ExampleB: TypeAlias = Tuple[Union[MappingProxyType[str, int], int], ...]";
     "Example: TypeAlias = Mapping[str, Union[ExampleB, FrozenSet[int], Mapping[int, str], Sequence[Union[int, str]]]]"]) /\
  exists t, from_data (dict_strategies DDict) as_inserted mixed "Example" = Ok t /\ declarations (dict_strategies DDict) t = Some
    ["ExampleB: TypeAlias = Tuple[Union[MappingProxyType[str, int], int], ...]";
     "Example: TypeAlias = Dict[str, Union[Dict[int, str], ExampleB, FrozenSet[int], Sequence[Union[int, str]]]]"].
Proof.
  hyps; try apply dict_strategies_valid.
  - intros x Hx. apply sub_subs in Hx. vm_compute in Hx. repeat (destruct Hx as [<-|Hx]; [cbn; reflexivity || exact I || discriminate|]). destruct Hx.
  - eexists. split; [vm_compute; reflexivity|]. vm_compute. reflexivity.
  - eexists. split; [vm_compute; reflexivity|]. vm_compute. reflexivity.
Qed.
