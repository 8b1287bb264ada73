(** C100: the documentation of a key is the docstring under that key. *)
From Coq Require Import Ascii String List Bool Arith ZArith Lia.
From Verif Require Import PyStr PyStrFacts Utils Strategies Dispatch Docstring Values Tree Build Emit TreeFacts SpecNames SpecData SpecTypes SpecEmit SpecMerge Elab BuildFacts TreeProofs Provenance MergeFacts DictInv ElabFacts EmitFacts EmitTop TypedFacts GroupFacts
  SpecExact PropsExact PropsKeys SpecNotes NoteFacts NoteSource Samples SampleEmit PropsEmit PropsForm PropsErase.
Import ListNotations.
Local Open Scope string_scope.

Lemma key_doc_In m k x : key_doc m k = Some x -> note_of (m_data m) k x.
Proof.
  unfold key_doc, note_of. destruct (dget _ (m_data m)) as [y|] eqn:E; [|discriminate]. destruct y; try discriminate. intros F. assert (s = x) by congruence. subst. now apply dget_In in E.
Qed.
Lemma key_doc_iff m k x : NoDup (map fst (m_data m)) -> (key_doc m k = Some x <-> note_of (m_data m) k x).
Proof.
  intros N. split; [apply key_doc_In|]. intros H. unfold key_doc. change hidden_prefix with "___docstring_hidden_key_". rewrite (NoDup_dget _ _ _ N H). reflexivity.
Qed.
Lemma is_td_of s c D m : tkind c = NDict D m -> is_td s c = is_typed_dict s m.
Proof. intros K. unfold is_td, node_is_typed_dict. now rewrite K. Qed.
Lemma td_strategy s : s_dict s = DTypedDict -> is_td_strategy s = true.
Proof. intros E. unfold is_td_strategy. now rewrite E. Qed.

(** Every docstring under a key is the documentation of that key in some dict of the value. *)
Theorem C100_only : forall s ord v n t c k x, set_like ord -> from_data s ord v n = Ok t -> node_of c t -> shows (decl_of s c) k x ->
  exists mk ty d, sub (VMap mk ty d) v /\ note_of d k x.
Proof.
  intros s ord v n t c k x Ho H Hc (n0 & fs & doc & f & Ed & Hf & Ek & Ex). unfold from_data in H. destruct (is_compatible n); [|discriminate].
  set (E := fun (k : key) (y : pyval) => forall text, y = VStr text -> exists mk ty d, sub (VMap mk ty d) v /\ In (k, VStr text) d).
  assert (EE : forall k y, E k y -> E k (exhaust y)).
  { intros k0 y Hy text Et. apply Hy. destruct y as [| | | | | | |k1 ? ?|k1 ? ?]; try (cbn in Et; discriminate); try destruct k1; try (cbn in Et; discriminate). exact Et. }
  assert (Hv : values_e E v). { intros mk ty d Hs k0 y Hy text ->. eauto. }
  pose proof (build_source s ord Ho E EE _ _ _ _ _ _ Hv H c Hc) as [_ M]. unfold decl_of in Ed. unfold node_meta in M.
  assert (Hd : exists D m, tkind c = NDict D m).
  { destruct (tkind c) as [| | | | | | | |D m]; try discriminate; try (unfold fun_decl in Ed; destruct (f_sig _) as [[? ?]|]; [destruct (f_lambda _)|]; discriminate). eauto. }
  destruct Hd as (D & m & K). rewrite K in Ed, M.
  destruct (is_typed_dict s m); [|discriminate]. assert (Efs : fs = filter visible_field (map (typed_field s m) (tcs c))) by congruence. rewrite Efs in Hf. apply filter_In in Hf as [Hf _].
  apply in_map_iff in Hf as (e & <- & He). cbn [typed_field fd_key fd_doc] in Ek, Ex. rewrite Ek in Ex. apply key_doc_In in Ex. destruct (M _ _ Ex) as [G _]. exact (G x eq_refl).
Qed.
Print Assumptions C100_only.

Section Place.
  Variable s : strategies.
  Variable ord : set_order.
  Variable v : pyval.
  Variable n : string.
  Variable t : tree.
  Hypothesis Ho : set_like ord.
  Hypothesis TS : s_dict s = DTypedDict.
  Hypothesis Hu : unique_keys v.
  Hypothesis H : from_data s ord v n = Ok t.

  Lemma collected c : visible c t -> is_td s c = true -> In c (collect s t).
  Proof. intros V T. destruct (C26_all_data s ord v n t Ho H) as [A _]. apply A. split; auto. right. right. left. exact T. Qed.
  Lemma node_dinv c : node_of c t -> dinv c.
  Proof. intros Hc. unfold from_data in H. destruct (is_compatible n); [|discriminate]. exact (build_dinv s ord Ho _ _ _ _ _ _ Hu H c Hc). Qed.
  Lemma visible_node c u : visible c u -> node_of c u.
  Proof. induction 1; [constructor|]. econstructor; [apply in_app_iff; right; left; reflexivity|]. exact IHvisible. Qed.
  Lemma placed p y : first_under v p y -> exists c, route t p c /\ place s y c.
  Proof. intros F. unfold from_data in H. destruct (is_compatible n); [|discriminate]. eapply place_built; eauto using td_strategy. Qed.
  (** The fields of a TypedDict. *)
  Lemma note_fields c D m : node_of c t -> tkind c = NDict D m -> is_td s c = true -> exists fs doc,
    decl_of s c = DTyped (tname c) (functional_syntax m) fs doc /\ map (fun f => KStr (fd_key f)) fs = map ekey (tcs c) /\ forall f, In f fs -> fd_doc f = key_doc m (fd_key f).
  Proof.
    intros Hc K T. destruct (typed_fields s c D m (node_dinv c Hc) K T) as (A & B & _). exists (filter visible_field (map (typed_field s m) (tcs c))), (class_doc s D). split; [exact A|]. split; [exact B|].
    intros f Hf. apply filter_In in Hf as [Hf _]. apply in_map_iff in Hf as (e & <- & _). reflexivity.
  Qed.
End Place.

(** Where nothing in front of it can be taken for it, a dict with string keys is declared with its own documentation; the element limit and
    the lists on the way are the subject of the theorems below. *)
Theorem C100_kept_partial : forall s ord v n t p ty d, set_like ord -> s_dict s = DTypedDict -> unique_keys v -> from_data s ord v n = Ok t ->
  first_under v p (VMap MDict ty d) ->
  exists c b fs doc, node_at t p c /\ In c (collect s t) /\ decl_of s c = DTyped (tname c) b fs doc /\
    map (fun f => KStr (fd_key f)) fs = filter (fun k => negb (is_hidden k)) (map fst d) /\
    (forall f, In f fs -> forall x, fd_doc f = Some x <-> note_of d (fd_key f) x) /\
    (b = false <-> forall k, has_key (KStr k) d -> SpecExact.accepted k /\ ~ In k python_keywords).
Proof.
  intros s ord v n t p ty d Ho TS Hu H F. destruct (placed s ord v n t Ho TS Hu H _ _ F) as (c & R & K & Kc).
  assert (Sk : string_keys d) by (clear - F; remember (VMap MDict ty d) as y eqn:E; induction F; try discriminate; [injection E as -> ->; assumption|auto]).
  assert (T : is_td s c = true). { rewrite (is_td_of _ _ _ _ K). unfold is_typed_dict. rewrite (td_strategy s TS), andb_true_r. cbn [init_meta m_data]. now apply string_keys_all. }
  assert (V : visible c t) by (eapply route_visible; [exact R|constructor]).
  assert (Nd : NoDup (map fst d)). { assert (Sd : sub (VMap MDict ty d) v) by (clear - F; remember (VMap MDict ty d) as y eqn:E; induction F; try discriminate; [constructor|eapply sub_map; [apply in_app_iff; right; left; reflexivity|auto]]). exact (Hu _ _ _ Sd). }
  destruct (note_fields s ord v n t Ho Hu H c _ _ (visible_node _ _ V) K T) as (fs & doc & E & Ks & Ds).
  exists c, (functional_syntax (init_meta d)), fs, doc. split; [now apply route_at|]. split; [now apply (collected s ord v n)|]. split; [exact E|]. split; [rewrite Ks; exact Kc|]. split.
  - intros f Hf x. rewrite (Ds f Hf). apply key_doc_iff. exact Nd.
  - destruct (C25_all_keys s c _ _ K T) as (f' & fs' & doc' & E' & B & _). assert (Ef : functional_syntax (init_meta d) = f') by congruence. rewrite Ef. exact B.
Qed.
Print Assumptions C100_kept_partial.

Lemma join_around l (x : string) : In x l -> exists a b, join nl l = a ++ x ++ b.
Proof.
  induction l as [|y l IH]; [intros []|]. intros Hx. destruct l as [|z l].
  - destruct Hx as [<-|[]]. exists "", "". cbn. now rewrite app_nil_r_s.
  - rewrite join_cons by discriminate. destruct Hx as [<-|Hx].
    + exists "", (nl ++ join nl (z :: l)). reflexivity.
    + destruct (IH Hx) as (a & b & E). rewrite E. exists (y ++ nl ++ a), b. now rewrite !app_assoc_s.
Qed.
Lemma print_decl_field n fs doc f : In f fs -> exists a b, print_decl (DTyped n false fs doc) = a ++ print_field f ++ b.
Proof.
  intros Hf. unfold print_decl. apply join_around. right. apply in_app_iff. right. destruct fs as [|g fs]; [destruct Hf|]. now apply in_map.
Qed.

(** In the text the docstring stands on the lines after the field, where the class syntax is used. *)
Theorem C100_text_partial : forall s ord v n t texts p ty d k x, valid s -> set_like ord -> s_dict s = DTypedDict -> unique_keys v -> ordinary_types v -> plain_texts v ->
  from_data s ord v n = Ok t -> declarations s t = Some texts -> first_under v p (VMap MDict ty d) ->
  (forall k, has_key (KStr k) d -> SpecExact.accepted k /\ ~ In k python_keywords) -> has_key (KStr k) d -> ~ doc_key (KStr k) -> note_of d k x ->
  exists text before u after, In text texts /\ text = before ++ TAB ++ k ++ ": " ++ print_ty u ++ nl ++ format_docstring 90 TAB x ++ after.
Proof.
  intros s ord v n t texts p ty d k x Hs Ho TS Hu Hv Hp H D F Kd Hk Nk Hx.
  destruct (C100_kept_partial s ord v n t p ty d Ho TS Hu H F) as (c & b & fs & doc & _ & Hc & E & Ks & Ds & B). apply B in Kd. subst b.
  assert (Hf : In (KStr k) (map (fun f => KStr (fd_key f)) fs)) by (rewrite Ks; apply visible_In; auto). apply in_map_iff in Hf as (f & Ef & Hf). injection Ef as Ef.
  assert (Df : fd_doc f = Some x) by (apply Ds; [exact Hf|now rewrite Ef]).
  destruct (print_decl_field (tname c) fs doc f Hf) as (a & z & Et). exists (print_decl (decl_of s c)), a, (fd_type f), z. split.
  - apply (collected_text s t); auto. eapply from_data_eq_free; eauto.
  - rewrite E, Et. unfold print_field. rewrite Df, Ef, !app_assoc_s. reflexivity.
Qed.
Print Assumptions C100_text_partial.

(** Dicts with string keys in a list: each has a TypedDict below the node of the list, and a documented key has there a docstring of one of the dicts. *)
Theorem C100_items_partial : forall s ord v n t p ty l td d k x, set_like ord -> s_dict s = DTypedDict -> unique_keys v -> from_data s ord v n = Ok t ->
  first_under v p (VSeq KList ty l) -> In (VMap MDict td d) (limit s l) -> string_keys d -> has_key (KStr k) d -> ~ doc_key (KStr k) -> note_of d k x ->
  (forall td' d' y, In (VMap MDict td' d') (limit s l) -> In (KStr ("___docstring_hidden_key_" ++ k), y) d' -> exists text, y = VStr text) ->
  exists c e b fs doc f x' td' d', node_at t p c /\ In e (tcs c) /\ In (snd e) (collect s t) /\ decl_of s (snd e) = DTyped (tname (snd e)) b fs doc /\
    In f fs /\ fd_key f = k /\ fd_doc f = Some x' /\ In (VMap MDict td' d') (limit s l) /\ note_of d' k x'.
Proof.
  intros s ord v n t p ty l td d k x Ho TS Hu H F Hd Sk Hk Nk Hx Tx. destruct (placed s ord v n t Ho TS Hu H _ _ F) as (c & R & [Nn P]).
  destruct (P td d Hd Sk) as (e & He & Kn & On). pose proof (knows_td _ _ _ _ Kn) as T. destruct Kn as (D & m & K & Tm & Kn).
  assert (V : visible (snd e) t). { eapply route_visible; [exact R|]. eapply visible_one; [|exact He|constructor]. intros e' He'. rewrite Forall_forall in Nn. rewrite (Nn e' He'). discriminate. }
  destruct (note_fields s ord v n t Ho Hu H (snd e) _ _ (visible_node _ _ V) K T) as (fs & doc & E & Ks & Ds).
  assert (Ck : In (KStr k) (map ekey (tcs (snd e)))).
  { destruct (node_dinv s ord v n t Ho Hu H (snd e) (visible_node _ _ V) D m K) as (_ & _ & (I & A & _ & M & _) & _). destruct (M (KStr k) Nk) as (_ & M' & _). apply M'. now apply Kn. }
  rewrite <- Ks in Ck. apply in_map_iff in Ck as (f & Ef & Hf). injection Ef as Ef.
  assert (Hn : has_key (KStr ("___docstring_hidden_key_" ++ k)) (m_data m)) by (apply Kn; exact (in_map fst _ _ Hx)).
  destruct (dget (KStr ("___docstring_hidden_key_" ++ k)) (m_data m)) as [y|] eqn:G; [|apply dget_None in G; contradiction].
  pose proof (dget_In _ _ _ G) as Hy. destruct (On T (KStr ("___docstring_hidden_key_" ++ k)) y) as (td' & d' & Hd' & Hy'); [unfold node_meta; rewrite K; exact Hy|].
  destruct (Tx td' d' y Hd' Hy') as (x' & ->). exists c, e, (functional_syntax m), fs, doc, f, x', td', d'.
  split; [now apply route_at|]. split; [exact He|]. split; [now apply (collected s ord v n)|]. split; [exact E|]. split; [exact Hf|]. split; [exact Ef|]. split.
  - rewrite (Ds f Hf), Ef. unfold key_doc. change hidden_prefix with "___docstring_hidden_key_". rewrite G. reflexivity.
  - split; [exact Hd'|exact Hy'].
Qed.
Print Assumptions C100_items_partial.

(** ** What gets lost *)
(** [d] is a dict of [v] that documents the visible key [k] by [x], and [x] is nowhere in the declarations. *)
Definition lost (v : pyval) : Prop :=
  valid default_strategies /\ set_like as_inserted /\ unique_keys v /\ ordinary_types v /\ plain_texts v /\
  exists t texts ty d k x, from_data default_strategies as_inserted v "Order" = Ok t /\ declarations default_strategies t = Some texts /\
    sub (VMap MDict ty d) v /\ string_keys d /\ has_key (KStr k) d /\ ~ doc_key (KStr k) /\ note_of d k x /\ x <> "" /\
    forall text, In text texts -> ~ exists a b, text = a ++ x ++ b.
Definition missing (v : pyval) (x : string) : bool :=
  match from_data default_strategies as_inserted v "Order" with
  | Ok t => match declarations default_strategies t with Some texts => forallb (fun y => negb (contains x y)) texts | None => false end
  | _ => false
  end.
Lemma lost_spec v d k x : unique_keysb v = true -> ordinaryb v = true -> plain_textsb v = true -> sub (VMap MDict ty_dict d) v -> all_str d = true -> has_key (KStr k) d ->
  is_hidden (KStr k) = false -> note_of d k x -> x <> "" -> missing v x = true -> lost v.
Proof.
  intros A B C Sd Sk Hk Nk Hx Nx M. split; [apply default_valid|]. split; [apply as_inserted_set_like|]. split; [now apply unique_keysb_spec|]. split; [now apply ordinaryb_spec|]. split; [now apply plain_textsb_spec|].
  unfold missing in M. destruct (from_data default_strategies as_inserted v "Order") as [t| |]; [|discriminate M|discriminate M]. destruct (declarations default_strategies t) as [texts|] eqn:D; [|discriminate M].
  exists t, texts, ty_dict, d, k, x. split; [reflexivity|]. split; [exact D|]. split; [exact Sd|]. split; [now apply string_keys_all|]. split; [exact Hk|].
  split; [intros F; apply hidden_doc in F; congruence|]. split; [exact Hx|]. split; [exact Nx|].
  intros text Ht F. rewrite forallb_forall in M. specialize (M text Ht). apply negb_true_iff in M. apply contains_spec in F. congruence.
Qed.
(** Two dicts with equal keys share a declaration, with the documentation of the first one. *)
Theorem C100_refuted : exists v, lost v.
Proof.
  exists (vdict [("a", vdict [("x", vint)]); ("b", vdict [note "x" "Second."; ("x", vint)])]).
  eapply (lost_spec _ _ "x" "Second."); [vm_compute; reflexivity|vm_compute; reflexivity|vm_compute; reflexivity| | | | | |discriminate|vm_compute; reflexivity].
  - eapply sub_map; [right; left; reflexivity|constructor].
  - reflexivity.
  - right. left. reflexivity.
  - reflexivity.
  - left. reflexivity.
Qed.
Print Assumptions C100_refuted.
(** So do equal dicts in a list. *)
Theorem C100_items_refuted : exists v, lost v.
Proof.
  exists (vdict [("rows", vlist [vdict [note "x" "First."; ("x", vint)]; vdict [note "x" "Second."; ("x", vint)]])]).
  eapply (lost_spec _ _ "x" "Second."); [vm_compute; reflexivity|vm_compute; reflexivity|vm_compute; reflexivity| | | | | |discriminate|vm_compute; reflexivity].
  - eapply sub_map; [left; reflexivity|]. eapply sub_seq; [right; left; reflexivity|constructor].
  - reflexivity.
  - right. left. reflexivity.
  - reflexivity.
  - left. reflexivity.
Qed.
Print Assumptions C100_items_refuted.
(** The functional syntax has no place for the documentation of a key, not even of the keys that are names. *)
Theorem C100_syntax_refuted : exists v, lost v.
Proof.
  exists (vdict [("a-b", vint); note "x" "Second."; ("x", vint)]).
  eapply (lost_spec _ _ "x" "Second."); [vm_compute; reflexivity|vm_compute; reflexivity|vm_compute; reflexivity| | | | | |discriminate|vm_compute; reflexivity].
  - constructor.
  - reflexivity.
  - right. right. left. reflexivity.
  - reflexivity.
  - right. left. reflexivity.
Qed.
Print Assumptions C100_syntax_refuted.

(** ** Examples *)
Definition customer_entries : list (key * pyval) :=
  [(KStr "name", vstr); (KStr "___docstring_hidden_key_address", VStr "Where to."); (KStr "address", vdict [("street", vstr); ("zip", vint)])].
Definition item_2 : list (key * pyval) := [(KStr "sku", vstr); (KStr "___docstring_hidden_key_price", VStr "Without tax."); (KStr "price", vfloat)].
Definition item_1 : list (key * pyval) := [(KStr "___docstring_hidden_key_sku", VStr "The number."); (KStr "sku", vstr); (KStr "tags", vlist [vstr])].
Definition order_before : list (key * pyval) := [(KStr "___docstring_hidden_key_customer", VStr "Who pays.")].
Definition order_after : list (key * pyval) := match order_commented with VMap _ _ d => skipn 3 d | _ => [] end.
Definition order_items : pyval := VSeq KList ty_list [VMap MDict ty_dict item_1; VMap MDict ty_dict item_2].
Lemma order_is : order_commented = VMap MDict ty_dict (order_before ++ (KStr "customer", VMap MDict ty_dict customer_entries) :: (KStr "items", order_items) :: order_after)%list.
Proof. vm_compute. reflexivity. Qed.
Lemma visible_name k : is_hidden (KStr k) = false -> ~ doc_key (KStr k).
Proof. intros H F. apply hidden_doc in F. congruence. Qed.
Lemma order_string : string_keys (order_before ++ (KStr "customer", VMap MDict ty_dict customer_entries) :: (KStr "items", order_items) :: order_after)%list.
Proof. apply string_keys_all. vm_compute. reflexivity. Qed.
Lemma before_hidden k x : In (k, x) order_before -> ~ doc_key k -> False.
Proof. intros [E|[]] N. apply N. apply hidden_doc. assert (F : k = KStr "___docstring_hidden_key_customer") by congruence. rewrite F. vm_compute. reflexivity. Qed.
Lemma customer_first : first_under order_commented ["customer"] (VMap MDict ty_dict customer_entries).
Proof.
  rewrite order_is. apply fu_key; [exact order_string|now apply visible_name| |].
  - intros k x Hx N. destruct (before_hidden k x Hx N).
  - apply fu_dict. apply string_keys_all. vm_compute. reflexivity.
Qed.
Lemma items_first : first_under order_commented ["items"] order_items.
Proof.
  rewrite order_is. change (order_before ++ (KStr "customer", VMap MDict ty_dict customer_entries) :: (KStr "items", order_items) :: order_after)%list
    with ((order_before ++ [(KStr "customer", VMap MDict ty_dict customer_entries)]) ++ (KStr "items", order_items) :: order_after)%list.
  apply fu_key; [exact order_string|now apply visible_name| |apply fu_list].
  intros k x Hx N. apply in_app_iff in Hx as [Hx|[E|[]]]; [destruct (before_hidden k x Hx N)|]. assert (F : x = VMap MDict ty_dict customer_entries) by congruence. rewrite F. exact I.
Qed.
Lemma order_unique : unique_keys order_commented.
Proof. apply unique_keysb_spec. vm_compute. reflexivity. Qed.
Lemma customer_names k : has_key (KStr k) customer_entries -> SpecExact.accepted k /\ ~ In k python_keywords.
Proof.
  intros Hk. assert (K : is_compatible k = true /\ mem k kwlist = false).
  { unfold has_key, customer_entries in Hk. cbn [map fst In] in Hk. destruct Hk as [E|[E|[E|[]]]]; assert (F : k = match KStr k with KStr x => x | _ => "" end) by reflexivity; rewrite <- E in F; cbn beta iota in F; rewrite F; (split; vm_compute; reflexivity). }
  destruct K as [K1 K2]. split; [now apply is_compatible_accepted|]. intros F. apply kwlist_keywords in F. congruence.
Qed.
Example C100_kept_example : exists t texts, from_data default_strategies as_inserted order_commented "Order" = Ok t /\ declarations default_strategies t = Some texts /\
  exists text before u after, In text texts /\ text = before ++ TAB ++ "address" ++ ": " ++ print_ty u ++ nl ++ format_docstring 90 TAB "Where to." ++ after.
Proof.
  assert (E : match from_data default_strategies as_inserted order_commented "Order" with Ok t => match declarations default_strategies t with Some _ => true | None => false end | _ => false end = true) by (vm_compute; reflexivity).
  destruct (from_data default_strategies as_inserted order_commented "Order") as [t| |] eqn:H; [|discriminate E|discriminate E]. destruct (declarations default_strategies t) as [texts|] eqn:D; [|discriminate E].
  exists t, texts. split; [reflexivity|]. split; [exact D|].
  assert (O : ordinary_types order_commented) by (apply ordinaryb_spec; vm_compute; reflexivity). assert (P : plain_texts order_commented) by (apply plain_textsb_spec; vm_compute; reflexivity).
  assert (Hk : has_key (KStr "address") customer_entries) by (right; right; left; reflexivity).
  assert (Hn : note_of customer_entries "address" "Where to.") by (right; left; reflexivity).
  assert (N : ~ doc_key (KStr "address")) by (now apply visible_name).
  exact (C100_text_partial default_strategies as_inserted order_commented "Order" t texts ["customer"] ty_dict customer_entries "address" "Where to."
    default_valid as_inserted_set_like eq_refl order_unique O P H D customer_first customer_names Hk N Hn).
Qed.
Example C100_items_example : exists t, from_data default_strategies as_inserted order_commented "Order" = Ok t /\
  exists c e b fs doc f x td d, node_at t ["items"] c /\ In e (tcs c) /\ In (snd e) (collect default_strategies t) /\ decl_of default_strategies (snd e) = DTyped (tname (snd e)) b fs doc /\
    In f fs /\ fd_key f = "price" /\ fd_doc f = Some x /\ In (VMap MDict td d) [VMap MDict ty_dict item_1; VMap MDict ty_dict item_2] /\ note_of d "price" x.
Proof.
  assert (E : match from_data default_strategies as_inserted order_commented "Order" with Ok t => true | _ => false end = true) by (vm_compute; reflexivity).
  destruct (from_data default_strategies as_inserted order_commented "Order") as [t| |] eqn:H; [|discriminate E|discriminate E]. exists t. split; [reflexivity|].
  assert (L : limit default_strategies [VMap MDict ty_dict item_1; VMap MDict ty_dict item_2] = [VMap MDict ty_dict item_1; VMap MDict ty_dict item_2]) by (vm_compute; reflexivity).
  assert (Hd : In (VMap MDict ty_dict item_2) (limit default_strategies [VMap MDict ty_dict item_1; VMap MDict ty_dict item_2])) by (rewrite L; right; left; reflexivity).
  assert (Sk : string_keys item_2) by (apply string_keys_all; vm_compute; reflexivity).
  assert (Hk : has_key (KStr "price") item_2) by (right; right; left; reflexivity).
  assert (N : ~ doc_key (KStr "price")) by (now apply visible_name).
  assert (Hn : note_of item_2 "price" "Without tax.") by (right; left; reflexivity).
  assert (Tx : forall td' d' y, In (VMap MDict td' d') (limit default_strategies [VMap MDict ty_dict item_1; VMap MDict ty_dict item_2]) -> In (KStr ("___docstring_hidden_key_" ++ "price"), y) d' -> exists text, y = VStr text).
  { intros td' d' y Hd' Hy. rewrite L in Hd'. assert (A : d' = item_1 \/ d' = item_2) by (destruct Hd' as [G|[G|[]]]; [left|right]; congruence).
    assert (B : forallb (fun e => negb (is_hidden (fst e)) || match snd e with VStr _ => true | _ => false end) d' = true) by (destruct A as [-> | ->]; vm_compute; reflexivity).
    rewrite forallb_forall in B. specialize (B _ Hy). cbn [fst snd] in B. destruct y; try (eauto; fail); exfalso; rewrite orb_false_r in B; apply negb_true_iff in B;
      assert (G : is_hidden (KStr ("___docstring_hidden_key_" ++ "price")) = true) by (vm_compute; reflexivity); congruence. }
  destruct (C100_items_partial default_strategies as_inserted order_commented "Order" t ["items"] ty_list _ ty_dict item_2 "price" "Without tax." as_inserted_set_like eq_refl order_unique H items_first Hd Sk Hk N Hn Tx)
    as (c & e & b & fs & doc & f & x & td & d' & A1 & A2 & A3 & A4 & A5 & A6 & A7 & A8 & A9).
  exists c, e, b, fs, doc, f, x, td, d'. do 7 (split; [assumption|]). split; [rewrite L in A8; exact A8|exact A9].
Qed.
Example C100_only_example : exists t c mk ty d, from_data default_strategies as_inserted order_commented "Order" = Ok t /\ node_of c t /\ shows (decl_of default_strategies c) "address" "Where to." /\
  sub (VMap mk ty d) order_commented /\ note_of d "address" "Where to.".
Proof.
  assert (E : match from_data default_strategies as_inserted order_commented "Order" with Ok t => match tcs t with e :: _ => match decl_of default_strategies (snd e) with
     DTyped _ false [_; f] _ => match fd_doc f with Some x => String.eqb x "Where to." && String.eqb (fd_key f) "address" | None => false end | _ => false end | [] => false end | _ => false end = true) by (vm_compute; reflexivity).
  destruct (from_data default_strategies as_inserted order_commented "Order") as [t| |] eqn:H; [|discriminate E|discriminate E]. destruct (tcs t) as [|e cs] eqn:C; [discriminate E|].
  destruct (decl_of default_strategies (snd e)) as [|n0 b fs doc|] eqn:D; [discriminate E| |discriminate E]. destruct b; [discriminate E|]. destruct fs as [|g [|f [|? ?]]]; [discriminate E|discriminate E| |discriminate E]. destruct (fd_doc f) as [x|] eqn:X; [|discriminate E].
  apply andb_true_iff in E as [E1 E2]. apply String.eqb_eq in E1, E2. subst x.
  assert (N : node_of (snd e) t). { destruct t as [i l]. cbn [tcs] in C. subst l. econstructor; [left; reflexivity|constructor]. }
  assert (Sh : shows (decl_of default_strategies (snd e)) "address" "Where to."). { exists n0, [g; f], doc, f. split; [exact D|]. split; [right; left; reflexivity|]. split; [exact E2|exact X]. }
  destruct (C100_only _ _ _ _ _ _ _ _ as_inserted_set_like H N Sh) as (mk & ty & d & A & B). exists t, (snd e), mk, ty, d. auto.
Qed.
