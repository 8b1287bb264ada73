(** C97: documentation entries (comments of a YAML file) add docstrings and change nothing else. *)
From Coq Require Import Ascii String List Bool Arith Lia Permutation.
From Verif Require Import PyStr PyStrFacts Utils Strategies Imports Dispatch Docstring Values Tree Build Emit TreeFacts SpecData SpecMerge SpecNames NamesFacts BuildFacts BuildInd TotalFacts TreeProofs MergeFacts DataMap
  SpecTypes SpecEmit Elab EmitFacts ElabFacts EmitTop TextFacts SpecSound SoundEmit SoundTop SoundRead SpecUnique SpecClear PropsForm PropsUnique PropsClear SpecEnd Samples SampleSound SampleEmit PropsEnd SoundHash SpecDocs DocMap DocFacts.
Import ListNotations.
Local Open Scope string_scope.

Lemma utree_shape t : same_shape t (utree t).
Proof.
  induction t as [i cs IH] using tree_ind'. destruct i as [n d h r k ty]. cbn [utree]. constructor.
  - destruct k; cbn; auto. assert (A : forall e, string_keys e <-> all_str e = true).
    { intros e. unfold string_keys, all_str. rewrite forallb_forall. split.
      - intros H [k x] Hx. cbn [fst]. destruct (H k) as (z & ->); [|reflexivity]. unfold has_key. change k with (fst (k, x)). now apply in_map.
      - intros H k Hk. unfold has_key in Hk. apply in_map_iff in Hk as ([k' x] & <- & Hx). specialize (H _ Hx). cbn [fst] in *. destruct k'; try discriminate. eauto. }
    rewrite !A, all_str_dmap. tauto.
  - induction IH; cbn [map]; constructor; auto.
Qed.
Lemma declarations_none s t : declarations s t = None <-> existsb function_fails (collect s t) = true.
Proof. unfold declarations. destruct (existsb _ _); split; congruence. Qed.

(** For all data whose documentation entries are texts next to the keys that they document: the construction ends alike with and without them, the same keywords are imported, and the
    declarations of all declared nodes are those without them but for the docstrings of the keys. *)
Theorem C97_docstrings_only : forall s ord v w c, set_like ord -> blind ord -> documented s v -> strips v w -> ~ doc_key (KStr (s_key_doc s)) ->
  match from_data s ord v c, from_data s ord w c with
  | Ok t, Ok t' =>
      map (decl_of s) (collect s t') = map without_docs (map (decl_of s) (collect s t)) /\ recorded_imports s t' = recorded_imports s t /\
      (declarations s t' = None <-> declarations s t = None)
  | Err e, Err e' => e = e'
  | _, _ => False
  end.
Proof.
  intros s ord v w c Sl B D St N. apply strips_undoc in St. subst w.
  destruct (from_data_undoc s ord Sl (fun i l => B i utree l utree_shape) v c D) as [E F]. rewrite E. pose proof (FuelFacts.from_data_terminates s ord v c Sl) as Tm. destruct (from_data s ord v c) as [t|e|]; cbn [rmap]; auto.
  specialize (F t eq_refl). split; [|split].
  - rewrite collect_utree, !map_map. apply map_ext_in. intros n Hn. apply decl_utree; auto. apply collect_nodes in Hn as [Hn _]. clear -F Hn. induction Hn as [|i cs e He Hn IH]; auto. inversion F; subst. auto.
  - unfold recorded_imports. rewrite collect_utree. f_equal. induction (collect s t) as [|n l IH]; auto. cbn [map flat_map]. rewrite IH. now rewrite (proj1 (top_utree s n)).
  - rewrite !declarations_none, collect_utree. assert (X : existsb function_fails (map utree (collect s t)) = existsb function_fails (collect s t)).
    { induction (collect s t) as [|n l IH]; auto. cbn [map existsb]. now rewrite fails_utree, IH. }
    now rewrite X.
Qed.
Print Assumptions C97_docstrings_only.

(** ** What is described *)
Lemma declared_without d : declared (without_docs d) = declared d.
Proof. now destruct d. Qed.
Lemma accepts_docs ds ds' : (forall d', In d' ds' -> exists d, In d ds /\ without_docs d = d') -> (forall n, In n (map declared ds) -> In n (map declared ds')) ->
  forall t v, accepts ds' t v -> accepts ds t v.
Proof.
  intros I Nm. fix IH 3. intros t v H.
  assert (W : forall d', In d' ds' -> match d' with DAlias n t => In (DAlias n t) ds | DProto n g => In (DProto n g) ds | DTyped n b fs doc => exists fs0, In (DTyped n b fs0 doc) ds /\ fs = map (fun f => Field (fd_key f) (fd_type f) None) fs0 end).
  { intros d' Hd. destruct (I d' Hd) as (d & Hi & <-). destruct d; cbn [without_docs]; eauto. }
  destruct H.
  - apply acc_class; auto.
  - apply acc_forward; auto.
  - apply (acc_alias _ n t); [exact (W _ H)|auto].
  - destruct (W _ H) as (fs0 & Hi & E). apply (acc_typed _ n functional fs0 doc); auto.
    + intros k x Hx. destruct (H0 k x Hx) as (f & Hf & Hk & Ha). rewrite E in Hf. apply in_map_iff in Hf as (f0 & <- & Hf0). cbn [fd_key fd_type] in *. exists f0. auto.
    + intros f Hf Hr. apply (H1 (Field (fd_key f) (fd_type f) None)); auto. rewrite E. apply in_map_iff. exists f. auto.
  - eapply acc_proto; [exact (W _ H)|eauto|eauto].
  - apply acc_callable.
  - eapply acc_callable_args; eauto.
  - apply acc_module.
  - apply acc_textio.
  - apply acc_array.
  - apply acc_type; auto.
  - apply acc_type_forward; auto.
  - apply acc_none.
  - apply acc_optional; auto.
  - eapply acc_union; eauto.
  - apply acc_seq; auto.
  - apply acc_tuple_any; auto.
  - apply acc_tuple. induction H; constructor; auto.
  - apply acc_map; auto. intros key x Hx. destruct (H0 key x Hx). auto.
Qed.

Lemma describes_decls s ord v w c : valid s -> set_like ord -> blind ord -> documented s v -> strips v w -> ~ doc_key (KStr (s_key_doc s)) -> describable s c w ->
  exists t, let ds := decls s t in from_data s ord v c = Ok t /\ declarations s t = Some (map print_decl ds) /\ Forall (fun d => readable (without_docs d)) ds /\
    (forall d d', In d ds -> In d' ds -> declared d = declared d' -> without_docs d = without_docs d') /\ names_resolved (recorded_imports s t) ds /\ accepts ds (TName c) w.
Proof.
  intros Hs Ho B D St Nk [T C N L A P I Hl]. pose proof (C97_docstrings_only s ord v w c Ho B D St Nk) as G.
  destruct (C09_data_partial s ord w c Hs Ho T C N L A P I Hl) as (t' & ds' & H & Dc & R & U & Nd & Acc). rewrite H in G. destruct (from_data s ord v c) as [t|e|] eqn:Hv; try contradiction. destruct G as (G1 & _ & G3).
  destruct (fits_accepts_all s ord Hs Ho w c t' _ T N H Dc) as (RA & E & R' & _). assert (ds' = decls s t') as -> by (symmetry; now apply U). clear E R'.
  destruct (declarations s t) as [texts|] eqn:Dv; [|exfalso; rewrite (proj2 G3 eq_refl) in Dc; discriminate].
  pose proof N as (O & W & _). pose proof (from_data_eq_free s ord w c t' Hs Ho O (named_plain w W) H) as EF'.
  assert (EU : t' = utree t). { apply strips_undoc in St. subst w. destruct (from_data_undoc s ord Ho (fun i l => B i utree l utree_shape) v c D) as [E _]. rewrite H, Hv in E. cbn [rmap] in E. congruence. }
  assert (EF : eq_free t).
  { intros n Hn. assert (X : node_of (utree n) t'). { rewrite EU. clear -Hn. induction Hn as [|i cs e He Hn IH]; [constructor|]. cbn [utree]. apply SpecData.node_child with (e := (fst e, utree (snd e))); [|exact IH]. apply in_map_iff. exists e. auto. }
    apply EF' in X. unfold eq_free_node in *. rewrite tname_utree, ti_utree, tkind_utree, tcs_utree in X. cbn [uinfo i_type] in X. destruct X as (X1 & X2 & X3 & X4). split; auto. split; auto. split; [destruct (tkind n); auto|].
    intros e He. apply (X4 (uentry e)). now apply in_map. }
  assert (ND : forall n, node_of n t -> node_of (utree n) t').
  { intros n Hn. rewrite EU. clear -Hn. induction Hn as [|i cs e He Hn IH]; [constructor|]. cbn [utree]. apply SpecData.node_child with (e := (fst e, utree (snd e))); [|exact IH]. apply in_map_iff. exists e. auto. }
  pose proof N as (_ & _ & Kb & Cm).
  assert (WO : forall n, node_of n t -> wordy (tname n)) by (intros n Hn; apply ND in Hn; rewrite <- tname_utree; eapply from_data_wordy; eauto).
  destruct (resolved s t texts EF) as [Et Res]; [ |exact WO| |exact Dv|].
  { intros n e Hn He. apply ND in Hn. assert (X : In (uentry e) (tcs (utree n))) by (rewrite tcs_utree; now apply in_map). exact (from_data_keys_builtin s ord w c t' Ho Kb H (utree n) (uentry e) Hn X). }
  { intros Td n Hn. apply ND in Hn. apply td_strategy_iff in Td. destruct (Cm Td) as (? & ? & ?). rewrite <- tname_utree. eapply from_data_camel; eauto. }
  exists t. cbv zeta. split; [reflexivity|].
  assert (KC : forall m, In m (collect s t') -> In (decl_of s m) (decls s t')).
  { intros m Hm. pose proof (collected_text s t' _ m EF' Dc Hm) as X. apply in_map_iff in X as (d & E & Hd). rewrite (reading_unique (decl_of s m) d); auto. rewrite Forall_forall in R. auto. }
  assert (Sub0 : forall d, In d (map (decl_of s) (collect s t)) -> In (without_docs d) (decls s t')).
  { intros d Hd. assert (X : In (without_docs d) (map (decl_of s) (collect s t'))) by (rewrite G1; now apply in_map). apply in_map_iff in X as (m & <- & Hm). auto. }
  assert (Inc : incl (decls s t) (map (decl_of s) (collect s t))).
  { intros d Hd. unfold decls in Hd. apply in_map_iff in Hd as (m & <- & Hm). apply in_map. now apply firsts_incl in Hm. }
  assert (Sub : forall d, In d (decls s t) -> In (without_docs d) (decls s t')) by auto.
  assert (Ag : forall d d', In d (map (decl_of s) (collect s t)) -> In d' (map (decl_of s) (collect s t)) -> declared d = declared d' -> without_docs d = without_docs d').
  { intros d d' Hd Hd' Ed. apply Sub0 in Hd, Hd'. assert (Ed' : declared (without_docs d) = declared (without_docs d')) by (now rewrite !declared_without). clear -Nd Hd Hd' Ed'. revert Nd Hd Hd'. generalize (decls s t') (without_docs d) (without_docs d') Ed'. intros l a b E Nd Ha Hb.
    induction l as [|x l IH]; [destruct Ha|]. inversion Nd; subst. destruct Ha as [->|Ha], Hb as [->|Hb]; auto.
    + exfalso. apply H1. rewrite E. now apply in_map.
    + exfalso. apply H1. rewrite <- E. now apply in_map. }
  assert (Wd : forall m, In m (collect s t) -> wordy (declared (decl_of s m))) by (intros m Hm; rewrite declared_decl_of; apply WO; now apply collect_nodes in Hm).
  split; [rewrite Dv; now f_equal|]. split; [|split; [|split; [exact Res|]]].
  - apply Forall_forall. intros d Hd. rewrite Forall_forall in R. auto.
  - auto.
  - apply (accepts_docs _ (decls s t')); auto.
    + intros d' Hd'. unfold decls in Hd'. apply in_map_iff in Hd' as (m & <- & Hm). apply firsts_incl in Hm. assert (X : In (decl_of s m) (map (decl_of s) (collect s t'))) by now apply in_map. rewrite G1 in X. apply in_map_iff in X as (d & E & Hd).
      pose proof Hd as Hd0. apply in_map_iff in Hd as (m1 & <- & Hm1). pose proof (collected_text s t texts m1 EF Dv Hm1) as X. rewrite Et in X. apply in_map_iff in X as (d2 & E2 & Hd2). exists d2. split; [exact Hd2|]. rewrite <- E. apply Ag; auto.
      pose proof (Inc _ Hd2) as X. apply in_map_iff in X as (m2 & <- & Hm2). apply (f_equal head_name) in E2. rewrite !print_decl_name in E2 by auto. exact E2.
    + intros n Hn. apply in_map_iff in Hn as (d & <- & Hd). rewrite <- declared_without. apply in_map. auto.
Qed.
(** Data with documentation entries whose data without them meets the conditions of C09: the texts that are written are those of declarations that can be executed in order and accept the data without the entries;
    declarations of one name differ in docstrings at most. *)
Theorem C97_describes : forall s ord v w c, valid s -> set_like ord -> blind ord -> documented s v -> strips v w -> ~ doc_key (KStr (s_key_doc s)) -> describable s c w ->
  exists t texts ds, from_data s ord v c = Ok t /\ declarations s t = Some texts /\ texts = map print_decl ds /\ Forall (fun d => readable (without_docs d)) ds /\
    (forall d d', In d ds -> In d' ds -> declared d = declared d' -> without_docs d = without_docs d') /\ names_resolved (recorded_imports s t) ds /\ accepts ds (TName c) w.
Proof.
  intros s ord v w c Hs Ho B D St Nk De. destruct (describes_decls s ord v w c Hs Ho B D St Nk De) as (t & H & Dc & X). exists t, (map print_decl (decls s t)), (decls s t). auto.
Qed.
Print Assumptions C97_describes.

(** The order of [C08_data_example] with comments at two depths and in two rows of a list. *)
Definition docsb (v : pyval) : bool :=
  forallb (fun x => match x with
    | VMap MDict _ d => forallb (fun e => negb (is_hidden (fst e)) || (match snd e with VStr _ => true | _ => false end &&
        existsb (fun e' => match fst e' with KStr n => match fst e with KStr m => String.eqb m ("___docstring_hidden_key_" ++ n) && negb (is_hidden (KStr n)) | _ => false end | _ => false end) d)) d
    | VMap _ _ _ => false
    | _ => true end) (subs v).
Lemma docsb_spec s v : s_dict s = DTypedDict -> docsb v = true -> documented s v.
Proof.
  intros L H k t d Hd. unfold docsb in H. rewrite forallb_forall in H. specialize (H _ (sub_subs _ _ Hd)). cbn beta iota in H. destruct k; try discriminate. split; [|right; left; auto]. intros q x Hx Dq. rewrite forallb_forall in H. specialize (H _ Hx).
  cbn [fst snd] in H. apply hidden_doc in Dq. rewrite Dq in H. cbn [negb orb] in H. apply andb_true_iff in H as [A B]. split; [destruct x; try discriminate; eauto|].
  apply existsb_exists in B as ([k' y] & Hy & E). cbn [fst] in E. destruct k' as [n| |]; try discriminate. destruct q as [m| |]; try discriminate. apply andb_true_iff in E as [E1 E2]. apply String.eqb_eq in E1. exists n. split; [congruence|].
  split; [intros F; apply hidden_doc in F; now rewrite F in E2|]. unfold has_key. change (KStr n) with (fst (KStr n, y)). now apply in_map.
Qed.
Lemma as_inserted_blind : blind as_inserted.
Proof. intros i f l _. reflexivity. Qed.
Definition note (k text : string) : string * pyval := ("___docstring_hidden_key_" ++ k, VStr text).
Definition order_commented : pyval :=
  vdict [note "customer" "Who pays."; ("customer", vdict [("name", vstr); note "address" "Where to."; ("address", vdict [("street", vstr); ("zip", vint)])]);
         ("items", vlist [vdict [note "sku" "The number."; ("sku", vstr); ("tags", vlist [vstr])]; vdict [("sku", vstr); note "price" "Without tax."; ("price", vfloat)]]);
         ("payments", vlist [vdict [("amount", vfloat); ("history", vlist [vint])]]);
         ("notes", vlist [vlist [vstr]]); ("marks", vlist [vlist [vint]]); note "id" "Unique."; ("id", vint)].
Example C97_example : exists t texts ds, from_data default_strategies as_inserted order_commented "Order" = Ok t /\ declarations default_strategies t = Some texts /\
  texts = map print_decl ds /\ (forall d d', In d ds -> In d' ds -> declared d = declared d' -> without_docs d = without_docs d') /\ names_resolved (recorded_imports default_strategies t) ds /\ accepts ds (TName "Order") order /\ length texts = 10.
Proof.
  assert (D : documented default_strategies order_commented) by (apply docsb_spec; vm_compute; reflexivity).
  assert (W : strips order_commented order) by (replace order with (undoc order_commented) by (vm_compute; reflexivity); apply undoc_strips).
  assert (K : ~ doc_key (KStr (s_key_doc default_strategies))) by (intros F; apply hidden_doc in F; vm_compute in F; discriminate).
  destruct (C97_describes default_strategies as_inserted order_commented order "Order" default_valid as_inserted_set_like as_inserted_blind D W K order_describable) as (t & texts & ds & A & B & C).
  exists t, texts, ds. destruct C as (C1 & _ & C2 & C3 & C4). do 6 (split; [assumption|]).
  assert (E : match from_data default_strategies as_inserted order_commented "Order" with Ok t => option_map (@length string) (declarations default_strategies t) | _ => None end = Some 10) by (vm_compute; reflexivity).
  rewrite A, B in E. cbn [option_map] in E. congruence.
Qed.
(** The docstrings are there. *)
Example C97_docstrings_example : exists t, from_data default_strategies as_inserted order_commented "Order" = Ok t /\
  flat_map (fun d => match d with DTyped n _ fs _ => flat_map (fun f => match fd_doc f with Some x => [(n, fd_key f, x)] | None => [] end) fs | _ => [] end) (map (decl_of default_strategies) (collect default_strategies t)) =
    [("OrderCustomer", "address", "Where to."); ("OrderCustomer", "address", "Where to."); ("OrderItemsDict", "sku", "The number."); ("OrderItemsDict", "sku", "The number.");
     ("OrderItemsDict2", "price", "Without tax."); ("OrderItemsDict2", "price", "Without tax."); ("Order", "customer", "Who pays."); ("Order", "id", "Unique.")].
Proof. eexists. split; [vm_compute; reflexivity|]. vm_compute. reflexivity. Qed.
