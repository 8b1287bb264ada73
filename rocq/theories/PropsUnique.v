(** C13 and C08: trees with clear names. *)
From Coq Require Import Ascii String List Bool Arith Lia.
From Verif Require Import PyStr PyStrFacts Utils Strategies Dispatch Values Tree Build Emit TreeFacts SpecNames SpecData SpecTypes SpecEmit SpecMerge Elab BuildFacts TreeProofs EmitFacts EmitTop SpecSound SoundTop SoundJson
  SpecCamel SpecUnique UniqueFacts SampleUnique Samples SampleEmit SampleSound PropsEmit PropsSound.
Import ListNotations.
Local Open Scope string_scope.
Local Open Scope nat_scope.

Lemma clear_declared s ord v n t texts : valid s -> set_like ord -> ordinary_types v -> plain_texts v -> letter_types v ->
  from_data s ord v n = Ok t -> clear_names s t -> declarations s t = Some texts ->
  texts = map print_decl (decls s t) /\ NoDup (map declared (decls s t)) /\ (forall d, In d (decls s t) -> extends n (declared d)) /\ forall d, In d (decls s t) -> wordy (declared d).
Proof.
  intros Hs Ho Hv Hp L H C D. pose proof (from_data_eq_free _ _ _ _ _ Hs Ho Hv Hp H) as F. apply declarations_decls in D as [-> _]; auto.
  pose proof (from_data_lawful s ord v n t Ho L H C) as Lw. destruct (lawful_decls s t Lw) as [A B]. split; auto. split; auto.
  destruct (root_perm s ord v n t H) as (_ & _ & Tn). rewrite Tn in B. split; [intros d Hd; destruct (B d Hd) as (r & R & E); exists r; auto|].
  intros d Hd. unfold decls in Hd. apply in_map_iff in Hd as (y & <- & Hy). rewrite declared_decl_of. apply (from_data_wordy s ord v n t Hs Ho Hv H). unfold kept in Hy. apply firsts_incl in Hy. now apply collect_nodes in Hy.
Qed.

(** In a tree with clear names no name is declared twice; every declared name is the class name, or the class name and a word that
    begins with a capital. *)
Theorem C13_clear_names_partial : forall s ord v n t texts, valid s -> set_like ord -> ordinary_types v -> plain_texts v -> letter_types v ->
  from_data s ord v n = Ok t -> clear_names s t -> declarations s t = Some texts ->
  exists ds, texts = map print_decl ds /\ NoDup (map declared ds) /\ forall d, In d ds -> extends n (declared d).
Proof. intros. destruct (clear_declared s ord v n t texts) as (A & B & C & _); auto. exists (decls s t). auto. Qed.
Print Assumptions C13_clear_names_partial.

(** Nodes: of the nodes that are declared, two with the same name are the same. *)
Theorem C13_clear_nodes_partial : forall s ord v n t, set_like ord -> letter_types v -> from_data s ord v n = Ok t -> clear_names s t ->
  forall y y', node_of y t -> node_of y' t -> perm s y = true -> perm s y' = true -> tname y = tname y' -> y = y'.
Proof.
  intros s ord v n t Ho L H C y y' Hy Hy' P P' E. pose proof (from_data_lawful s ord v n t Ho L H C) as Lw.
  apply (lawful_unique s t Lw); auto; [exists y|exists y']; split; auto; constructor.
Qed.
Print Assumptions C13_clear_nodes_partial.

(** Two pairs of keys with equal values, one of them with a shared value inside; a tuple and a list with several dicts. *)
Definition address : pyval := vdict [("street", vstr); ("geo", vdict [("lat", vfloat); ("lon", vfloat)])].
Definition shop : pyval :=
  vdict [("home", address); ("work", address); ("orders", vlist [vdict [("id", vint); ("lines", vlist [vdict [("sku", vstr)]])]; vdict [("code", vlist [vlist [vint]])]]);
         ("left", vtuple [vdict [("x", vint)]; vlist [vdict [("z", vint)]]]); ("orderBook", vdict [("depth", vint)]); ("on change", VFun (PyFun ty_fun true (Some ("(a, b)", 2)) None))].
Lemma letter_typesb_spec v : everywhere begins_letterb (fun _ => true) v = true -> letter_types v.
Proof. intros H x Hx. apply begins_letterb_spec. now apply (proj1 (everywhere_spec _ _ _ H)). Qed.
Example C13_clear_example : valid default_strategies /\ set_like as_inserted /\ ordinary_types shop /\ plain_texts shop /\ letter_types shop /\
  exists t texts, from_data default_strategies as_inserted shop "Shop" = Ok t /\ clear_names default_strategies t /\ declarations default_strategies t = Some texts /\
    map head_name texts = ["ShopDictGeo"; "ShopDict"; "ShopOrdersDictLinesDict"; "ShopOrdersDictLines"; "ShopOrdersDict"; "ShopOrdersDict2Code"; "ShopOrdersDict2"; "ShopOrders";
      "ShopLeftDict"; "ShopLeftListDict"; "ShopLeftList"; "ShopLeft"; "ShopOrderBook"; "ShopOnChange"; "Shop"].
Proof.
  hyps.
  - apply letter_typesb_spec. reflexivity.
  - do 2 eexists. split; [vm_compute; reflexivity|]. split; [apply clear_namesb_spec; vm_compute; reflexivity|]. split; [vm_compute; reflexivity|]. vm_compute; reflexivity.
Qed.

(** ** Soundness without a hypothesis about the declarations *)
Lemma clear_unambiguous s ord v n t texts ds : valid s -> set_like ord -> ordinary_types v -> plain_texts v -> letter_types v ->
  from_data s ord v n = Ok t -> clear_names s t -> declarations s t = Some texts -> name_apart n v ->
  texts = map print_decl ds -> Forall readable ds -> unambiguous ds v.
Proof.
  intros Hs Ho Hv Hp L H C D [A1 A2 A3 A4] E R. destruct (clear_declared s ord v n t texts) as (E' & N & X & W); auto.
  assert (Q : map declared ds = map declared (decls s t)).
  { rewrite (declared_texts ds R), <- E, E', map_map. apply map_ext_in. intros d Hd. apply print_decl_name. auto. }
  assert (Y : forall x, In x (map declared ds) -> extends n x).
  { intros x Hx. rewrite Q in Hx. apply in_map_iff in Hx as (d & <- & Hd). auto. }
  split.
  - now rewrite Q.
  - intros x Hx T. exact (A1 x T (Y x Hx)).
  - intros x Hx I. exact (A2 x Hx (Y _ I)).
  - intros m c Hx I. exact (A3 m c Hx (Y _ I)).
  - intros k Hk I. exact (A4 k Hk (Y _ I)).
Qed.

Lemma json_letters v : json v -> letter_types v.
Proof.
  intros J x Hx. pose proof (json_type v x J Hx) as T. apply begins_letterb_spec. cbn [In] in T.
  repeat (destruct T as [<-|T]; [reflexivity|]). contradiction.
Qed.
(** The classes of JSON data. *)
Definition json_classes : list string := ["str"; "NoneType"; "bool"; "int"; "float"; "list"; "dict"].
Lemma json_apart n v : json v -> (forall x, In x (typing_names ++ json_classes) -> ~ extends n x) -> name_apart n v.
Proof.
  intros J A. split.
  - intros x Hx. apply A. apply in_or_app. auto.
  - intros x Hx. apply A. apply in_or_app. right. pose proof (json_type v x J Hx) as T. cbn [In] in T.
    repeat (destruct T as [<-|T]; [apply mem_spec; reflexivity|]). contradiction.
  - intros m c Hx. destruct (proj1 J _ Hx).
  - intros k Hk. rewrite (json_key v k J Hk). apply A. apply in_or_app. right. left. reflexivity.
Qed.

(** Partial: as [C09_sound_partial], with clear names instead of a hypothesis about the declarations. *)
Theorem C09_clear_partial : forall s ord v n t texts, valid s -> set_like ord -> tidy s v -> names_ok s v n -> letter_types v ->
  from_data s ord v n = Ok t -> clear_names s t -> name_apart n v -> declarations s t = Some texts ->
  exists ds, texts = map print_decl ds /\ Forall readable ds /\ (forall ds', Forall readable ds' -> texts = map print_decl ds' -> ds' = ds) /\ accepts ds (TName n) v.
Proof.
  intros s ord v n t texts Hs Ho T N L H C A D. destruct (C09_sound_partial s ord v n t texts) as (ds & E & R & U & S'); auto.
  exists ds. split; auto. split; auto. split; auto. apply S'. destruct N as (N1 & N2 & _). eapply clear_unambiguous; eauto. now apply named_plain.
Qed.
Print Assumptions C09_clear_partial.
(** Partial: as [C08_json_sound_partial]. *)
Theorem C08_clear_partial : forall s ord v n t texts, valid s -> set_like ord ->
  json v -> unique_keys v -> no_doc_keys v -> within_limit s v -> empties_differ s v ->
  (s_dict s = DTypedDict -> rows_agree v /\ optional_keys_agree v /\ camel_name n /\
     (forall k, key_in (KStr k) v -> quotable k) /\ (s_key_doc s = "" \/ ~ key_in (KStr (s_key_doc s)) v)) ->
  (forall x, In x (typing_names ++ json_classes) -> ~ extends n x) ->
  from_data s ord v n = Ok t -> clear_names s t -> declarations s t = Some texts ->
  exists ds, texts = map print_decl ds /\ Forall readable ds /\ (forall ds', Forall readable ds' -> texts = map print_decl ds' -> ds' = ds) /\ accepts ds (TName n) v.
Proof.
  intros s ord v n t texts Hs Ho J U N L E T A H C D. destruct (C08_json_sound_partial s ord v n t texts) as (ds & Ed & R & Uq & S'); auto.
  exists ds. split; auto. split; auto. split; auto. apply S'.
  destruct (json_names s v n) as (N1 & N2 & _); auto. { intros Td. now destruct (T Td) as (_ & _ & ?). }
  eapply clear_unambiguous; eauto; [now apply named_plain|now apply json_letters|now apply json_apart].
Qed.
Print Assumptions C08_clear_partial.
Lemma name_apartb n l : forallb (fun x => negb (extendsb n x)) l = true -> forall x, In x l -> ~ extends n x.
Proof. rewrite forallb_forall. intros H x Hx E. specialize (H x Hx). apply extendsb_spec in E. now rewrite E in H. Qed.
Example C08_clear_example : exists t texts, from_data default_strategies as_inserted sample_json "Example" = Ok t /\ declarations default_strategies t = Some texts /\
  exists ds, texts = map print_decl ds /\ accepts ds (TName "Example") sample_json.
Proof.
  run H D. destruct (C08_clear_partial default_strategies as_inserted sample_json "Example" t texts) as (ds & E & R & Uq & A); auto.
  - apply default_valid.
  - apply as_inserted_set_like.
  - apply jsonb_spec. vm_compute. reflexivity.
  - apply unique_keysb_spec. vm_compute. reflexivity.
  - apply no_doc_keysb_spec. vm_compute. reflexivity.
  - apply within_limitb_spec. vm_compute. reflexivity.
  - apply empties_differb_spec. vm_compute. reflexivity.
  - intros _. split; [apply rows_agreeb_spec; vm_compute; reflexivity|]. split; [apply optional_keys_agreeb_spec; vm_compute; reflexivity|].
    split; [apply camel_nameb_spec; vm_compute; reflexivity|]. split; [apply keys_quotableb_spec; vm_compute; reflexivity|]. now left.
  - apply name_apartb. reflexivity.
  - apply clear_namesb_spec. vm_compute in H. injection H as <-. vm_compute. reflexivity.
  - exists t, texts. split; auto. split; auto. exists ds. auto.
Qed.
