(** C101: the comments in the mappings of a sequence. *)
From Coq Require Import Ascii String List Bool Arith Lia.
From Verif Require Import SpecText SpecMypy SpecLines PropsLines SpecComment YamlComments PropsComment SpecYamlDoc YamlDocFacts YamlDocTokens YamlDocOne PropsYamlDoc PropsYamlHints.
From Verif Require YamlFacts DeclarationFacts GroupFacts.
From Verif Require Import PyStr PyStrFacts Exc Yaml YamlLoad SpecYaml Utils Strategies Dispatch Docstring Values Tree Build Emit TreeFacts SpecNames NamesFacts SpecData SpecTypes SpecEmit SpecMerge Elab TreeProofs MergeFacts
  SpecExact Samples SampleEmit PropsEmit SpecDocs PropsErase SpecNotes NoteFacts PropsNotes SpecYamlNotes YamlNoteFacts YamlItemFacts PropsYamlNotes.
Import ListNotations.
Local Open Scope string_scope.
Local Open Scope nat_scope.

(** Item [m] is among the ones that are looked at. *)
Definition looked_at (s : strategies) (m : nat) : Prop := match effective_limit s with Some n => m < n | None => True end.
Lemma limit_nth {A} s (l : list A) m x : nth_error (limit s l) m = Some x <-> looked_at s m /\ nth_error l m = Some x.
Proof.
  unfold limit, looked_at. destruct (effective_limit s) as [n|]; [|tauto]. revert n m. induction l as [|y l IH]; intros n m.
  - rewrite firstn_nil. destruct m; split; [discriminate|intros [_ F]; discriminate F|discriminate|intros [_ F]; discriminate F].
  - destruct n as [|n]; cbn [firstn]; [destruct m; split; [discriminate|lia|discriminate|lia]|]. destruct m as [|m]; cbn [nth_error].
    + split; [intros E; split; [lia|exact E]|tauto].
    + rewrite IH. split; intros [E F]; split; auto; lia.
Qed.

Lemma sub_under v p y : value_at v p y -> forall x, sub x y -> sub x v.
Proof. induction 1 as [|mk t d k x p y Hx H IH]; auto. intros z Hz. eapply sub_map; eauto. Qed.

(** The comment of a key in a mapping of a sequence: the key has a docstring in a declaration of the sequence, and that docstring is the
    comment of this key in one of the mappings of the sequence. *)
Theorem C101_items_partial : forall inline loader s ord n tempdir fs p arg text y lines v ts t q ty l m k i x,
  set_like ord -> blind ord -> s_dict s = DTypedDict -> ~ doc_key (KStr (s_key_doc s)) -> unique_keys v ->
  reads_as inline loader text -> (forall out, temporary_string y = Val out -> reads_as inline loader out) -> fs p = Some text -> yaml_init (snd p) arg text = Val y -> Lines text lines ->
  Forall (fun l => Forall printable (chars l)) lines -> Contents (terminated text) quiet lines ts -> Contents False quiet lines ts -> Collection inline ts v -> Forall triple_free lines ->
  (exists l, In l lines /\ In (char 32) (chars l)) -> undocumented v ->
  from_yaml loader (built s ord n) tempdir fs p (Some arg) = Val t ->
  first_under v q (VSeq KList ty l) -> looked_at s m -> item_line ts q m k i -> written lines (y_positions y) i k (Some x) ->
  exists c e b fs doc f x' m' i', node_at t q c /\ In e (tcs c) /\ In (snd e) (collect s t) /\ decl_of s (snd e) = DTyped (tname (snd e)) b fs doc /\
    In f fs /\ fd_key f = k /\ fd_doc f = Some x' /\ looked_at s m' /\ item_line ts q m' k i' /\ written lines (y_positions y) i' k (Some x').
Proof.
  intros inline loader s ord n tempdir fs p arg text y lines v ts t q ty l m k i x Ho Bl TS Nk Hu R R2 Hf Hy Hl P T0 T C Tf Sp U HY F Lm L Wr.
  destruct (C101_call_partial inline loader (built s ord n) tempdir fs p arg text y lines v ts R R2 Hf Hy Hl P T0 T C Tf Sp U) as (v' & CC & Nt & E). rewrite E in HY.
  pose proof (proj2 (proj2 (commented_strips inline _)) _ _ _ CC U) as St. pose proof (proj2 (proj2 (commented_sourced inline _)) _ _ _ CC (conj U Hu)) as So.
  assert (H : from_data s ord v' n = Ok t).
  { pose proof (C97_docstrings_only s ord v' v n Ho Bl (noted_documented s v' (or_intror TS) Nt) St Nk) as G. unfold built, try_else in HY. destruct (from_data s ord v' n), (from_data s ord v n); try contradiction; try discriminate HY; congruence. }
  assert (Hu' : unique_keys v') by (intros mk ty0 d Hd; exact (proj1 (So _ _ _ Hd))).
  destruct (strips_first _ _ _ F _ St) as (y' & F' & Sy). inversion Sy as [? Lf|? ? l' ? Hd|]; subst; [destruct Lf|].
  destruct (item_notes inline _ _ _ _ _ _ L _ _ CC U) as (l0 & l0' & d & d' & V & V' & Hm & Hm' & Hk0 & Sk & Hk & o & [W _] & Hn).
  assert (El : l0 = l) by (pose proof (value_one _ _ _ V Hu _ (first_value _ _ _ F)) as X; congruence).
  assert (El' : l0' = l') by (pose proof (value_one _ _ _ V' Hu' _ (first_value _ _ _ F')) as X; congruence). subst l0 l0'.
  assert (Eo : o = Some x) by exact (C101_one_text _ _ _ _ _ _ W Wr). subst o.
  assert (Nd : ~ doc_key (KStr k)).
  { assert (Ul : undocumented (VMap MDict ty_dict d)).
    { eapply (undocumented_item KList ty_list l); [|eapply nth_error_In; exact Hm]. intros mk0 t0 d0 Hs. apply (U mk0 t0 d0). exact (sub_under _ _ _ V _ Hs). }
    exact (Ul _ _ _ (sub_refl _) _ Hk0). }
  assert (Hx : note_of d' k x) by (apply Hn; eauto).
  assert (Hl0 : In (VMap MDict ty_dict d') (limit s l')) by (eapply nth_error_In; apply limit_nth; eauto).
  destruct (C100_items_partial s ord v' n t q ty l' ty_dict d' k x Ho TS Hu' H F' Hl0 Sk Hk Nd Hx) as (c & e & b & fs0 & doc & f & x' & td' & d2 & A1 & A2 & A3 & A4 & A5 & A6 & A7 & A8 & A9).
  - intros td' d2 z Hz Hzk. assert (Hs : sub (VMap MDict td' d2) v').
    { apply In_nth_error in Hz as (m2 & Hz). apply limit_nth in Hz as [_ Hz]. apply nth_error_In in Hz. exact (sub_under _ _ _ V' _ (sub_seq _ _ _ _ _ Hz (sub_refl _))). }
    destruct (Nt _ _ _ Hs) as [Dt _]. destruct (Dt _ _ Hzk (doc_name_key k)) as (X & _). exact X.
  - apply In_nth_error in A8 as (m' & A8). apply limit_nth in A8 as [Lm' A8].
    destruct (item_back inline _ _ _ _ (first_value _ _ _ F') _ _ _ _ _ _ _ _ _ _ _ eq_refl A8 A9 CC U) as (i' & L' & [W' _]).
    exists c, e, b, fs0, doc, f, x', m', i'. auto 12.
Qed.
Print Assumptions C101_items_partial.

(** ** The sequence of the file of [C99_copy_example] *)
Lemma name_written : written config [Above; Side] 10 "name" (Some ("the name." ++ lf)).
Proof.
  exists "- name: 1  # the name". split; [reflexivity|]. right. split; [intros (n & r & E); do 2 (destruct n as [|n]; [discriminate E|]); discriminate E|].
  exists [""; "the name."]. split; [|right; split; [discriminate|reflexivity]].
  constructor; [apply comment_found; [reflexivity|vm_compute; reflexivity]|]. constructor; [apply comment_found; [reflexivity|vm_compute; reflexivity]|constructor].
Qed.
Lemma name_line : item_line config_tokens ["users"] 0 "name" 10.
Proof.
  apply (il_in 0 9 "users" "  # Who may log in" [TKey 1 0 "server" ""; TKey 4 2 "port" " 1  # TCP"; TText 5 2 "note" ("(careful: no)" ++ lf ++ "stop it first" ++ lf)]
    [TDash 0; TKey 10 2 "name" " 1  # the name"; TKey 11 2 "level" " 1"; TItem 0 "1 # nobody"] [TKey 13 0 "_last" ""]).
  - eexists _, _. split; reflexivity.
  - repeat (apply Forall_cons; [first [right; reflexivity|left; cbn; lia]|]). constructor.
  - right. eexists _, _. split; [reflexivity|]. intros [F|F]; [cbn in F; lia|exact F].
  - apply (il_here 0 _ _ [TKey 10 2 "name" " 1  # the name"; TKey 11 2 "level" " 1"]); [eexists _, _; split; reflexivity| |].
    + apply (ia_here 0 [TKey 10 2 "name" " 1  # the name"; TKey 11 2 "level" " 1"] [TItem 0 "1 # nobody"]); [repeat constructor|right; eexists _, _; split; [reflexivity|cbn; lia]].
    + apply (lo_here 2 10 "name" (TKey 10 2 "name" " 1  # the name")); [eexists _, _; split; reflexivity|now left|repeat split].
Qed.
Example C101_items_example : exists loader t c e b fs doc f x m i,
  reads_as ones loader config_text /\ from_yaml loader (built default_strategies as_inserted "Config") "/tmp" config_fs ("/etc", "config.yaml") (Some (Many [Above; Side])) = Val t /\
  node_at t ["users"] c /\ In e (tcs c) /\ decl_of default_strategies (snd e) = DTyped (tname (snd e)) b fs doc /\ In f fs /\ fd_key f = "name" /\ fd_doc f = Some x /\
  item_line config_tokens ["users"] m "name" i /\ written config [Above; Side] i "name" (Some x).
Proof.
  destruct C99_copy_example as (Y & Ls & D & Tf & Sp & U & E & R). destruct R as (lines' & ts & ts' & v' & Lo & _ & _ & _ & Dv & _).
  set (loader := fun x => if String.eqb x config_text then Val config_value else Val v').
  assert (R1 : reads_as ones loader config_text).
  { intros ls w L Dw. unfold loader. rewrite String.eqb_refl. f_equal. rewrite (Lines_splitlines _ _ L), <- (Lines_splitlines _ _ Ls) in Dw. apply (C99_one_reading ones ones_one ones_bare (terminated config_text) config); auto. eapply document_any, lasting_document, D. }
  assert (R2 : forall out, temporary_string config_file = Val out -> reads_as ones loader out).
  { intros out Eo ls w L Dw. assert (Z : out = join nl config_copy) by congruence. subst out. unfold loader. assert (N : String.eqb (join nl config_copy) config_text = false) by (vm_compute; reflexivity). rewrite N. f_equal.
    rewrite (Lines_splitlines _ _ L), <- (Lines_splitlines _ _ Lo) in Dw. now apply (C99_one_reading ones ones_one ones_bare (terminated (join nl config_copy)) lines'). }
  assert (K : ~ doc_key (KStr (s_key_doc default_strategies))) by (intros F; apply hidden_doc in F; vm_compute in F; discriminate F).
  destruct D as [P (ts0 & T0 & _)].
  destruct (C99_describes_partial ones loader default_strategies as_inserted "Config" "/tmp" config_fs ("/etc", "config.yaml") (Many [Above; Side]) config_text config_file config config_value
    default_valid as_inserted_set_like as_inserted_blind (or_intror eq_refl) K config_describable R1 R2 eq_refl Y Ls (config_document _) Tf Sp U) as (t & texts & ds & A & _).
  assert (F : first_under config_value ["users"] (VSeq KList ty_list [VMap MDict ty_dict [(KStr "name", VInst ty_int); (KStr "level", VInst ty_int)]; VInst ty_int])).
  { apply (fu_key ty_dict [(KStr "server", VMap MDict ty_dict [(KStr "port", VInst ty_int); (KStr "note", VStr ("(careful: no)" ++ lf ++ "stop it first" ++ lf))])] "users"); [apply GroupFacts.string_keys_all; reflexivity| | |constructor].
    - intros Z. apply hidden_doc in Z. vm_compute in Z. discriminate Z.
    - intros k' x' [Z|[]] _. injection Z as _ <-. exact I. }
  assert (Lk : looked_at default_strategies 0) by (cbv; lia).
  destruct (C101_items_partial ones loader default_strategies as_inserted "Config" "/tmp" config_fs ("/etc", "config.yaml") (Many [Above; Side]) config_text config_file config config_value config_tokens t
    ["users"] ty_list _ 0 "name" 10 _ as_inserted_set_like as_inserted_blind eq_refl K (unique_keysb_spec _ (eq_refl : unique_keysb config_value = true)) R1 R2 eq_refl Y Ls P (cs_bare _ _ _ _ (config_tokens_read _)) (cs_bare _ _ _ _ (config_tokens_read _)) config_means Tf Sp U A F Lk name_line name_written)
    as (c & e & b & fs & doc & f & x & m & i & G1 & G2 & _ & G4 & G5 & G6 & G7 & _ & G9 & G10).
  exists loader, t, c, e, b, fs, doc, f, x, m, i. auto 12.
Qed.
