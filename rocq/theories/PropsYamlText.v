(** C103 for files: the comments of a YAML file without backslashes give docstrings that are literals, so the class file made from it can be read, and every reading describes the data. *)
From Coq Require Import Ascii String List Bool Arith Lia.
From Verif Require Import SpecText SpecMypy SpecLines PropsLines SpecYamlDoc YamlDocFacts YamlDocTokens PropsYamlDoc SpecComment PropsComment.
From Verif Require Import PyStr PyStrFacts Exc Yaml YamlLoad SpecYaml YamlFacts Utils Strategies Dispatch Values Tree Build Emit SpecNames NamesFacts SpecImports SpecData SpecTypes SpecEmit SpecMerge EmitTop BuildFacts
  TreeProofs SpecSound SpecEnd Samples PropsOutput PropsRead PropsEnd SpecDoc SpecDocs SpecNotes PropsErase PropsNotes SpecYamlNotes YamlNoteFacts PropsYamlNotes PropsYamlHints PyFile PyFileFacts Live SpecLive LiveText LiveHistory LiveSample PropsLive LiveYaml PropsLiveYaml PropsYamlLive SpecLiteral PropsLiteral PropsReadDocs SampleEmit.
Import ListNotations.
Local Open Scope string_scope.
Local Open Scope nat_scope.

(** ** No backslashes *)
Lemma wb_app a b : without_backslash (a ++ b) <-> without_backslash a /\ without_backslash b.
Proof. unfold without_backslash. rewrite chars_cat. apply Forall_app. Qed.
Lemma wb_lit s : forallb (fun c => negb (Nat.eqb (code c) 92)) (chars s) = true -> without_backslash s.
Proof. intros H. apply Forall_forall. intros c Hc E. rewrite forallb_forall in H. specialize (H c Hc). unfold backslash in E. rewrite E in H. discriminate H. Qed.
Lemma wb_upper c u : Upper c u -> ~ backslash c -> without_backslash u.
Proof.
  intros H N. destruct H as [c E|c d [S1|[S1|S1]] E|c _ _].
  - now apply wb_lit.
  - repeat constructor. unfold backslash, in_range in *. lia.
  - repeat constructor. unfold backslash, in_range in *. lia.
  - repeat constructor. unfold backslash, in_range in *. lia.
  - repeat constructor. exact N.
Qed.
Lemma wb_capital s t : Capital s t -> without_backslash s -> without_backslash t.
Proof. intros H W. destruct H as [|c r u U]; [exact W|]. inversion W as [|? ? N R]; subst. apply wb_app. split; [now apply (wb_upper c)|exact R]. Qed.
Lemma wb_following prev ls t : SpecComment.Following prev ls t -> Forall without_backslash ls -> without_backslash t.
Proof.
  induction 1; intros F; try (inversion F; subst); repeat (apply wb_app; split); auto; try (now apply wb_lit); eapply wb_capital; eassumption.
Qed.
Lemma wb_comment ls t : Comment_text ls t -> Forall without_backslash ls -> without_backslash t.
Proof.
  intros H F. destruct H as [ls _|before l ls after t last_line _ _ _ Fo _ _ stop St]; [constructor|].
  apply Forall_app in F as [_ F]. apply Forall_app in F as [F _]. inversion F; subst. apply wb_app. split; [assumption|]. apply wb_app. split; [eapply wb_following; eassumption|]. destruct St as [[_ ->]|[_ ->]]; now apply wb_lit.
Qed.
Lemma wb_deleted p s t : Deleted p s t -> without_backslash s -> without_backslash t.
Proof. induction 1 as [|a b b' _ _ IH]; intros W; [exact W|]. apply wb_app in W as [W1 W]. apply wb_app in W as [_ W]. apply wb_app. auto. Qed.
Lemma wb_docstring texts s : Docstring_text texts s -> Forall without_backslash texts -> without_backslash s.
Proof. intros (j & j1 & j2 & C & D1 & D2 & K) F. eapply wb_capital; [exact K|]. eapply wb_deleted; [exact D2|]. eapply wb_deleted; [exact D1|]. eapply wb_comment; eassumption. Qed.
Lemma wb_trimmed s t : Trimmed s t -> without_backslash s -> without_backslash t.
Proof. intros (a & b & -> & _) W. apply wb_app in W as [_ W]. now apply wb_app in W as [W _]. Qed.
Lemma wb_hash col l t : hash_at col l t -> without_backslash l -> without_backslash t.
Proof. intros (a & b & -> & _ & T) W. apply wb_app in W as [_ W]. apply wb_app in W as [_ W]. eapply wb_trimmed; eassumption. Qed.
Lemma wb_block col ls ts : Block col ls ts -> Forall without_backslash ls -> Forall without_backslash ts.
Proof. induction 1; intros F; try constructor; inversion F; subst; auto. eapply wb_hash; eassumption. Qed.

(** ** No triple quotes *)
Lemma free_part a b c : without_quotes3 (a ++ b ++ c) -> without_quotes3 b.
Proof. intros Q u v E. subst b. apply (Q (a ++ u) (v ++ c)). now rewrite !app_assoc_s. Qed.
Lemma free_triple l : triple_free l -> without_quotes3 l.
Proof. intros T a b E. apply (T (char 34) a b); [now right|exact E]. Qed.
(** A character other than a quote between two texts. *)
Lemma free_between a c b : without_quotes3 a -> without_quotes3 b -> code c <> 34 -> without_quotes3 (a ++ String c b).
Proof.
  intros A B N u v E. revert u E A. induction a as [|x a IH]; intros u E A.
  - cbn [append] in E. destruct u as [|y u]; cbn [append quotes3] in E; injection E as E1 E2; [subst c; now apply N|]. now apply (B u v).
  - assert (A' : without_quotes3 a) by (intros p q X; apply (A (String x p) q); cbn [append]; now rewrite X).
    destruct u as [|y u]; [|cbn [append] in E; injection E as _ E; exact (IH u E A')].
    destruct a as [|x2 [|x3 a]]; cbn in E; injection E; intros; subst.
    + now apply N.
    + now apply N.
    + apply (A "" a). reflexivity.
Qed.
Lemma free_join docs : Forall without_quotes3 docs -> without_quotes3 (join (SpecYaml.lf ++ SpecYaml.lf) docs).
Proof.
  induction 1 as [|d docs Q F IH]; [intros u v E; destruct u; discriminate E|]. destruct docs as [|e docs]; [exact Q|]. rewrite join_cons by discriminate. 
  change (d ++ (SpecYaml.lf ++ SpecYaml.lf) ++ join (SpecYaml.lf ++ SpecYaml.lf) (e :: docs)) with (d ++ String (ascii_of_nat 10) ("" ++ String (ascii_of_nat 10) (join (SpecYaml.lf ++ SpecYaml.lf) (e :: docs)))).
  apply free_between; [exact Q| |discriminate]. apply free_between; [|exact IH|discriminate]. intros u v E. destruct u; discriminate E.
Qed.
Lemma wb_join docs : Forall without_backslash docs -> without_backslash (join (SpecYaml.lf ++ SpecYaml.lf) docs).
Proof.
  induction 1 as [|d docs Q F IH]; [constructor|]. destruct docs as [|e docs]; [exact Q|]. rewrite join_cons by discriminate. apply wb_app. split; [exact Q|]. apply wb_app. split; [now apply wb_lit|exact IH].
Qed.

(** ** The comments of a file *)
Lemma found_literal lines i line p s : nth_error lines i = Some line -> Forall triple_free lines -> Forall without_backslash lines -> found lines i line p s -> without_quotes3 s /\ without_backslash s.
Proof.
  intros Hi Tf Wb F. assert (In line lines) as Hl by (eapply nth_error_In; exact Hi). assert (E0 : without_quotes3 "" /\ without_backslash "") by (split; [intros u v E; destruct u; discriminate E|constructor]).
  assert (Bk : forall texts col ls, Block col ls texts -> incl ls lines -> Docstring_text texts s \/ Docstring_text (rev texts) s -> without_quotes3 s /\ without_backslash s).
  { intros texts col ls B I D. assert (W : Forall without_backslash texts) by (eapply wb_block; [exact B|]; rewrite Forall_forall in *; auto).
    destruct D as [D|D]; (split; [exact (proj1 (C90_shape _ _ D))|]); (eapply wb_docstring; [exact D|]); [exact W|]. now apply Forall_rev. }
  destruct p; cbn [found] in F.
  - destruct F as [[_ ->]|(col & texts & _ & _ & D & B)]; [exact E0|]. eapply Bk; [exact B| |right; rewrite rev_involutive; exact D]. intros x Hx. apply in_app_iff in Hx as [Hx|Hx]; apply in_rev in Hx; auto. rewrite <- (firstn_skipn i lines). apply in_app_iff. auto.
  - destruct F as [[_ ->]|(col & texts & _ & _ & D & B)]; [exact E0|]. eapply Bk; [exact B| |left; exact D]. intros x Hx. rewrite <- (firstn_skipn (S i) lines). apply in_app_iff. auto.
  - destruct F as [(a & b & t & E & _ & T & D)|[_ ->]]; [|exact E0]. rewrite Forall_forall in Tf, Wb.
    assert (Qt : without_quotes3 t). { pose proof (free_triple _ (Tf _ Hl)) as Q. destruct T as (x & z & Eb & _). subst b. rewrite E in Q. apply (free_part ((a ++ " #") ++ x) t z). now rewrite !app_assoc_s. }
    assert (Wt : without_backslash t). { pose proof (Wb _ Hl) as W. rewrite E in W. apply wb_app in W as [_ W]. apply wb_app in W as [_ W]. eapply wb_trimmed; eassumption. }
    destruct D as [[_ ->]|[(_ & _ & ->)|(_ & _ & ->)]]; [exact E0|auto|]. split; [apply free_between; [exact Qt|exact (proj1 E0)|discriminate]|apply wb_app; split; [exact Wt|now apply wb_lit]].
Qed.
(** The documentation of a key of a file without backslashes and triple quotes has none either. *)
Theorem C103_written : forall lines ps i k x, Forall triple_free lines -> Forall without_backslash lines -> PropsYamlDoc.written lines ps i k (Some x) -> without_quotes3 x /\ without_backslash x.
Proof.
  intros lines ps i k x Tf Wb (line & Hi & [[_ E]|(_ & texts & F & D)]); [discriminate E|]. cbn zeta in D. destruct D as [[_ E]|[_ E]]; [discriminate E|]. injection E as ->.
  assert (G : Forall (fun s => without_quotes3 s /\ without_backslash s) texts).
  { clear - F Hi Tf Wb. induction F as [|p s ps texts Hp _ IH]; constructor; auto. eapply found_literal; eassumption. }
  assert (G' : Forall (fun s => without_quotes3 s /\ without_backslash s) (filter (fun s => negb (String.eqb s "")) texts)).
  { rewrite Forall_forall in *. intros s Hs. apply filter_In in Hs as [Hs _]. auto. }
  split.
  - apply free_between; [|intros u v E; destruct u; discriminate E|discriminate]. apply free_join. eapply Forall_impl; [|exact G']. cbn. tauto.
  - apply wb_app. split; [|now apply wb_lit]. apply wb_join. eapply Forall_impl; [|exact G']. cbn. tauto.
Qed.
Print Assumptions C103_written.

(** ** The class file *)
(** The text that [from_yaml_file] with comments gives for a file without backslashes and triple quotes is a block of imports and declarations with docstrings that are literals, and in every reading of
    it the class is a type of the data of the file. *)
Theorem C103_file_partial : forall inline loader s ord c tempdir fs p arg text y lines v,
  valid s -> set_like ord -> blind ord -> effective_limit s = None \/ s_dict s = DTypedDict -> ~ doc_key (KStr (s_key_doc s)) -> unique_keys v -> describable s c v ->
  reads_as inline loader text -> (forall out, temporary_string y = Val out -> reads_as inline loader out) -> fs p = Some text -> yaml_init (snd p) arg text = Val y -> Lines text lines ->
  Lasting inline (terminated text) quiet lines v -> Forall triple_free lines -> Forall without_backslash lines ->
  (exists l, In l lines /\ In (char 32) (chars l)) -> undocumented v ->
  exists hints, from_yaml loader (fun d => class_text s ord d c) tempdir fs p (Some arg) = Val hints /\ (exists stmts ds, ReadsDocs hints stmts ds) /\
    forall stmts ds, ReadsDocs hints stmts ds -> accepts ds (TName c) v.
Proof.
  intros inline loader s ord c tempdir fs p arg text y lines v Hs Ho Bl Li Nk Hu De R R2 Hf Hy Hl [P (ts & T0 & T & C)] Tf Wb Sp U.
  destruct (C101_call_partial inline loader (fun d => class_text s ord d c) tempdir fs p arg text y lines v ts R R2 Hf Hy Hl P T0 T C Tf Sp U) as (v' & CC & Nt & E).
  pose proof (proj2 (proj2 (commented_strips inline _)) _ _ _ CC U) as St. pose proof (proj2 (proj2 (commented_sourced inline _)) _ _ _ CC (conj U Hu)) as So.
  destruct (C97_every_reading s ord v' v c Hs Ho Bl (noted_documented s v' Li Nt) St Nk De) as (hints & H & Rd & Acc).
  { intros mk ty d k x Hd Hx. destruct (proj2 (So _ _ _ Hd) k _ Hx) as (i & w & Ew & [W _]). assert (w = x) by congruence. subst w. eapply C103_written; eassumption. }
  exists hints. split; [|split; assumption]. rewrite E, H. reflexivity.
Qed.
Print Assumptions C103_file_partial.

(** The live class: after any history a call of [from_yaml_file] on such a file raises and changes nothing, or the class file can be read and in every reading the class accepts the data of the file. *)
Lemma comments_literal inline loader fs tempdir p arg text y lines v d : reads_as inline loader text -> (forall out, temporary_string y = Val out -> reads_as inline loader out) -> fs p = Some text -> yaml_init (snd p) arg text = Val y -> Lines text lines ->
  Lasting inline (terminated text) quiet lines v -> Forall triple_free lines -> Forall without_backslash lines -> (exists l, In l lines /\ In (char 32) (chars l)) -> undocumented v -> unique_keys v ->
  from_yaml loader (fun x => Val x) tempdir fs p (Some arg) = Val d -> forall mk ty e k x, sub (VMap mk ty e) d -> note_of e k x -> without_quotes3 x /\ without_backslash x.
Proof.
  intros R R2 Hf Hy Hl [P (ts & T0 & T & C)] Tf Wb Sp U Hu H mk ty e k x Hd Hx.
  destruct (C101_call_partial inline loader (fun x => Val x) tempdir fs p arg text y lines v ts R R2 Hf Hy Hl P T0 T C Tf Sp U) as (v' & CC & Nt & E). rewrite H in E. cbn [try_else] in E. injection E as ->.
  pose proof (proj2 (proj2 (commented_sourced inline _)) _ _ _ CC (conj U Hu)) as So. destruct (proj2 (So _ _ _ Hd) k _ Hx) as (i & w & Ew & [W _]). assert (w = x) by congruence. subst w. eapply C103_written; eassumption.
Qed.
Theorem C102_every_reading : forall inline loader s ord unparsed t tempdir os k fs p arg text y lines v c,
  valid s -> set_like ord -> blind ord -> effective_limit s = None \/ s_dict s = DTypedDict -> ~ doc_key (KStr (s_key_doc s)) -> unique_keys v -> describable s c v ->
  well_formed t = true -> initial_lines unparsed = Val (template_lines t) -> (forall x, loader x <> NoFuel) ->
  reads_as inline loader text -> (forall out, temporary_string y = Val out -> reads_as inline loader out) -> fs p = Some text -> yaml_init (snd p) arg text = Val y -> Lines text lines -> Lasting inline (terminated text) quiet lines v ->
  Forall triple_free lines -> Forall without_backslash lines -> (exists l, In l lines /\ In (char 32) (chars l)) -> undocumented v ->
  let w := snd (ysteps loader unparsed (class_text s ord) tempdir clean os) in
  let out := ystep loader unparsed (class_text s ord) tempdir w (UseYaml k fs p (Some arg) c) in
  k < List.length (w_objects w) ->
  (exists e, out = (Some (Raise e), w)) \/
  exists x, lookup c (d_build (w_disk (snd out))) = Some x /\ (exists stmts ds, ReadsDocs x stmts ds) /\ forall stmts ds, ReadsDocs x stmts ds -> accepts ds (TName c) v.
Proof.
  intros inline loader s ord unparsed t tempdir os k fs p arg text y lines v c Hs Ho Bl Li Nk Hu De Ht Hi F1 R R2 Hf Hy Hl D Tf Wb Sp U w out Lk.
  assert (Lv : loader text = Val v) by (apply (R lines v Hl); eapply document_any, lasting_document, D).
  destruct (commented inline loader p arg text y lines v R2 Hy Hl D Tf Sp U) as (v' & Fc & St & Nt & One).
  destruct (C70_data pyval loader unparsed (class_text s ord) tempdir t os k fs p (Some arg) c text v Ht Hi F1 (class_text_fuel s ord) Lk (opened _ _ _ _ Hy) Hf Lv) as [A B]. fold w in A, B. fold out in A, B.
  assert (HW : World_ok t w) by (apply (ysteps_ok loader unparsed (class_text s ord) tempdir t Ht Hi F1 (class_text_fuel s ord)), clean_ok).
  destruct (nth_error (w_objects w) k) as [ob|] eqn:E; [|apply nth_error_None in E; lia].
  assert (G : forall d, strips d v -> noted d -> (forall mk ty e k x, sub (VMap mk ty e) d -> note_of e k x -> without_quotes3 x /\ without_backslash x) -> out = step unparsed (class_text s ord) w (Use k d c) -> (exists e, out = (Some (Raise e), w)) \/
    exists x, lookup c (d_build (w_disk (snd out))) = Some x /\ (exists stmts ds, ReadsDocs x stmts ds) /\ forall stmts ds, ReadsDocs x stmts ds -> accepts ds (TName c) v).
  { intros d Sd Nd Ld Eo. rewrite Eo. destruct (use_cases unparsed (class_text s ord) t Ht (class_text_fuel s ord) w k d c ob HW E) as [Q|Q]; [right|now left].
    destruct (C97_every_reading s ord d v c Hs Ho Bl (noted_documented s d Li Nd) Sd Nk De Ld) as (x & T & Rd & Acc). exists x. split; [|split; assumption].
    rewrite (step_files unparsed (class_text s ord) t Ht w (Use k d c) HW eq_refl c), Q, String.eqb_refl, T. reflexivity. }
  destruct (use_cases unparsed (class_text s ord) t Ht (class_text_fuel s ord) w k v' c ob HW E) as [Q|(e & Q)].
  - apply (G v' St Nt); [|now apply A]. apply (comments_literal inline loader fs tempdir p arg text y lines v v' R R2 Hf Hy Hl D Tf Wb Sp U Hu).
    destruct Fc as (a & o & Ea & Eo & El). injection Ea as <-. assert (Ey : Yaml (snd p) (splitlines text) (positions_of arg) = y).
    { unfold yaml_init in Hy. destruct (pos_mem Above _ && _); [discriminate Hy|]. destruct (negb _); [discriminate Hy|]. now injection Hy. }
    unfold from_yaml, open_yaml. assert (Y0 : exists y0, yaml_init (snd p) arg "" = Val y0).
    { unfold yaml_init in *. destruct (pos_mem Above _ && _); [discriminate|]. destruct (negb _); [discriminate|]. eauto. }
    destruct Y0 as (y0 & ->). rewrite Hf, Hy. cbn [andthen]. unfold load at 1. rewrite Hf, Lv. cbn [andthen]. rewrite Ey in Eo. rewrite Eo. cbn [andthen].
    unfold load, YamlLoad.write. assert (Ep : path_eqb (temp_path tempdir p) (temp_path tempdir p) = true) by (unfold path_eqb; now rewrite !String.eqb_refl). rewrite Ep, El. reflexivity.
  - apply (G v (strips_self v U) (undocumented_noted v U)); [|apply B; intros w' Fw; rewrite (One w' Fw), Q; discriminate].
    intros mk ty d k0 x Hd Hx. exfalso. apply (U _ _ _ Hd (KStr ("___docstring_hidden_key_" ++ k0))); [|exists k0; reflexivity]. change (has_key (fst (KStr ("___docstring_hidden_key_" ++ k0), VStr x)) d). now apply in_map.
Qed.
Print Assumptions C102_every_reading.

(** The file of [C101_docstrings_example]. *)
Example C103_file_example : exists loader hints,
  reads_as ones loader config_text /\ from_yaml loader (fun d => class_text default_strategies as_inserted d "Config") "/tmp" config_fs ("/etc", "config.yaml") (Some (Many [Above; Side])) = Val hints /\
  Forall without_backslash config /\ (exists stmts ds, ReadsDocs hints stmts ds) /\ forall stmts ds, ReadsDocs hints stmts ds -> accepts ds (TName "Config") config_value.
Proof.
  destruct C99_copy_example as (Y & Ls & D & Tf & Sp & U & E & R). destruct R as (lines' & ts & ts' & v' & Lo & _ & _ & _ & Dv & _).
  set (loader := fun x => if String.eqb x config_text then Val config_value else Val v').
  assert (R1 : reads_as ones loader config_text).
  { intros ls w L Dw. unfold loader. rewrite String.eqb_refl. f_equal. rewrite (Lines_splitlines _ _ L), <- (Lines_splitlines _ _ Ls) in Dw. apply (C99_one_reading ones ones_one ones_bare (terminated config_text) config); auto. eapply document_any, lasting_document, D. }
  assert (R2 : forall out, temporary_string config_file = Val out -> reads_as ones loader out).
  { intros out Eo ls w L Dw. assert (Z : out = join nl config_copy) by congruence. subst out. unfold loader. assert (N : String.eqb (join nl config_copy) config_text = false) by (vm_compute; reflexivity). rewrite N. f_equal.
    rewrite (Lines_splitlines _ _ L), <- (Lines_splitlines _ _ Lo) in Dw. now apply (C99_one_reading ones ones_one ones_bare (terminated (join nl config_copy)) lines'). }
  assert (K : ~ doc_key (KStr (s_key_doc default_strategies))) by (intros F; apply hidden_doc in F; vm_compute in F; discriminate F).
  assert (W : Forall without_backslash config) by (repeat (constructor; [apply wb_lit; vm_compute; reflexivity|]); constructor).
  destruct (C103_file_partial ones loader default_strategies as_inserted "Config" "/tmp" config_fs ("/etc", "config.yaml") (Many [Above; Side]) config_text config_file config config_value
    default_valid as_inserted_set_like as_inserted_blind (or_intror eq_refl) K (unique_keysb_spec _ (eq_refl : unique_keysb config_value = true)) config_describable R1 R2 eq_refl Y Ls D Tf W Sp U) as (hints & A & B & C).
  exists loader, hints. auto 6.
Qed.

(** The history of [C102_example]; the call returns. *)
Example C102_every_reading_example : exists loader x, reads_as ones loader config_text /\ (forall out, temporary_string config_file = Val out -> reads_as ones loader out) /\
  let w := snd (ysteps loader live_unparsed config_hints "/tmp" clean c102_history) in
  let out := ystep loader live_unparsed config_hints "/tmp" w (UseYaml 1 c102_files ("/etc", "config.yaml") (Some (Many [Above; Side])) "Config") in
  lookup "Config" (d_build (w_disk (snd out))) = Some x /\ (exists stmts ds, ReadsDocs x stmts ds) /\ forall stmts ds, ReadsDocs x stmts ds -> accepts ds (TName "Config") config_value.
Proof.
  destruct C99_copy_example as (Y & Ls & D & Tf & Sp & U & _). destruct C102_example as (loader & m & first & d & x0 & R1 & R2 & Nf & Ew & _ & _ & _ & _ & Q & _).
  assert (K : ~ doc_key (KStr (s_key_doc default_strategies))) by (intros F; apply hidden_doc in F; vm_compute in F; discriminate F).
  assert (W : Forall without_backslash config) by (repeat (constructor; [apply wb_lit; vm_compute; reflexivity|]); constructor).
  assert (Lk : 1 < List.length (w_objects (snd (ysteps loader live_unparsed config_hints "/tmp" clean c102_history)))).
  { rewrite Ew. replace (List.length (w_objects (snd (steps live_unparsed config_hints clean c102_plain)))) with 2 by (vm_compute; reflexivity). lia. }
  destruct (C102_every_reading ones loader default_strategies as_inserted live_unparsed live_template "/tmp" c102_history 1 c102_files ("/etc", "config.yaml") (Many [Above; Side]) config_text config_file config config_value "Config"
    default_valid as_inserted_set_like as_inserted_blind (or_intror eq_refl) K (unique_keysb_spec _ (eq_refl : unique_keysb config_value = true)) config_describable live_well_formed live_initial Nf R1 R2 eq_refl Y Ls D Tf W Sp U Lk) as [(e & X)|(x & A & B)].
  - exfalso. apply (f_equal fst) in X. pose proof (eq_trans (eq_sym Q) X) as Z. discriminate Z.
  - exists loader, x. split; [exact R1|]. split; [exact R2|]. cbv zeta. split; [exact A|exact B].
Qed.
