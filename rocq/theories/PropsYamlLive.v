(** C102: the class files that [LazyTypeHintLive.from_yaml_file] writes describe the data of the YAML files. *)
From Coq Require Import Ascii String List Bool Arith Lia.
From Verif Require Import SpecText SpecMypy SpecLines PropsLines SpecYamlDoc YamlDocFacts YamlDocTokens PropsYamlDoc.
From Verif Require Import PyStr PyStrFacts Exc Yaml YamlLoad SpecYaml YamlFacts Utils Strategies Dispatch Values Tree Build Emit SpecNames NamesFacts SpecImports SpecData SpecTypes SpecEmit SpecMerge EmitTop BuildFacts
  TreeProofs SpecSound SpecCamel SpecUnique SpecClear SoundJson SpecEnd Samples SampleUnique SampleEmit SampleSound SampleClear PropsUnique PropsClear PropsOutput PropsExact PropsRead PropsEnd SpecDocs PropsErase PropsYamlHints
  SoundRead SoundTop EmitFacts TextFacts Imports ImportsFacts TotalFacts PropsBase PropsEmit YamlMore YamlLoadFacts
  PyFile PyFileFacts Live SpecLive LiveText LiveHistory LiveSample PropsLive LiveYaml PropsLiveYaml SpecMachine PropsMachine.
Import ListNotations.
Local Open Scope string_scope.
Local Open Scope nat_scope.

(** ** Specification *)
(** The text is a block of imports and declarations that can be executed in order, and the class [c] is a type of [v].  This is [Describes] of C96 up to docstrings:
    declarations of one name differ in docstrings at most. *)
Definition Shows (text c : string) (v : pyval) : Prop :=
  exists stmts block ds, import_block stmts block /\ Layout (block :: map print_decl ds) text /\ Forall (fun d => readable (without_docs d)) ds /\
    (forall d d', In d ds -> In d' ds -> declared d = declared d' -> without_docs d = without_docs d') /\
    (forall a d b, ds = (a ++ d :: b)%list -> forall x, In x (mentioned d) -> In x (map declared a) \/ In x builtin_classes \/ brought stmts x) /\
    accepts ds (TName c) v.

(** ** The text of one class *)
Lemma shown s ord v w c : valid s -> set_like ord -> blind ord -> documented s v -> strips v w -> ~ doc_key (KStr (s_key_doc s)) -> describable s c w ->
  exists text, class_text s ord v c = Val text /\ Shows text c w.
Proof.
  intros Hs Ho B D St Nk De. destruct (C97_describes s ord v w c Hs Ho B D St Nk De) as (t & texts & ds & H & Dc & Et & Re & Ag & Res & Acc).
  unfold class_text. rewrite H. destruct (formatted s t) as (block & F). destruct (to_string s t true) as [text|] eqn:E.
  - exists text. split; [reflexivity|]. destruct (C66_layout s t true text E) as (texts' & D' & _ & block' & F' & Lay). rewrite Dc in D'. injection D' as <-. rewrite F in F'. injection F' as <-.
    destruct (block_describes s t block F) as (stmts & Bl & Br). exists stmts, block, ds. rewrite <- Et. split; [exact Bl|]. split; [exact Lay|]. split; [exact Re|]. split; [exact Ag|]. split; [|exact Acc].
    intros a d b Ed x Hx. destruct (Res a d b Ed x Hx) as [Y|[Y|Y]]; auto.
  - exfalso. destruct (root_perm s ord v c t H) as (_ & Ct & _). unfold to_string in E. destruct (get_strs s t true) eqn:G; [discriminate E|]. apply get_strs_none in G as (m & Hm & Fm); [|intros Z; rewrite Z in Ct; destruct Ct].
    unfold declarations in Dc. assert (Z : existsb function_fails (collect s t) = true) by (apply existsb_exists; eauto). rewrite Z in Dc. discriminate Dc.
Qed.

(** ** One call *)
(** The data of a file with comments as keys. *)
Lemma commented inline loader p arg text y lines v :
  (forall out, temporary_string y = Val out -> reads_as inline loader out) -> yaml_init (snd p) arg text = Val y -> Lines text lines -> Lasting inline (terminated text) quiet lines v -> Forall triple_free lines ->
  (exists l, In l lines /\ In (char 32) (chars l)) -> undocumented v ->
  exists v', from_comments loader text p (Some arg) v' /\ strips v' v /\ noted v' /\ forall w, from_comments loader text p (Some arg) w -> w = v'.
Proof.
  intros R2 Hy Hl D Tf Sp U. destruct (C99_copy_partial inline (snd p) arg text y lines v Hy Hl D Tf Sp U) as (out & Eo & lines' & ts & ts' & v' & Lo & _ & _ & _ & Dv & St & Nt & _).
  assert (Ey : Yaml (snd p) (splitlines text) (positions_of arg) = y).
  { unfold yaml_init in Hy. destruct (pos_mem Above _ && _); [discriminate Hy|]. destruct (negb _); [discriminate Hy|]. now injection Hy. }
  exists v'. split; [exists arg, out; rewrite Ey; split; [reflexivity|]; split; [exact Eo|exact (R2 out Eo lines' v' Lo Dv)]|]. split; [exact St|]. split; [exact Nt|].
  intros w (a & out' & Ea & Eo' & El). injection Ea as <-. rewrite Ey, Eo in Eo'. injection Eo' as <-. rewrite (R2 out Eo lines' v' Lo Dv) in El. now injection El.
Qed.
Lemma opened p arg text y : yaml_init (snd p) arg text = Val y -> accepted p (Some arg).
Proof.
  intros Hy a Ea. injection Ea as <-. destruct (yaml_init_spec (snd p) arg text) as [Y1 _]. split.
  - intros [A B]. destruct (pos_mem Above (positions_of arg)) eqn:E1; [|apply pos_mem_spec in A; congruence]. destruct (pos_mem Below (positions_of arg)) eqn:E2; [|apply pos_mem_spec in B; congruence].
    unfold yaml_init in Hy. rewrite E1, E2 in Hy. discriminate Hy.
  - apply path_suffix_yaml. unfold yaml_init in Hy. destruct (pos_mem Above _ && _); [discriminate Hy|]. destruct (_ || _); [reflexivity|discriminate Hy].
Qed.

(** After any history of both methods, crashes and resets included, a call of [from_yaml_file] with comments raises and changes nothing, or returns the data of the file up to documentation entries,
    and the class file then shows a type of the data of the file. *)
Theorem C102_returned : forall inline loader s ord unparsed t tempdir os k fs p arg text y lines v c,
  valid s -> set_like ord -> blind ord -> effective_limit s = None \/ s_dict s = DTypedDict -> ~ doc_key (KStr (s_key_doc s)) -> describable s c v ->
  well_formed t = true -> initial_lines unparsed = Val (template_lines t) -> (forall x, loader x <> NoFuel) ->
  reads_as inline loader text -> (forall out, temporary_string y = Val out -> reads_as inline loader out) -> fs p = Some text -> yaml_init (snd p) arg text = Val y -> Lines text lines -> Lasting inline (terminated text) quiet lines v -> Forall triple_free lines ->
  (exists l, In l lines /\ In (char 32) (chars l)) -> undocumented v ->
  let w := snd (ysteps loader unparsed (class_text s ord) tempdir clean os) in
  let out := ystep loader unparsed (class_text s ord) tempdir w (UseYaml k fs p (Some arg) c) in
  k < List.length (w_objects w) ->
  (exists e, out = (Some (Raise e), w)) \/
  exists d x, fst out = Some (Val d) /\ strips d v /\ noted d /\ lookup c (d_build (w_disk (snd out))) = Some x /\ Shows x c v.
Proof.
  intros inline loader s ord unparsed t tempdir os k fs p arg text y lines v c Hs Ho Bl Li Nk De Ht Hi F1 R R2 Hf Hy Hl D Tf Sp U w out Lk.
  assert (Lv : loader text = Val v) by (apply (R lines v Hl); eapply document_any, lasting_document, D).
  destruct (commented inline loader p arg text y lines v R2 Hy Hl D Tf Sp U) as (v' & Fc & St & Nt & One).
  destruct (C70_data pyval loader unparsed (class_text s ord) tempdir t os k fs p (Some arg) c text v Ht Hi F1 (class_text_fuel s ord) Lk (opened _ _ _ _ Hy) Hf Lv) as [A B]. fold w in A, B. fold out in A, B.
  assert (HW : World_ok t w) by (apply (ysteps_ok loader unparsed (class_text s ord) tempdir t Ht Hi F1 (class_text_fuel s ord)), clean_ok).
  destruct (nth_error (w_objects w) k) as [ob|] eqn:E; [|apply nth_error_None in E; lia].
  assert (G : forall d, strips d v -> noted d -> out = step unparsed (class_text s ord) w (Use k d c) -> (exists e, out = (Some (Raise e), w)) \/
    exists d x, fst out = Some (Val d) /\ strips d v /\ noted d /\ lookup c (d_build (w_disk (snd out))) = Some x /\ Shows x c v).
  { intros d Sd Nd Eo. rewrite Eo. destruct (use_cases unparsed (class_text s ord) t Ht (class_text_fuel s ord) w k d c ob HW E) as [Q|Q]; [right|now left].
    destruct (shown s ord d v c Hs Ho Bl (noted_documented s d Li Nd) Sd Nk De) as (x & T & Sh). exists d, x. split; [exact Q|]. split; [exact Sd|]. split; [exact Nd|]. split; [|exact Sh].
    rewrite (step_files unparsed (class_text s ord) t Ht w (Use k d c) HW eq_refl c), Q, String.eqb_refl, T. reflexivity. }
  destruct (use_cases unparsed (class_text s ord) t Ht (class_text_fuel s ord) w k v' c ob HW E) as [Q|(e & Q)].
  - apply (G v' St Nt). now apply A.
  - apply (G v (strips_self v U) (undocumented_noted v U)). apply B. intros w' Fw. rewrite (One w' Fw), Q. discriminate.
Qed.
Print Assumptions C102_returned.

(** An object that finds the files of its classes and does not validate or does not know the class: the call returns the data with the comments.
    [os'] are the calls of [from_data] that the history amounts to; by C70 there always are such. *)
Theorem C102_call : forall inline loader s ord unparsed t tempdir os os' m a kn b bs fs p arg text y lines v c,
  valid s -> set_like ord -> blind ord -> effective_limit s = None \/ s_dict s = DTypedDict -> ~ doc_key (KStr (s_key_doc s)) -> describable s c v ->
  well_formed t = true -> initial_lines unparsed = Val (template_lines t) -> (forall x, loader x <> NoFuel) ->
  reads_as inline loader text -> (forall out, temporary_string y = Val out -> reads_as inline loader out) -> fs p = Some text -> yaml_init (snd p) arg text = Val y -> Lines text lines -> Lasting inline (terminated text) quiet lines v -> Forall triple_free lines ->
  (exists l, In l lines /\ In (char 32) (chars l)) -> undocumented v ->
  snd (ysteps loader unparsed (class_text s ord) tempdir clean os) = snd (steps unparsed (class_text s ord) clean os') ->
  Runs (class_text s ord) SpecExact.accepted agree fresh os' (fst (steps unparsed (class_text s ord) clean os')) m -> m_objects m = (a ++ (kn, b) :: bs)%list ->
  Forall (present (m_files m)) (k_registry kn) -> b = false \/ ~ In c (k_registry kn) ->
  let w := snd (ysteps loader unparsed (class_text s ord) tempdir clean os) in
  let out := ystep loader unparsed (class_text s ord) tempdir w (UseYaml (List.length a) fs p (Some arg) c) in
  exists d x, fst out = Some (Val d) /\ from_comments loader text p (Some arg) d /\ strips d v /\ noted d /\ lookup c (d_build (w_disk (snd out))) = Some x /\ Shows x c v.
Proof.
  intros inline loader s ord unparsed t tempdir os os' m a kn b bs fs p arg text y lines v c Hs Ho Bl Li Nk De Ht Hi F1 R R2 Hf Hy Hl D Tf Sp U Ew Ru Em Pr V w out.
  assert (Lv : loader text = Val v) by (apply (R lines v Hl); eapply document_any, lasting_document, D).
  destruct (commented inline loader p arg text y lines v R2 Hy Hl D Tf Sp U) as (v' & Fc & St & Nt & One).
  destruct (shown s ord v' v c Hs Ho Bl (noted_documented s v' Li Nt) St Nk De) as (x & T & Sh).
  assert (Ac : SpecExact.accepted c) by (apply is_compatible_accepted, is_compatible_identifier; [exact (de_plain _ _ _ De)|]; split; [exact (de_identifier _ _ _ De)|exact (de_letter _ _ _ De)]).
  destruct (next_call unparsed (class_text s ord) t Ht Hi (class_text_fuel s ord) os' m a kn b bs v' c Ru Em) as (r & es & C & Out & _).
  assert (Q : r = Val v').
  { destruct C as [Na|z _ X1 X2|e _ _ G|text0 old _ _ G Vt I Hol Na|text0 _ _ G I _|text0 i rg yy d _ _ G I Ek]; auto.
    - contradiction.
    - exfalso. rewrite Forall_forall in Pr. auto.
    - congruence.
    - exfalso. destruct V; [congruence|contradiction]. }
  subst r. rewrite <- Ew in Out. fold w in Out.
  assert (Q2 : fst (step unparsed (class_text s ord) w (Use (List.length a) v' c)) = Some (Val v')) by exact Out.
  assert (HW : World_ok t w) by (apply (ysteps_ok loader unparsed (class_text s ord) tempdir t Ht Hi F1 (class_text_fuel s ord)), clean_ok).
  assert (Lk : List.length a < List.length (w_objects w)).
  { apply nth_error_Some. intros E. cbn [Live.step] in Q2. rewrite E in Q2. discriminate Q2. }
  destruct (C70_data pyval loader unparsed (class_text s ord) tempdir t os (List.length a) fs p (Some arg) c text v Ht Hi F1 (class_text_fuel s ord) Lk (opened _ _ _ _ Hy) Hf Lv) as [A _]. fold w in A. fold out in A.
  exists v', x. rewrite (A v' Fc Q2). split; [exact Q2|]. split; [exact Fc|]. split; [exact St|]. split; [exact Nt|]. split; [|exact Sh].
  rewrite (step_files unparsed (class_text s ord) t Ht w (Use (List.length a) v' c) HW eq_refl c), Q2, String.eqb_refl, T. reflexivity.
Qed.
Print Assumptions C102_call.

(** Without comments: any file, any loader. *)
Theorem C102_without_comments : forall loader s ord unparsed t tempdir os k fs p text v c,
  valid s -> set_like ord -> describable s c v ->
  well_formed t = true -> initial_lines unparsed = Val (template_lines t) -> (forall x, loader x <> NoFuel) -> fs p = Some text -> loader text = Val v ->
  let w := snd (ysteps loader unparsed (class_text s ord) tempdir clean os) in
  let out := ystep loader unparsed (class_text s ord) tempdir w (UseYaml k fs p None c) in
  k < List.length (w_objects w) ->
  (exists e, out = (Some (Raise e), w)) \/ fst out = Some (Val v) /\ exists x, lookup c (d_build (w_disk (snd out))) = Some x /\ Describes x c v.
Proof.
  intros loader s ord unparsed t tempdir os k fs p text v c Hs Ho De Ht Hi F1 Hf Lv w out Lk.
  assert (Ac : accepted p None) by (intros a Ea; discriminate Ea).
  destruct (C70_data pyval loader unparsed (class_text s ord) tempdir t os k fs p None c text v Ht Hi F1 (class_text_fuel s ord) Lk Ac Hf Lv) as [_ B]. fold w in B. fold out in B.
  rewrite B by (intros v' (a & ? & X & _); discriminate X).
  assert (HW : World_ok t w) by (apply (ysteps_ok loader unparsed (class_text s ord) tempdir t Ht Hi F1 (class_text_fuel s ord)), clean_ok).
  destruct (nth_error (w_objects w) k) as [ob|] eqn:E; [|apply nth_error_None in E; lia].
  destruct (use_cases unparsed (class_text s ord) t Ht (class_text_fuel s ord) w k v c ob HW E) as [Q|Q]; [right|now left]. split; [exact Q|].
  destruct (C96_text s ord v c Hs Ho De) as (x & T & Sh). exists x. split; [|exact Sh].
  rewrite (step_files unparsed (class_text s ord) t Ht w (Use k v c) HW eq_refl c), Q, String.eqb_refl, T. reflexivity.
Qed.
Print Assumptions C102_without_comments.

(** The file of [C99_copy_example]: one object makes a class of it without comments, another one then makes a class with comments. *)
Definition c102_files (p : path) : option string := if path_eqb p ("/etc", "config.yaml") then Some config_text else None.
Definition c102_history : list (@yop pyval) := [Plain (New true); UseYaml 0 c102_files ("/etc", "config.yaml") None "First"; Plain (New true)].
Definition c102_plain : list (@op pyval) := [New true; Use 0 config_value "First"; New true].
Definition config_hints (v : pyval) (c : string) : exc string := class_text default_strategies as_inserted v c.
Example C102_example : exists loader m first d x,
  reads_as ones loader config_text /\ (forall out, temporary_string config_file = Val out -> reads_as ones loader out) /\ (forall z, loader z <> NoFuel) /\
  snd (ysteps loader live_unparsed config_hints "/tmp" clean c102_history) = snd (steps live_unparsed config_hints clean c102_plain) /\
  Runs config_hints SpecExact.accepted agree fresh c102_plain (fst (steps live_unparsed config_hints clean c102_plain)) m /\
  m_objects m = ([(first, true)] ++ (Known ["First"] ["First"] ["First"] ["First"], true) :: [])%list /\ Forall (present (m_files m)) ["First"] /\ ~ In "Config" ["First"] /\
  let out := ystep loader live_unparsed config_hints "/tmp" (snd (ysteps loader live_unparsed config_hints "/tmp" clean c102_history)) (UseYaml 1 c102_files ("/etc", "config.yaml") (Some (Many [Above; Side])) "Config") in
  fst out = Some (Val d) /\ strips d config_value /\ lookup "Config" (d_build (w_disk (snd out))) = Some x /\ Shows x "Config" config_value.
Proof.
  destruct C99_copy_example as (Y & Ls & D & Tf & Sp & U & E & R). destruct R as (lines' & ts & ts' & v' & Lo & _ & _ & _ & Dv & _).
  set (loader := fun x => if String.eqb x config_text then Val config_value else Val v').
  assert (R1 : reads_as ones loader config_text).
  { intros ls w L Dw. unfold loader. rewrite String.eqb_refl. f_equal. rewrite (Lines_splitlines _ _ L), <- (Lines_splitlines _ _ Ls) in Dw. apply (C99_one_reading ones ones_one ones_bare (terminated config_text) config); auto. eapply document_any, lasting_document, D. }
  assert (R2 : forall out, temporary_string config_file = Val out -> reads_as ones loader out).
  { intros out Eo ls w L Dw. assert (Z : out = join nl config_copy) by congruence. subst out. unfold loader. assert (N : String.eqb (join nl config_copy) config_text = false) by (vm_compute; reflexivity). rewrite N. f_equal.
    rewrite (Lines_splitlines _ _ L), <- (Lines_splitlines _ _ Lo) in Dw. now apply (C99_one_reading ones ones_one ones_bare (terminated (join nl config_copy)) lines'). }
  assert (Nf : forall z, loader z <> NoFuel) by (intros z; unfold loader; destruct (String.eqb z config_text); discriminate).
  assert (K : ~ doc_key (KStr (s_key_doc default_strategies))) by (intros F; apply hidden_doc in F; vm_compute in F; discriminate F).
  assert (VF : SpecExact.accepted "First") by (apply is_compatible_accepted; reflexivity).
  assert (GF : exists tf, config_hints config_value "First" = Val tf).
  { destruct (config_hints config_value "First") as [tf| |] eqn:G; [eauto| |]; exfalso; vm_compute in G; discriminate G. }
  destruct GF as (tf & GF).
  assert (Ru : Runs config_hints SpecExact.accepted agree fresh c102_plain (fst (steps live_unparsed config_hints clean c102_plain))
    (Machine (Some (Known ["First"] ["First"] ["First"] ["First"])) [("First", tf)] [(Known ["First"] ["First"] ["First"] ["First"], true); (Known ["First"] ["First"] ["First"] ["First"], true)])).
  { replace (fst (steps live_unparsed config_hints clean c102_plain)) with [None; Some (Val config_value); None] by (vm_compute; reflexivity).
    eapply runs_cons; [apply acts_new|]. cbn.
    eapply runs_cons; [apply (acts_use _ _ _ _ [] nothing true [] _ "First"); [reflexivity|eapply call_first; [exact VF|constructor|exact GF|intros []|reflexivity]]|]. cbn.
    eapply runs_cons; [apply acts_new|]. cbn. apply runs_nil. }
  assert (Ew : snd (ysteps loader live_unparsed config_hints "/tmp" clean c102_history) = snd (steps live_unparsed config_hints clean c102_plain)) by (vm_compute; reflexivity).
  assert (Pr : Forall (present [("First", tf)]) ["First"]) by (constructor; [|constructor]; exists tf, [], []; split; [reflexivity|intros []]).
  assert (NI : ~ In "Config" ["First"]) by (intros [X|[]]; discriminate X).
  destruct (C102_call ones loader default_strategies as_inserted live_unparsed live_template "/tmp" c102_history c102_plain _ [(Known ["First"] ["First"] ["First"] ["First"], true)] (Known ["First"] ["First"] ["First"] ["First"]) true []
    c102_files ("/etc", "config.yaml") (Many [Above; Side]) config_text config_file config config_value "Config"
    default_valid as_inserted_set_like as_inserted_blind (or_intror eq_refl) K config_describable live_well_formed live_initial Nf R1 R2 eq_refl Y Ls D Tf Sp U Ew Ru eq_refl Pr (or_intror NI)) as (d & x & Q & Fc & St & _ & Lx & Sh).
  exists loader. eexists. eexists. exists d, x. split; [exact R1|]. split; [exact R2|]. split; [exact Nf|]. split; [exact Ew|]. split; [exact Ru|]. split; [reflexivity|]. split; [exact Pr|]. split; [exact NI|].
  cbv zeta. split; [exact Q|]. split; [exact St|]. split; [exact Lx|exact Sh].
Qed.
Example C102_without_comments_example : exists x,
  let loader := fun z => if String.eqb z config_text then Val config_value else Raise YamlError in
  let w := snd (ysteps loader live_unparsed config_hints "/tmp" clean c102_history) in
  let out := ystep loader live_unparsed config_hints "/tmp" w (UseYaml 1 c102_files ("/etc", "config.yaml") None "Config") in
  fst out = Some (Val config_value) /\ lookup "Config" (d_build (w_disk (snd out))) = Some x /\ Describes x "Config" config_value.
Proof.
  set (loader := fun z => if String.eqb z config_text then Val config_value else Raise YamlError).
  assert (Nf : forall z, loader z <> NoFuel) by (intros z; unfold loader; destruct (String.eqb z config_text); discriminate).
  assert (Lv : loader config_text = Val config_value) by (unfold loader; now rewrite String.eqb_refl).
  assert (Lk : 1 < List.length (w_objects (snd (ysteps loader live_unparsed config_hints "/tmp" clean c102_history)))).
  { replace (List.length (w_objects (snd (ysteps loader live_unparsed config_hints "/tmp" clean c102_history)))) with 2 by (vm_compute; reflexivity). lia. }
  assert (Q : fst (ystep loader live_unparsed config_hints "/tmp" (snd (ysteps loader live_unparsed config_hints "/tmp" clean c102_history)) (UseYaml 1 c102_files ("/etc", "config.yaml") None "Config")) = Some (Val config_value)) by (vm_compute; reflexivity).
  destruct (C102_without_comments loader default_strategies as_inserted live_unparsed live_template "/tmp" c102_history 1 c102_files ("/etc", "config.yaml") config_text config_value "Config"
    default_valid as_inserted_set_like config_describable live_well_formed live_initial Nf eq_refl Lv Lk) as [(e & E)|(_ & x & Lx & Sh)].
  - exfalso. apply (f_equal fst) in E. pose proof (eq_trans (eq_sym Q) E) as X. discriminate X.
  - exists x. cbv zeta. split; [exact Q|]. split; [exact Lx|exact Sh].
Qed.
