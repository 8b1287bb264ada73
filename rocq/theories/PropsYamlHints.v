(** C99: the hints for a YAML file with comments. *)
From Coq Require Import Ascii String List Bool Arith Lia.
From Verif Require Import SpecText SpecMypy SpecLines PropsLines SpecYamlDoc YamlDocFacts YamlDocTokens PropsYamlDoc.
From Verif Require Import PyStr PyStrFacts Exc Yaml YamlLoad SpecYaml Utils Strategies Dispatch Values Tree Build Emit SpecNames NamesFacts SpecImports SpecData SpecTypes SpecEmit SpecMerge
  TreeProofs SpecSound SpecCamel SpecUnique SpecClear SoundJson SpecEnd Samples SampleUnique SampleEmit SampleSound SampleClear PropsUnique PropsClear PropsRead PropsEnd SpecDocs PropsErase.
Import ListNotations.
Local Open Scope string_scope.
Local Open Scope nat_scope.

(** With the data of C09: the hints of [from_yaml_file] describe the data of the file, and the comments are their docstrings at most. *)
Definition built (s : strategies) (ord : set_order) (c : string) (v : pyval) : exc tree :=
  match from_data s ord v c with Ok t => Val t | Err _ => Raise (OtherError 1) | OutOfFuel => NoFuel end.
Lemma noted_documented s v : effective_limit s = None \/ s_dict s = DTypedDict -> noted v -> documented s v.
Proof. intros L N k t d Hd. destruct (N k t d Hd) as [A B]. split; [exact A|]. destruct L as [L|L], B as [B|B]; auto. Qed.
Theorem C99_describes_partial : forall inline loader s ord c tempdir fs p arg text y lines v,
  valid s -> set_like ord -> blind ord -> effective_limit s = None \/ s_dict s = DTypedDict -> ~ doc_key (KStr (s_key_doc s)) -> describable s c v ->
  reads_as inline loader text -> (forall out, temporary_string y = Val out -> reads_as inline loader out) -> fs p = Some text -> yaml_init (snd p) arg text = Val y -> Lines text lines -> Lasting inline (terminated text) quiet lines v -> Forall triple_free lines ->
  (exists l, In l lines /\ In (char 32) (chars l)) -> undocumented v ->
  exists t texts ds, from_yaml loader (built s ord c) tempdir fs p (Some arg) = Val t /\ declarations s t = Some texts /\ texts = map print_decl ds /\ Forall (fun d => readable (without_docs d)) ds /\
    (forall d d', In d ds -> In d' ds -> declared d = declared d' -> without_docs d = without_docs d') /\ names_resolved (recorded_imports s t) ds /\ accepts ds (TName c) v.
Proof.
  intros inline loader s ord c tempdir fs p arg text y lines v Vs Sl Bl Li Nk De R R2 Hf Hy Hl D Tf Sp U.
  destruct (C99_call_partial inline loader (built s ord c) tempdir fs p arg text y lines v R R2 Hf Hy Hl D Tf Sp U) as (v' & St & Nt & _ & ->).
  destruct (C97_describes s ord v' v c Vs Sl Bl (noted_documented s v' Li Nt) St Nk De) as (t & texts & ds & E & X). exists t, texts, ds. split; [|exact X]. unfold built at 1. rewrite E. reflexivity.
Qed.
Print Assumptions C99_describes_partial.

(** The file of [C99_copy_example] with a loader that knows the file and its copy. *)
Lemma config_describable : describable default_strategies "Config" config_value.
Proof.
  assert (Pl : plain "Config") by (apply plain_spec; reflexivity).
  assert (J : json config_value) by (apply jsonb_spec; vm_compute; reflexivity).
  constructor.
  - apply json_tidy; auto.
    + apply unique_keysb_spec. vm_compute. reflexivity.
    + apply no_doc_keysb_spec. vm_compute. reflexivity.
    + apply within_limitb_spec. vm_compute. reflexivity.
    + apply empties_differb_spec. vm_compute. reflexivity.
    + intros _. split; [apply rows_agreeb_spec; vm_compute; reflexivity|apply optional_keys_agreeb_spec; vm_compute; reflexivity].
  - apply clear_datab_spec. vm_compute. reflexivity.
  - apply json_names; auto. intros _. split; [apply camel_nameb_spec; vm_compute; reflexivity|]. split; [apply keys_quotableb_spec; vm_compute; reflexivity|]. now left.
  - now apply json_letters.
  - apply json_apart; auto. apply name_apartb. reflexivity.
  - exact Pl.
  - exact (proj1 (proj1 (is_compatible_identifier _ Pl) eq_refl)).
  - exact (proj2 (proj1 (is_compatible_identifier _ Pl) eq_refl)).
Qed.
Example C99_describes_example : exists loader t texts ds,
  reads_as ones loader config_text /\ (forall out, temporary_string config_file = Val out -> reads_as ones loader out) /\
  from_yaml loader (built default_strategies as_inserted "Config") "/tmp" (fun p => if path_eqb p ("/etc", "config.yaml") then Some config_text else None) ("/etc", "config.yaml") (Some (Many [Above; Side])) = Val t /\
  declarations default_strategies t = Some texts /\ texts = map print_decl ds /\ names_resolved (recorded_imports default_strategies t) ds /\ accepts ds (TName "Config") config_value.
Proof.
  destruct C99_copy_example as (Y & Ls & D & Tf & Sp & U & E & R). destruct R as (lines' & ts & ts' & v' & Lo & _ & _ & _ & Dv & _).
  set (loader := fun x => if String.eqb x config_text then Val config_value else Val v').
  assert (R1 : reads_as ones loader config_text).
  { intros ls w L Dw. unfold loader. rewrite String.eqb_refl. f_equal. rewrite (Lines_splitlines _ _ L), <- (Lines_splitlines _ _ Ls) in Dw. apply (C99_one_reading ones ones_one ones_bare (terminated config_text) config); auto. eapply document_any, lasting_document, D. }
  assert (R2 : forall out, temporary_string config_file = Val out -> reads_as ones loader out).
  { intros out Eo ls w L Dw. assert (Z : out = join nl config_copy) by congruence. subst out. unfold loader. assert (N : String.eqb (join nl config_copy) config_text = false) by (vm_compute; reflexivity). rewrite N. f_equal.
    rewrite (Lines_splitlines _ _ L), <- (Lines_splitlines _ _ Lo) in Dw. now apply (C99_one_reading ones ones_one ones_bare (terminated (join nl config_copy)) lines'). }
  assert (K : ~ doc_key (KStr (s_key_doc default_strategies))) by (intros F; apply hidden_doc in F; vm_compute in F; discriminate).
  set (fs := fun p => if path_eqb p ("/etc", "config.yaml") then Some config_text else None).
  destruct (C99_describes_partial ones loader default_strategies as_inserted "Config" "/tmp" fs ("/etc", "config.yaml") (Many [Above; Side]) config_text config_file config config_value
    default_valid as_inserted_set_like as_inserted_blind (or_intror eq_refl) K config_describable R1 R2 eq_refl Y Ls D Tf Sp U) as (t & texts & ds & A & B & C & _ & _ & G & G2).
  exists loader, t, texts, ds. auto 9.
Qed.
