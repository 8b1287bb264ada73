(** C101: the comments of a YAML file are the docstrings of its hints. *)
From Coq Require Import Ascii String List Bool Arith Lia.
From Verif Require Import SpecText SpecMypy SpecLines PropsLines SpecComment YamlComments PropsComment SpecYamlDoc YamlDocFacts YamlDocTokens YamlDocOne PropsYamlDoc PropsYamlHints.
From Verif Require YamlFacts DeclarationFacts GroupFacts.
From Verif Require Import PyStr PyStrFacts Exc Yaml YamlLoad SpecYaml Utils Strategies Dispatch Docstring Values Tree Build Emit TreeFacts SpecNames NamesFacts SpecData SpecTypes SpecEmit SpecMerge Elab TreeProofs MergeFacts
  SpecExact Samples SampleEmit PropsEmit SpecDocs PropsErase SpecNotes NoteFacts PropsNotes SpecYamlNotes YamlNoteFacts.
Import ListNotations.
Local Open Scope string_scope.
Local Open Scope nat_scope.

(** ** Data with and without documentation *)
Lemma hidden_dec k : doc_key k \/ ~ doc_key k.
Proof. rewrite <- hidden_doc. destruct (is_hidden k); auto. Qed.
Lemma strips_has d' d : strips_entries d' d -> forall k, ~ doc_key k -> (has_key k d' <-> has_key k d).
Proof.
  induction 1 as [|k0 x x' d d' N _ _ IH|k0 x d d' D _ IH]; intros k Nk; unfold has_key in *; cbn [map fst In].
  - tauto.
  - rewrite IH by auto. tauto.
  - rewrite <- IH by auto. split; [intros [<-|H]; [contradiction|exact H]|auto].
Qed.
Lemma strips_string d' d : strips_entries d' d -> (string_keys d' <-> string_keys d).
Proof.
  intros H. split; intros K k Hk.
  - destruct (hidden_dec k) as [D|N]; [destruct D as (x & ->); eauto|]. apply K. now apply (strips_has _ _ H).
  - destruct (hidden_dec k) as [D|N]; [destruct D as (x & ->); eauto|]. apply K. now apply (strips_has _ _ H).
Qed.
Lemma strips_split d' d1 k x d2 : strips_entries d' (d1 ++ (k, x) :: d2)%list -> exists d1' x' d2', d' = (d1' ++ (k, x') :: d2')%list /\ strips x' x /\ strips_entries d1' d1.
Proof.
  remember (d1 ++ (k, x) :: d2)%list as d eqn:E. intros H. revert d1 E. induction H as [|k0 y y' d0 d0' N Sy H IH|k0 y d0 d0' D H IH]; intros d1 E.
  - destruct d1; discriminate.
  - destruct d1 as [|e d1]; cbn [app] in E.
    + injection E as -> -> _. exists [], y, d0. split; [reflexivity|]. split; [exact Sy|constructor].
    + injection E as <- E. destruct (IH d1 E) as (d1' & x' & d2' & -> & A & B). exists ((k0, y) :: d1'), x', d2'. split; [reflexivity|]. split; [exact A|]. now constructor.
  - destruct (IH d1 E) as (d1' & x' & d2' & -> & A & B). exists ((k0, y) :: d1'), x', d2'. split; [reflexivity|]. split; [exact A|]. now apply se_drop.
Qed.
Lemma strips_In d' d k x' : strips_entries d' d -> In (k, x') d' -> ~ doc_key k -> exists x, In (k, x) d /\ strips x' x.
Proof.
  intros H. induction H as [|k0 y y' d0 d0' N Sy H IH|k0 y d0 d0' D H IH]; intros Hx Nk; [destruct Hx| |].
  - destruct Hx as [E|Hx]; [injection E as -> ->; exists y'; split; [now left|exact Sy]|]. destruct (IH Hx Nk) as (x & A & B). exists x. split; [now right|exact B].
  - destruct Hx as [E|Hx]; [injection E as -> ->; contradiction|auto].
Qed.
Lemma strips_unlike x y x' y' : strips x' x -> strips y' y -> unlike x y -> unlike x' y'.
Proof.
  intros Sx Sy U. inversion Sx as [x0 Lx E1 E2|kx tx lx lx' Hx E1 E2|kx tx dx dx' Hx E1 E2]; [destruct x; try destruct Lx; destruct y' as [| | | | | | |k1 ? ?|k1 ? ?]; try exact I; destruct k1; exact I| |];
    (inversion Sy as [y0 Ly F1 F2|ky ty ly ly' Hy F1 F2|ky ty dy dy' Hy F1 F2]; [destruct y; try destruct Ly; destruct kx; exact I| |]).
  - rewrite <- E2, <- F2 in U. destruct kx, ky; exact U || exact I.
  - destruct kx, ky; exact I.
  - destruct kx, ky; exact I.
  - rewrite <- E2, <- F2 in U. destruct kx, ky; try exact I. cbn [unlike] in *. intros Sk. apply (strips_string _ _ Hx) in Sk. destruct (U Sk) as (k & Nk & N). exists k. split; auto.
    rewrite (strips_has _ _ Hx k Nk), (strips_has _ _ Hy k Nk). exact N.
Qed.
Lemma strips_first v p y : first_under v p y -> forall v', strips v' v -> exists y', first_under v' p y' /\ strips y' y.
Proof.
  induction 1 as [t d Sk|t l|t d1 k x d2 p y Sk Nk U F IH]; intros v' H.
  - inversion H as [? L| |? ? d' ? Hd]; subst; [destruct L|]. exists (VMap MDict t d'). split; [|exact H]. constructor. now apply (strips_string _ _ Hd).
  - inversion H as [? L|? ? l' ? Hl|]; subst; [destruct L|]. exists (VSeq KList t l'). split; [constructor|exact H].
  - inversion H as [? L| |? ? d' ? Hd]; subst; [destruct L|]. pose proof (proj2 (strips_string _ _ Hd) Sk) as Sk'. destruct (strips_split _ _ _ _ _ Hd) as (d1' & x' & d2' & -> & Sx & S1).
    destruct (IH x' Sx) as (y' & A & B). exists y'. split; [|exact B]. constructor; auto. intros k1 z Hz N1. destruct (strips_In _ _ _ _ S1 Hz N1) as (z0 & Hz0 & Sz). eapply strips_unlike; eauto.
Qed.
Lemma first_value v p y : first_under v p y -> value_at v p y.
Proof. induction 1; econstructor; eauto. apply in_app_iff. right. now left. Qed.
Lemma value_one v p y : value_at v p y -> unique_keys v -> forall y', value_at v p y' -> y = y'.
Proof.
  induction 1 as [v|mk t d k x p y Hx H IH]; intros U y' H'; inversion H' as [|mk' t' d' k' x' p' y2 Hx' H2]; subst; auto.
  assert (E : x = x') by (pose proof (NoDup_dget _ _ _ (U _ _ _ (sub_refl _)) Hx) as A; pose proof (NoDup_dget _ _ _ (U _ _ _ (sub_refl _)) Hx') as B; congruence). subst x'.
  apply IH; auto. intros mk' t' d' Hd. apply (U mk' t'). eapply sub_map; eauto.
Qed.
Lemma value_sub v p y : value_at v p y -> sub y v.
Proof. induction 1; [constructor|]. eapply sub_map; eauto. Qed.
(** The name of a documentation key is a name where the key is one. *)
Lemma doc_name_accepted k : SpecExact.accepted k -> SpecExact.accepted (doc_name k).
Proof.
  intros (c & r & -> & Hc & Hr & _). exists "_"%char, ("__docstring_hidden_key_" ++ String c r). split; [reflexivity|].
  assert (U : forall x, id_start x -> name_char x) by (intros x Hx; now left).
  assert (Pre : Forall id_start (chars "__docstring_hidden_key_")) by
    (cbn [chars]; repeat (apply Forall_cons; [first [right; right; left; reflexivity|right; left; split; apply Nat.leb_le; reflexivity]|]); apply Forall_nil).
  split; [right; right; left; reflexivity|]. split.
  - rewrite YamlFacts.chars_app. apply Forall_app. split; [eapply Forall_impl; [|exact Pre]; exact U|]. constructor; auto.
  - exists "d"%char. split; [|cbv; discriminate]. unfold doc_name. rewrite YamlFacts.chars_app, in_app_iff. left. cbn [chars In]. do 3 right. left. reflexivity.
Qed.
Lemma doc_name_no_keyword k : ~ In (doc_name k) python_keywords.
Proof.
  assert (X : forallb (fun w => negb (is_hidden (KStr w))) python_keywords = true) by (vm_compute; reflexivity). rewrite forallb_forall in X. intros H. specialize (X _ H).
  assert (Y : is_hidden (KStr (doc_name k)) = true) by (apply hidden_doc, doc_name_key). rewrite Y in X. discriminate.
Qed.

(** ** C101 *)
Definition comment_of (lines : list string) (ps : list position) (ts : list token) (i : nat) (k : string) (o : option string) : Prop :=
  written lines ps i k o /\ exists c t, In t ts /\ key_of i c k t.
Lemma annotated_tokens text ts ts' : Annotated text ts ts' -> forall us, incl ts us -> Annotated (fun i k o => text i k o /\ exists c t, In t us /\ key_of i c k t) ts ts'.
Proof.
  induction 1 as [|c0 ts ts' H IH|c0 r0 ts ts' H IH|i0 i' c0 k0 r0 ts ts' T0 H IH|i0 i' j c0 k0 r0 t0 ts ts' T0 H IH|i0 i' c0 k0 x0 ts ts' T0 H IH|i0 i' j c0 k0 x0 t0 ts ts' T0 H IH]; intros us I;
    constructor; try (apply IH; intros t Ht; apply I; now right); split; try exact T0; exists c0; eexists; (split; [apply I; left; reflexivity|cbn [key_of]; auto]).
Qed.

(** The data that [from_yaml_file] makes hints for: the value of the file read together with its comments. *)
Theorem C101_call_partial : forall {H} inline loader (from_data : pyval -> exc H) tempdir fs p arg text y lines v ts,
  reads_as inline loader text -> (forall out, temporary_string y = Val out -> reads_as inline loader out) -> fs p = Some text -> yaml_init (snd p) arg text = Val y -> Lines text lines -> 
  Forall (fun l => Forall printable (chars l)) lines -> Contents (terminated text) quiet lines ts -> Contents False quiet lines ts -> Collection inline ts v -> Forall triple_free lines ->
  (exists l, In l lines /\ In (char 32) (chars l)) -> undocumented v ->
  exists v', CCollection inline (comment_of lines (y_positions y) ts) ts v v' /\ noted v' /\
    from_yaml loader from_data tempdir fs p (Some arg) = try_else (from_data v') (from_data v).
Proof.
  intros H inline loader from_data tempdir fs p arg text y lines v ts R R2 Hf Hy Hl P T0 T C Tf Sp U.
  assert (El : y_lines y = lines).
  { rewrite (Lines_splitlines _ _ Hl). unfold yaml_init in Hy. destruct (pos_mem Above _ && _); [discriminate|]. destruct (negb _); [discriminate|]. injection Hy as <-. reflexivity. }
  subst lines. destruct (copy_tokens y ts T P Tf Sp) as (out & lines' & ts' & Eo & Lo & T' & A & P').
  assert (A' : Annotated (comment_of (y_lines y) (y_positions y) ts) ts ts').
  { apply annotated_mono with (text := fun i k o => docs_of y i k o /\ exists c t, In t ts /\ key_of i c k t); [|apply annotated_tokens; [exact A|apply incl_refl]]. intros i k o [D K]. split; [now apply docs_written|exact K]. }
  destruct (proj2 (proj2 (annotated_commented inline _)) ts v C ts' A' U) as (v' & CC & C').
  exists v'. split; [exact CC|]. split; [exact (proj2 (proj2 (commented_noted inline _)) _ _ _ CC U)|].
  unfold from_yaml, open_yaml.
  assert (Y0 : exists y0, yaml_init (snd p) arg "" = Val y0).
  { unfold yaml_init in *. destruct (pos_mem Above _ && _); [discriminate|]. destruct (negb _); [discriminate|]. eauto. }
  assert (D : Document inline (terminated text) quiet (y_lines y) v) by (split; eauto). assert (D' : Document inline (terminated out) any lines' v') by (split; eauto).
  destruct Y0 as (y0 & ->). rewrite Hf, Hy. cbn [andthen]. unfold load at 1. rewrite Hf, (R (y_lines y) v Hl (document_any _ _ _ _ _ D)). cbn [andthen]. rewrite Eo. cbn [andthen].
  unfold load, write. assert (E : path_eqb (temp_path tempdir p) (temp_path tempdir p) = true) by (unfold path_eqb; now rewrite !String.eqb_refl). rewrite E, (R2 out Eo lines' v' Lo D'). reflexivity.
Qed.
Print Assumptions C101_call_partial.

(** Every docstring of the hints is the comment of a line of that key; and the docstring of a key whose mapping is the first of its kind on
    the way to it is the comment of its own line, if there is one. *)
Theorem C101_docstrings_partial : forall inline loader s ord n tempdir fs p arg text y lines v ts t,
  set_like ord -> blind ord -> s_dict s = DTypedDict -> ~ doc_key (KStr (s_key_doc s)) -> unique_keys v ->
  reads_as inline loader text -> (forall out, temporary_string y = Val out -> reads_as inline loader out) -> fs p = Some text -> yaml_init (snd p) arg text = Val y -> Lines text lines ->
  Forall (fun l => Forall printable (chars l)) lines -> Contents (terminated text) quiet lines ts -> Contents False quiet lines ts -> Collection inline ts v -> Forall triple_free lines ->
  (exists l, In l lines /\ In (char 32) (chars l)) -> undocumented v ->
  from_yaml loader (built s ord n) tempdir fs p (Some arg) = Val t ->
  (forall c k x, node_of c t -> shows (decl_of s c) k x -> exists i, comment_of lines (y_positions y) ts i k (Some x)) /\
  (forall q ty d k i, first_under v q (VMap MDict ty d) -> line_of ts q k i ->
     exists c b fs doc f o, node_at t q c /\ In c (collect s t) /\ decl_of s c = DTyped (tname c) b fs doc /\ In f fs /\ fd_key f = k /\ fd_doc f = o /\
       written lines (y_positions y) i k o /\ (b = false <-> forall k, has_key (KStr k) d -> SpecExact.accepted k /\ ~ In k python_keywords)).
Proof.
  intros inline loader s ord n tempdir fs p arg text y lines v ts t Ho Bl TS Nk Hu R R2 Hf Hy Hl P T0 T C Tf Sp U HY.
  destruct (C101_call_partial inline loader (built s ord n) tempdir fs p arg text y lines v ts R R2 Hf Hy Hl P T0 T C Tf Sp U) as (v' & CC & Nt & E). rewrite E in HY.
  pose proof (proj2 (proj2 (commented_strips inline _)) _ _ _ CC U) as St. pose proof (proj2 (proj2 (commented_sourced inline _)) _ _ _ CC (conj U Hu)) as So.
  assert (H : from_data s ord v' n = Ok t).
  { pose proof (C97_docstrings_only s ord v' v n Ho Bl (noted_documented s v' (or_intror TS) Nt) St Nk) as G. unfold built, try_else in HY. destruct (from_data s ord v' n), (from_data s ord v n); try contradiction; try discriminate; congruence. }
  assert (Hu' : unique_keys v') by (intros mk ty d Hd; exact (proj1 (So _ _ _ Hd))). split.
  - intros c k x Hc Hs. destruct (C100_only s ord v' n t c k x Ho H Hc Hs) as (mk & ty & d & Hd & Hx). destruct (proj2 (So _ _ _ Hd) k _ Hx) as (i & w & Ew & W). assert (w = x) by congruence. subst w. eauto.
  - intros q ty d k i F L. destruct (strips_first _ _ _ F _ St) as (y' & F' & Sy). inversion Sy as [? Lf| |? ? d' ? Hd]; subst; [destruct Lf|].
    destruct (line_notes inline _ _ _ _ _ L _ _ CC U) as (d2 & V2 & Kd & o & [W _] & Hn).
    pose proof (value_one _ _ _ V2 Hu' _ (first_value _ _ _ F')) as Ed. assert (d2 = d') by congruence. subst d2.
    destruct (C100_kept_partial s ord v' n t q ty d' Ho TS Hu' H F') as (c & b & fs0 & doc & A1 & A2 & A3 & A4 & A5 & A6).
    assert (Hk : has_key (KStr k) d' /\ ~ doc_key (KStr k)).
    { split; [exact Kd|]. destruct (line_token _ _ _ _ L) as (c0 & t0 & Ht0 & K0). destruct (proj2 (proj2 (structure_undocumented inline)) ts v C U) as [Nm _]. rewrite Forall_forall in Nm. specialize (Nm _ Ht0).
      destruct t0; cbn [key_of named] in *; try contradiction; destruct K0 as (_ & _ & <-); exact Nm. }
    destruct Hk as [Hk Nd]. assert (Hf' : In (KStr k) (map (fun f => KStr (fd_key f)) fs0)) by (rewrite A4; apply visible_In; auto).
    apply in_map_iff in Hf' as (f & Ef & Hf'). injection Ef as Ef. exists c, b, fs0, doc, f, o. split; [exact A1|]. split; [exact A2|]. split; [exact A3|]. split; [exact Hf'|]. split; [exact Ef|]. split.
    + destruct (fd_doc f) as [x|] eqn:Ex.
      * apply A5 in Ex; auto. rewrite Ef in Ex. apply Hn in Ex as (w & -> & Ew). congruence.
      * destruct o as [w|]; auto. exfalso. assert (X : note_of d' k w) by (apply Hn; eauto). rewrite <- Ef in X. apply A5 in X; auto. congruence.
    + split; [exact W|]. rewrite A6. split; intros X k0 Hk0.
      * apply X. destruct (hidden_dec (KStr k0)) as [D0|N0]; [exfalso; destruct (U _ _ _ (value_sub _ _ _ (first_value _ _ _ F)) _ Hk0 D0)|]. now apply (strips_has _ _ Hd).
      * destruct (hidden_dec (KStr k0)) as [D0|N0]; [|apply X; now apply (strips_has _ _ Hd)]. destruct D0 as (k1 & Ek). injection Ek as Ek. change (k0 = doc_name k1) in Ek. subst k0.
        destruct (Nt _ _ _ (value_sub _ _ _ V2)) as [Dt _]. unfold has_key in Hk0. apply in_map_iff in Hk0 as ([q0 x0] & E0 & Hx0). cbn [fst] in E0. subst q0.
        destruct (Dt _ _ Hx0 (doc_name_key k1)) as (_ & n1 & E1 & N1 & H1). change (KStr (doc_name k1) = KStr (doc_name n1)) in E1. assert (n1 = k1) by (apply doc_name_inj; congruence). subst n1.
        split; [|apply doc_name_no_keyword]. apply doc_name_accepted. apply X. now apply (strips_has _ _ Hd).
Qed.
Print Assumptions C101_docstrings_partial.

(** ** What a comment says *)
Lemma first_one c line i j : first_even c line i -> first_even c line j -> i = j.
Proof. intros (a & b & E & <- & Q & M) (a' & b' & E' & <- & Q' & M'). specialize (M _ _ E' Q'). specialize (M' _ _ E Q). lia. Qed.
Lemma Trimmed_one s t u : Trimmed s t -> Trimmed s u -> t = u.
Proof. intros H K. apply DeclarationFacts.Trimmed_strip in H, K. congruence. Qed.
Lemma cut_one a b c d : a ++ b = c ++ d -> String.length a = String.length c -> b = d.
Proof. revert c. induction a as [|x a IH]; intros [|z c] E L; try discriminate; [exact E|]. cbn [append] in E. injection E as _ E. apply (IH c); auto. Qed.
Lemma hash_one col l t u : hash_at col l t -> hash_at col l u -> t = u.
Proof. intros (a & b & -> & L & T) (a' & b' & E & L' & T'). apply cut_one in E; [|congruence]. cbn [append] in E. injection E as <-. eapply Trimmed_one; eassumption. Qed.
Lemma Block_one col ls ts : Block col ls ts -> forall us, Block col ls us -> ts = us.
Proof.
  induction 1 as [|l ls N|l ls t ts Hh _ IH]; intros us K.
  - now inversion K.
  - inversion K as [|? ? N'|? ? u ? Hu ?]; subst; auto. destruct (N _ Hu).
  - inversion K as [|? ? N'|? ? u us' Hu Ku]; subst; [destruct (N' _ Hh)|]. rewrite (hash_one _ _ _ _ Hh Hu), (IH _ Ku). reflexivity.
Qed.
Lemma found_one lines i line p s s' : found lines i line p s -> found lines i line p s' -> s = s'.
Proof.
  assert (B : forall q, q <> Side -> found lines i line q s -> found lines i line q s' -> s = s').
  { intros q Nq H K. assert (X : found lines i line q s -> found lines i line q s' -> s = s').
    { clear H K. destruct q; [| |congruence]; cbn [found]; intros [[N ->]|(col & texts & (k & Hk) & Kc & D & Bl)] [[N' ->]|(col' & texts' & (k' & Hk') & Kc' & D' & Bl')]; auto;
        try (now destruct (N _ Hk')); try (now destruct (N' _ Hk)); pose proof (key_column_unique _ _ _ Kc Kc'); subst col'; pose proof (Block_one _ _ _ Bl _ Bl') as E.
      - apply (f_equal (@rev string)) in E. rewrite !rev_involutive in E. subst texts'. exact (C90_determined _ _ _ D D').
      - subst texts'. exact (C90_determined _ _ _ D D'). }
    exact (X H K). }
  intros H K. destruct p; [apply (B Above)|apply (B Below)|]; try discriminate; auto. cbn [found] in H, K.
  destruct H as [(a & b & t & E & F & T & D)|[N ->]], K as [(a' & b' & t' & E' & F' & T' & D')|[N' ->]]; auto.
  - pose proof (first_one _ _ _ _ F F') as L. rewrite E in E'. apply cut_one in E'; [|lia]. cbn [append] in E'. injection E' as <-. pose proof (Trimmed_one _ _ _ T T'). subst t'.
    destruct D as [[? ->]|[(? & ? & ->)|(? & ? & ->)]], D' as [[? ->]|[(? & ? & ->)|(? & ? & ->)]]; try reflexivity; contradiction.
  - destruct (N' _ _ E F).
  - destruct (N _ _ E' F').
Qed.
Theorem C101_one_text : forall lines ps i k o o', written lines ps i k o -> written lines ps i k o' -> o = o'.
Proof.
  intros lines ps i k o o' (line & N & H) (line' & N' & K). assert (line' = line) by congruence. subst line'.
  destruct H as [[S1 ->]|(S1 & texts & F & D)], K as [[S2 ->]|(S2 & texts' & F' & D')]; try reflexivity; try contradiction.
  assert (texts' = texts). { clear D D'. revert texts' F'. induction F as [|p t ps ts Hp _ IH]; intros us F'; inversion F' as [|? u ? us' Hq Fq]; subst; [reflexivity|]. f_equal; [eapply found_one; eassumption|auto]. }
  subst texts'. cbn zeta in D, D'. destruct D as [[E ->]|[E ->]], D' as [[E' ->]|[E' ->]]; try reflexivity; congruence.
Qed.
Print Assumptions C101_one_text.

(** ** A file *)
Definition config_fs : path -> option string := fun p => if path_eqb p ("/etc", "config.yaml") then Some config_text else None.
Definition port_comment : string := "Where it listens for clients." ++ lf ++ lf ++ "TCP." ++ lf.
Lemma port_written : written config [Above; Side] 4 "port" (Some port_comment).
Proof.
  exists "  port: 1  # TCP". split; [reflexivity|]. right. split; [intros (n & r & E); do 3 (destruct n as [|n]; [discriminate E|]); discriminate E|].
  exists ["Where it listens for clients."; "TCP."]. split; [|right; split; [discriminate|reflexivity]].
  constructor; [apply comment_found; [reflexivity|vm_compute; reflexivity]|]. constructor; [apply comment_found; [reflexivity|vm_compute; reflexivity]|constructor].
Qed.
Lemma port_line : line_of config_tokens ["server"] "port" 4.
Proof.
  apply (lo_in 0 1 "server" "" [] [TKey 4 2 "port" " 1  # TCP"; TText 5 2 "note" ("(careful: no)" ++ lf ++ "stop it first" ++ lf)]
    [TKey 9 0 "users" "  # Who may log in"; TDash 0; TKey 10 2 "name" " 1  # the name"; TKey 11 2 "level" " 1"; TItem 0 "1 # nobody"; TKey 13 0 "_last" ""]).
  - eexists _, _. split; reflexivity.
  - repeat constructor.
  - right. eexists _, _. split; [reflexivity|]. intros [F|F]; [cbn in F; lia|exact F].
  - apply (lo_here 2 4 "port" (TKey 4 2 "port" " 1  # TCP")); [eexists _, _; split; reflexivity|now left|repeat split].
Qed.
Example C101_docstrings_example : exists loader t c b fs doc f,
  reads_as ones loader config_text /\ from_yaml loader (built default_strategies as_inserted "Config") "/tmp" config_fs ("/etc", "config.yaml") (Some (Many [Above; Side])) = Val t /\
  node_at t ["server"] c /\ decl_of default_strategies c = DTyped (tname c) b fs doc /\ In f fs /\ fd_key f = "port" /\ fd_doc f = Some port_comment.
Proof.
  destruct C99_copy_example as (Y & Ls & D & Tf & Sp & U & E & R). destruct R as (lines' & ts & ts' & v' & Lo & _ & _ & _ & Dv & _).
  set (loader := fun x => if String.eqb x config_text then Val config_value else Val v').
  assert (R1 : reads_as ones loader config_text).
  { intros ls w L Dw. unfold loader. rewrite String.eqb_refl. f_equal. rewrite (Lines_splitlines _ _ L), <- (Lines_splitlines _ _ Ls) in Dw. apply (C99_one_reading ones ones_one ones_bare (terminated config_text) config); auto. eapply document_any, lasting_document, D. }
  assert (R2 : forall out, temporary_string config_file = Val out -> reads_as ones loader out).
  { intros out Eo ls w L Dw. assert (Z : out = join nl config_copy) by congruence. subst out. unfold loader. assert (N : String.eqb (join nl config_copy) config_text = false) by (vm_compute; reflexivity). rewrite N. f_equal.
    rewrite (Lines_splitlines _ _ L), <- (Lines_splitlines _ _ Lo) in Dw. now apply (C99_one_reading ones ones_one ones_bare (terminated (join nl config_copy)) lines'). }
  assert (K : ~ doc_key (KStr (s_key_doc default_strategies))) by (intros F; apply hidden_doc in F; vm_compute in F; discriminate F).
  destruct D as [P (ts0 & T0 & _)].
  destruct (C99_describes_partial ones loader default_strategies as_inserted "Config" "/tmp" config_fs ("/etc", "config.yaml") (Many [Above; Side]) config_text config_file config config_value
    default_valid as_inserted_set_like as_inserted_blind (or_intror eq_refl) K config_describable R1 R2 eq_refl Y Ls (config_document _) Tf Sp U) as (t & texts & ds & A & _).
  destruct (C101_docstrings_partial ones loader default_strategies as_inserted "Config" "/tmp" config_fs ("/etc", "config.yaml") (Many [Above; Side]) config_text config_file config config_value config_tokens t
    as_inserted_set_like as_inserted_blind eq_refl K (unique_keysb_spec _ (eq_refl : unique_keysb config_value = true)) R1 R2 eq_refl Y Ls P (cs_bare _ _ _ _ (config_tokens_read _)) (cs_bare _ _ _ _ (config_tokens_read _)) config_means Tf Sp U A) as [_ G].
  destruct (G ["server"] ty_dict [(KStr "port", VInst ty_int); (KStr "note", VStr ("(careful: no)" ++ lf ++ "stop it first" ++ lf))] "port" 4) as (c & b & fs & doc & f & o & G1 & _ & G3 & G4 & G5 & G6 & G7 & _).
  - apply (fu_key ty_dict [] "server"); [apply GroupFacts.string_keys_all; reflexivity| |intros ? ? []|].
    + intros F. apply hidden_doc in F. vm_compute in F. discriminate F.
    + constructor. apply GroupFacts.string_keys_all. reflexivity.
  - exact port_line.
  - exists loader, t, c, b, fs, doc, f. rewrite (C101_one_text _ _ _ _ _ _ G7 port_written) in G6. auto 10.
Qed.

(** ** What gets lost *)
(** Two mappings with equal keys share a declaration: the comments of the second one are not shown. *)
Definition twins : list string := ["a:"; "  x: 1"; "b:"; "  # second"; "  x: 1"].
Definition twins_copy : list string := ["a:"; "  x: 1"; "b:"; "  # second"; "  ___docstring_hidden_key_x: |"; "   Second."; "  x: 1"].
Definition twins_value : pyval := VMap MDict ty_dict [(KStr "a", VMap MDict ty_dict [(KStr "x", VInst ty_int)]); (KStr "b", VMap MDict ty_dict [(KStr "x", VInst ty_int)])].
Definition twins_noted : pyval :=
  VMap MDict ty_dict [(KStr "a", VMap MDict ty_dict [(KStr "x", VInst ty_int)]); (KStr "b", VMap MDict ty_dict [(KStr "___docstring_hidden_key_x", VStr ("Second." ++ lf)); (KStr "x", VInst ty_int)])].
Definition twins_tokens : list token := [TKey 0 0 "a" ""; TKey 1 2 "x" " 1"; TKey 2 0 "b" ""; TKey 4 2 "x" " 1"].
Definition twins_copy_tokens : list token := [TKey 0 0 "a" ""; TKey 1 2 "x" " 1"; TKey 2 0 "b" ""; TText 4 2 "___docstring_hidden_key_x" ("Second." ++ lf); TKey 6 2 "x" " 1"].
Lemma twins_read E0 : Tokens E0 quiet 0 twins twins_tokens.
Proof.
  unfold twins, twins_tokens. key_line 0 false "a" "". key_line 2 false "x" " 1". key_line 0 false "b" "". apply tk_idle; [exists 2, "# second"; split; [reflexivity|right; eexists; reflexivity]|].
  key_line 2 false "x" " 1". constructor.
Qed.
Lemma one_int : ones " 1" (VInst ty_int).
Proof. split; [exists 1, ""; reflexivity|reflexivity]. Qed.
Lemma bare_nil : bare "".
Proof. exists 0, "". auto. Qed.
Lemma twins_means : Collection ones twins_tokens twins_value.
Proof.
  assert (X : forall i, Collection ones [TKey i 2 "x" " 1"] (VMap MDict ty_dict [(KStr "x", VInst ty_int)])).
  { intros i. apply (co_map ones 2); [discriminate|apply en_inline; [apply one_int|constructor]|repeat constructor; intros []]. }
  apply (co_map ones 0); [discriminate| |repeat constructor; cbn; intuition discriminate].
  apply (en_block ones 0 0 "a" "" [TKey 1 2 "x" " 1"]); [apply bare_nil|repeat constructor|apply X|].
  apply (en_block ones 0 2 "b" "" [TKey 4 2 "x" " 1"] _ []); [apply bare_nil|repeat constructor|apply X|constructor].
Qed.
Lemma twins_copy_document E0 : Document ones E0 any twins_copy twins_noted.
Proof.
  split; [apply printable_lines; vm_compute; reflexivity|]. exists twins_copy_tokens. split.
  - apply cs_bare. unfold twins_copy, twins_copy_tokens. key_line 0 false "a" "". key_line 2 false "x" " 1". key_line 0 false "b" "". apply tk_idle; [exists 2, "# second"; split; [reflexivity|right; eexists; reflexivity]|].
    apply (tk_text _ any 4 2 false "___docstring_hidden_key_x" " |" false Single 3 ["   Second."] _ ["  x: 1"]).
    + key_ok.
    + exact header_plain.
    + exists "Second.", [], [], 1. split; [repeat constructor|]. split; [eexists _, _; split; [reflexivity|cbv; lia]|]. split; [constructor|]. split; [discriminate|]. split; [left; split; [right; discriminate|reflexivity]|reflexivity].
    + repeat constructor.
    + cbv; lia.
    + right. exists 2, "x"%char, ": 1". eexists. split; [reflexivity|]. split; [lia|cbv; lia].
    + key_line 2 false "x" " 1". constructor.
  - apply (co_map ones 0); [discriminate| |repeat constructor; cbn; intuition discriminate].
    apply (en_block ones 0 0 "a" "" [TKey 1 2 "x" " 1"]); [apply bare_nil|repeat constructor| |].
    { apply (co_map ones 2); [discriminate|apply en_inline; [apply one_int|constructor]|repeat constructor; intros []]. }
    apply (en_block ones 0 2 "b" "" [TText 4 2 "___docstring_hidden_key_x" ("Second." ++ lf); TKey 6 2 "x" " 1"] _ []); [apply bare_nil|repeat constructor| |constructor].
    apply (co_map ones 2); [discriminate|apply en_text; apply en_inline; [apply one_int|constructor]|repeat constructor; cbn; intuition discriminate].
Qed.
Definition twins_loader (x : string) : exc pyval := if String.eqb x (join nl twins) then Val twins_value else Val twins_noted.
Definition twins_fs : path -> option string := fun p => if path_eqb p ("/etc", "twins.yaml") then Some (join nl twins) else None.
Definition silent (t : exc tree) (x : string) : bool :=
  match t with Val t => match declarations default_strategies t with Some texts => forallb (fun y => negb (contains x y)) texts | None => false end | Raise _ | NoFuel => false end.
Theorem C101_refuted : exists loader text lines y v ts t texts q k i x,
  reads_as ones loader text /\ (forall out, temporary_string y = Val out -> reads_as ones loader out) /\ yaml_init "twins.yaml" (One Above) text = Val y /\ Lines text lines /\
  Forall (fun l => Forall printable (chars l)) lines /\ Contents (terminated text) quiet lines ts /\ Contents False quiet lines ts /\ Collection ones ts v /\ Forall triple_free lines /\ (exists l, In l lines /\ In (char 32) (chars l)) /\ undocumented v /\
  from_yaml loader (built default_strategies as_inserted "Config") "/tmp" (fun p => if path_eqb p ("/etc", "twins.yaml") then Some text else None) ("/etc", "twins.yaml") (Some (One Above)) = Val t /\
  declarations default_strategies t = Some texts /\ line_of ts q k i /\ written lines [Above] i k (Some (x ++ lf)) /\ x <> "" /\ forall d, In d texts -> ~ exists a b, d = a ++ x ++ b.
Proof.
  assert (Ls : Lines (join nl twins) twins) by (replace twins with (splitlines (join nl twins)) at 2 by (vm_compute; reflexivity); apply lines_of).
  assert (Lc : Lines (join nl twins_copy) twins_copy) by (replace twins_copy with (splitlines (join nl twins_copy)) at 2 by (vm_compute; reflexivity); apply lines_of).
  assert (P : Forall (fun l => Forall printable (chars l)) twins) by (apply printable_lines; vm_compute; reflexivity).
  assert (D : Document ones (terminated (join nl twins)) quiet twins twins_value) by (split; [exact P|exists twins_tokens; split; [apply cs_bare, twins_read|exact twins_means]]).
  assert (Eo : temporary_string (Yaml "twins.yaml" twins [Above]) = Val (join nl twins_copy)) by (vm_compute; reflexivity).
  assert (M : silent (from_yaml twins_loader (built default_strategies as_inserted "Config") "/tmp" twins_fs ("/etc", "twins.yaml") (Some (One Above))) "Second." = true) by (vm_compute; reflexivity).
  unfold silent in M. destruct (from_yaml twins_loader (built default_strategies as_inserted "Config") "/tmp" twins_fs ("/etc", "twins.yaml") (Some (One Above))) as [t| |] eqn:Et; [|discriminate M|discriminate M].
  destruct (declarations default_strategies t) as [texts|] eqn:Dt; [|discriminate M].
  exists twins_loader, (join nl twins), twins, (Yaml "twins.yaml" twins [Above]), twins_value, twins_tokens, t, texts, ["b"], "x", 4, "Second.".
  split. { intros ls w L Dw. unfold twins_loader. rewrite String.eqb_refl. f_equal. rewrite (Lines_splitlines _ _ L), <- (Lines_splitlines _ _ Ls) in Dw. apply (C99_one_reading ones ones_one ones_bare (terminated (join nl twins)) twins); auto. eapply document_any, D. }
  split. { intros out Z ls w L Dw. assert (Z' : out = join nl twins_copy) by congruence. subst out. unfold twins_loader. assert (N : String.eqb (join nl twins_copy) (join nl twins) = false) by (vm_compute; reflexivity). rewrite N. f_equal.
    rewrite (Lines_splitlines _ _ L), <- (Lines_splitlines _ _ Lc) in Dw. apply (C99_one_reading ones ones_one ones_bare (terminated (join nl twins_copy)) twins_copy); auto. apply twins_copy_document. }
  split; [vm_compute; reflexivity|]. split; [exact Ls|]. split; [exact P|]. split; [apply cs_bare, twins_read|]. split; [apply cs_bare, twins_read|]. split; [exact twins_means|].
  split; [apply no_quotes_free; vm_compute; reflexivity|]. split; [exists "  x: 1"; split; [right; left; reflexivity|left; reflexivity]|]. split; [apply undocumentedb_spec; vm_compute; reflexivity|].
  split; [exact Et|]. split; [exact Dt|]. split.
  { apply (lo_in 0 2 "b" "" [TKey 0 0 "a" ""; TKey 1 2 "x" " 1"] [TKey 4 2 "x" " 1"] []); [eexists _, _; split; reflexivity|repeat constructor|now left|].
    apply (lo_here 2 4 "x" (TKey 4 2 "x" " 1")); [eexists _, _; split; reflexivity|now left|repeat split]. }
  split.
  { exists "  x: 1". split; [reflexivity|]. right. split; [intros (n & r & E); do 3 (destruct n as [|n]; [discriminate E|]); discriminate E|].
    exists ["Second."]. split; [constructor; [apply comment_found; [reflexivity|vm_compute; reflexivity]|constructor]|right; split; [discriminate|reflexivity]]. }
  split; [discriminate|]. intros d Hd F. rewrite forallb_forall in M. specialize (M d Hd). apply negb_true_iff in M. apply contains_spec in F. congruence.
Qed.
Print Assumptions C101_refuted.
