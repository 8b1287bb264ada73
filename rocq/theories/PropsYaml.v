(** Property theorems about YAML files with comments. *)
From Coq Require Import Ascii String List Bool Arith ZArith Lia.
From Verif Require Import PyStr PyStrFacts Exc Yaml SpecNames SpecText SpecImports SpecYaml SmallFacts
  YamlFacts YamlLines YamlComments YamlWords YamlMore YamlEntries YamlLoad YamlLoadFacts.
Import ListNotations.
Local Open Scope string_scope.
Local Open Scope nat_scope.

Lemma join_Joined sep l : Joined sep l (join sep l).
Proof.
  induction l as [|x l IH]; [constructor|]. destruct l as [|y l]; [constructor|].
  rewrite join_cons by discriminate. now constructor.
Qed.

(** ** C36: the rewritten text consists of the original lines and of entries directly above their keys. *)
Theorem C36_rewriting_keeps_document : forall name arg text y out,
  yaml_init name arg text = Val y -> temporary_string y = Val out ->
  exists new, Rewritten (splitlines text) new /\ Joined newline new out.
Proof.
  intros name arg text y out Hy Ht. unfold temporary_string in Ht. apply andthen_Val in Ht as (new & Hr & E).
  apply Val_inj in E. subst out. exists new. split; [|apply join_Joined].
  assert (Ey : y_lines y = splitlines text).
  { unfold yaml_init in Hy. destruct (_ && _); [discriminate|]. destruct (negb _); [discriminate|]. apply Val_inj in Hy. now subst y. }
  rewrite <- Ey. now apply rewritten_lines_spec.
Qed.
Print Assumptions C36_rewriting_keeps_document.

Definition c36_text : string :=
  "  # Names of people" ++ nl ++ "- name: Joan  # first one" ++ nl ++ "  age: 3" ++ nl ++ "- other: [1]".
Example C36_example :
  andthen (yaml_init "people.yaml" (Many [Above; Side]) c36_text) temporary_string =
  Val ("  # Names of people" ++ nl ++ "- ___docstring_hidden_key_name: |" ++ nl ++
       "   Names of people." ++ nl ++ "   " ++ nl ++ "   first one." ++ nl ++
       "  name: Joan  # first one" ++ nl ++ "  age: 3" ++ nl ++ "- other: [1]").
Proof. vm_compute. reflexivity. Qed.

(** ** C56: every comment gets its entry.
    In a file indented with spaces, for every line "<spaces>[- ]key: rest" whose key is a plain word: the
    comments found at the chosen positions, in the order of the positions, are the text of a block scalar
    directly above the line; the entry takes over the list dash, in its column; without a comment the line
    is unchanged; everything above and below is a rewriting of the lines above and below. *)
Theorem C56_every_comment_gets_its_entry : forall y out idx n dash key rest,
  rewritten_lines y = Val out ->
  (exists l, In l (y_lines y) /\ In (char 32) (chars l)) ->
  (forall l, In l (y_lines y) -> ~ In (char 9) (chars l)) ->
  plain_key key ->
  nth_error (y_lines y) idx = Some (plain_line n dash key rest) ->
  exists texts before after,
    Forall2 (fun p s => comment_at (y_lines y) idx (plain_line n dash key rest) p = Val s) (y_positions y) texts /\
    Rewritten (firstn idx (y_lines y)) before /\ Rewritten (skipn (S idx) (y_lines y)) after /\
    out = (before ++ with_entry n dash key rest (filter (fun s => negb (is_empty s)) texts) ++ after)%list.
Proof. exact plain_line_entry. Qed.
Print Assumptions C56_every_comment_gets_its_entry.

Example C56_example : plain_key "name" /\
  nth_error (splitlines c36_text) 1 = Some (plain_line 0 true "name" " Joan  # first one") /\
  with_entry 0 true "name" " Joan  # first one" ["Names of people."; "first one."] =
    ["- ___docstring_hidden_key_name: |" ++ nl ++ "   Names of people." ++ nl ++ "   " ++ nl ++ "   first one.";
     "  name: Joan  # first one"].
Proof.
  split; [|split; vm_compute; reflexivity]. split.
  - exists "n"%char, "ame". split; [auto|]. right. vm_compute. split; repeat constructor.
  - repeat constructor; vm_compute; intuition congruence.
Qed.

(** ** C58: the list dash keeps its column.
    Refuted: with more than one space after the dash it moves to the right.  (With one space: C56.) *)
Theorem C58_dash_column_refuted : exists y out,
  y_lines y = ["-   key: v  # c"] /\ rewritten_lines y = Val out /\
  out = ["  - ___docstring_hidden_key_key: |" ++ nl ++ "     c."; "    key: v  # c"].
Proof. exists (Yaml "a.yaml" ["-   key: v  # c"] [Side]). eexists. split; [reflexivity|]. split; vm_compute; reflexivity. Qed.
Print Assumptions C58_dash_column_refuted.
Theorem C58_dash_column_partial : forall y out idx n key rest,
  rewritten_lines y = Val out ->
  (exists l, In l (y_lines y) /\ In (char 32) (chars l)) ->
  (forall l, In l (y_lines y) -> ~ In (char 9) (chars l)) ->
  plain_key key ->
  nth_error (y_lines y) idx = Some (spaces n ++ "- " ++ key ++ ":" ++ rest) ->
  exists before after, Rewritten (firstn idx (y_lines y)) before /\ Rewritten (skipn (S idx) (y_lines y)) after /\
    (out = (before ++ [spaces n ++ "- " ++ key ++ ":" ++ rest]%string ++ after)%list \/
     exists e, out = (before ++ [spaces n ++ "- " ++ e; spaces n ++ "  " ++ key ++ ":" ++ rest]%string ++ after)%list).
Proof.
  intros y out idx n key rest H SP NT PK N.
  destruct (plain_line_entry y out idx n true key rest H SP NT PK N) as (texts & before & after & _ & R1 & R2 & E).
  exists before, after. split; [auto|]. split; [auto|]. unfold with_entry in E.
  destruct (filter _ texts) as [|d ds]; [left; exact E|right]. eexists. exact E.
Qed.
Print Assumptions C58_dash_column_partial.

(** ** C37: files without recognised comments.
    Full claim: nothing is changed.  The text is put together again with line feeds, so what is unchanged is
    the list of lines (a final line feed and other line separators are lost).
    Refuted for files without any [#]: a line that consists of a dash only makes the rewriting fail. *)
Theorem C37_no_comments_partial : forall y,
  (Forall (fun l => ~ In (char 35) (chars l)) (y_lines y) /\ Forall (fun l => ~ Trimmed l "-") (y_lines y)) \/
  ((exists l, In l (y_lines y) /\ In (char 9) (chars l)) /\ (exists l, In l (y_lines y) /\ In (char 32) (chars l))) \/
  extract_comments y = Val [] ->
  exists out, temporary_string y = Val out /\ Joined newline (y_lines y) out.
Proof.
  intros y H. exists (join nl (y_lines y)). split; [|apply join_Joined].
  destruct H as [[H1 H2]|[[H1 H2]|H]]; [now apply no_hash_unchanged| |now apply no_comments].
  apply no_comments. unfold extract_comments.
  destruct (detect_spec (y_lines y)) as [_ D]. rewrite D; tauto.
Qed.
Print Assumptions C37_no_comments_partial.
Theorem C37_no_comments_refuted : exists y,
  Forall (fun l => ~ In (char 35) (chars l)) (y_lines y) /\ temporary_string y = Raise IndexError.
Proof.
  exists (Yaml "a.yaml" ["a:"; "-"; "  b: 2"] [Side]). split; [|vm_compute; reflexivity].
  repeat constructor; vm_compute; intuition congruence.
Qed.
Print Assumptions C37_no_comments_refuted.
Example C37_example :
  temporary_string (Yaml "a.yaml" ["a:"; "- b: 2"; "- [1]"] [Side; Above]) = Val ("a:" ++ nl ++ "- b: 2" ++ nl ++ "- [1]") /\
  temporary_string (Yaml "a.yaml" ["a: 1  # x"; String (char 9) "b: 2"] [Side]) =
    Val ("a: 1  # x" ++ nl ++ String (char 9) "b: 2").
Proof. split; vm_compute; reflexivity. Qed.

(** ** C38: which files and positions are accepted. *)
Theorem C38_positions : forall name arg text,
  (In Above (positions_of arg) /\ In Below (positions_of arg) \/ ~ yaml_name name ->
   yaml_init name arg text = Raise YamlError) /\
  (~ (In Above (positions_of arg) /\ In Below (positions_of arg)) -> yaml_name name ->
   yaml_init name arg text = Val (Yaml name (splitlines text) (positions_of arg))).
Proof. exact yaml_init_spec. Qed.
Print Assumptions C38_positions.
Example C38_example :
  yaml_name "a.b.yml" /\ yaml_init "a.b.yml" (Many [Side; Above]) "k: 1" = Val (Yaml "a.b.yml" ["k: 1"] [Side; Above]) /\
  yaml_init ".yaml" (One Side) "" = Raise YamlError /\ yaml_init "a.yaml.bak" (One Side) "" = Raise YamlError /\
  yaml_init "a.yaml" (Many [Above; Side; Below]) "" = Raise YamlError.
Proof. split; [exists "a.b"; split; [discriminate|auto]|]. repeat split; vm_compute; reflexivity. Qed.

(** ** C39: quote-aware search.
    Full claim: [find_unquoted c line] is the index of the first [c] outside of quotes, None if there is none.
    For all lines it is the first [c] with an even number of quote characters before it ([C39_all_lines]).
    That is the claim for lines in which no quoted scalar contains the other quote character
    ([simple_quotes]), in particular for lines with one kind of quotes; refuted for an apostrophe inside
    double quotes. *)
Theorem C39_all_lines : forall c line, ~ quote c ->
  (forall i, find_unquoted c line = Some i <-> first_even c line i) /\
  (find_unquoted c line = None <-> forall a b, line = a ++ String c b -> ~ even_quotes a).
Proof. intros c line. exact (find_unquoted_exact c line). Qed.
Print Assumptions C39_all_lines.
Theorem C39_search_partial : forall c line, ~ quote c -> simple_quotes line ->
  (forall i, find_unquoted c line = Some i <-> first_outside c line i) /\
  (find_unquoted c line = None <-> forall a b, line = a ++ String c b -> ~ outside a).
Proof. exact find_unquoted_simple. Qed.
Print Assumptions C39_search_partial.
Theorem C39_one_kind_partial : forall c line, ~ quote c ->
  (forall a b, In a (chars line) -> In b (chars line) -> quote a -> quote b -> a = b) ->
  (forall i, find_unquoted c line = Some i <-> first_outside c line i) /\
  (find_unquoted c line = None <-> forall a b, line = a ++ String c b -> ~ outside a).
Proof. intros c line N K. apply find_unquoted_simple; auto. now apply one_kind_simple. Qed.
Print Assumptions C39_one_kind_partial.
Definition c39_line : string := "k: " ++ String (char 34) "it's" ++ String (char 34) "  # doc".
Theorem C39_search_refuted : exists a b,
  c39_line = a ++ String hash_c b /\ outside a /\ find_unquoted hash_c c39_line = None.
Proof.
  exists ("k: " ++ String (char 34) "it's" ++ String (char 34) "  "), " doc". split; [reflexivity|]. split; [|vm_compute; reflexivity].
  assert (P : forall c r, code c <> 39 -> code c <> 34 -> outside r -> outside (String c r)).
  { intros c r H1 H2 H3. apply outside_plain; [intros [?|?]; auto|auto]. }
  cbn [append]. do 3 (apply P; [vm_compute; discriminate|vm_compute; discriminate|]).
  apply (outside_quoted (char 34) "it's" "  "); [right; reflexivity| |].
  - vm_compute. intuition congruence.
  - do 2 (apply P; [vm_compute; discriminate|vm_compute; discriminate|]). constructor.
Qed.
Print Assumptions C39_search_refuted.
Example C39_both_kinds :
  simple_quotes ("'a': " ++ String (char 34) "b # c" ++ String (char 34) " # doc") /\
  find_unquoted hash_c ("'a': " ++ String (char 34) "b # c" ++ String (char 34) " # doc") = Some 13.
Proof.
  split; [|vm_compute; reflexivity].
  assert (N : forall c, is_quote c = false -> ~ quote c) by (intros c H Q; apply is_quote_spec in Q; congruence).
  assert (W : forall w, str_forall (fun c => negb (is_quote c)) w = true -> forall c, In c (chars w) -> ~ quote c).
  { induction w as [|d w IH]; intros H c; [intros []|]. cbn [str_forall] in H. apply andb_true_iff in H as [H1 H2].
    intros [<-|Hc]; [apply N; now destruct (is_quote d)|exact (IH H2 c Hc)]. }
  apply (simple_scalar (char 39) "a" (": " ++ String (char 34) "b # c" ++ String (char 34) " # doc")); [left; reflexivity|now apply W|].
  do 2 (apply simple_plain; [now apply N|]).
  apply (simple_scalar (char 34) "b # c" " # doc"); [right; reflexivity|now apply W|].
  repeat (apply simple_plain; [now apply N|]). apply simple_nil.
Qed.
Example C39_example : find_unquoted hash_c ("k: " ++ String (char 34) "a # b" ++ String (char 34) "  # doc") = Some 12.
Proof. vm_compute. reflexivity. Qed.

(** ** C40: block comments belong to the adjacent key.
    [block_above]/[block_below]: the maximal run of lines directly above/below with a [#] in the key's column.
    For "above": proved unless the comment lines reach the first line of the file and the last line of the
    file has a [#] in the same column as well (the search then continues at the end of the file). *)
Lemma colon_of_comment lines idx line p s : nth_error lines idx = Some line -> p <> Side ->
  comment_at lines idx line p = Val s -> s <> "" -> has_colon line /\ exists col, key_column line col.
Proof.
  intros N P H NE.
  assert (B : exists above c, block_comment lines idx above = Val c /\ c <> "").
  { destruct p; [| |congruence]; unfold comment_at in H; apply andthen_Val in H as (c & Hc & E); apply Val_inj in E;
      [exists true, c|exists false, c]; split; auto; intros ->; apply NE; now rewrite <- E. }
  destruct B as (above & c & B & Bne). unfold block_comment in B. rewrite N in B.
  destruct (truthy_cases line) as [T|T]; [rewrite T in B; apply Val_inj in B; congruence|]. split; [auto|].
  destruct T as (i & Hi). rewrite Hi in B. cbn [truthy_index] in B.
  destruct (strip (remove_char dash_c (strip line))) as [|d r] eqn:Es; [discriminate|].
  destruct (key_column_found _ _ _ Es) as (a & b & _ & _ & K). eauto.
Qed.
Theorem C40_block_below : forall lines idx line s,
  nth_error lines idx = Some line -> comment_at lines idx line Below = Val s -> s <> "" ->
  exists col block texts, key_column line col /\ block_below lines idx col block texts /\ Doc texts s.
Proof.
  intros lines idx line s N H NE. destruct (colon_of_comment _ _ _ Below _ N ltac:(discriminate) H NE) as [C (col & K)].
  destruct (comment_below _ _ _ _ _ N C K H) as (block & texts & B & D). exists col, block, texts. auto.
Qed.
Print Assumptions C40_block_below.
Theorem C40_block_above_partial : forall lines idx line s,
  nth_error lines idx = Some line -> comment_at lines idx line Above = Val s -> s <> "" ->
  (forall col, key_column line col ->
     (exists l, In l (firstn idx lines) /\ forall t, ~ hash_at col l t) \/
     (forall l t, nth_error lines (List.length lines - 1) = Some l -> ~ hash_at col l t)) ->
  exists col block texts, key_column line col /\ block_above lines idx col block texts /\ Doc texts s.
Proof.
  intros lines idx line s N H NE W. destruct (colon_of_comment _ _ _ Above _ N ltac:(discriminate) H NE) as [C (col & K)].
  destruct (comment_above _ _ _ _ _ N C K (W _ K) H) as (block & texts & B & D). exists col, block, texts. auto.
Qed.
Print Assumptions C40_block_above_partial.
(** Nothing is missed: a key whose colon is outside quotes gets the comment of its block. *)
Theorem C40_block_found_partial : forall lines idx line col i,
  nth_error lines idx = Some line -> first_outside (char 58) line (S i) -> key_column line col ->
  simple_quotes line ->
  (exists s block texts, comment_at lines idx line Below = Val s /\ block_below lines idx col block texts /\ Doc texts s) /\
  ((exists l, In l (firstn idx lines) /\ forall t, ~ hash_at col l t) \/
   (forall l t, nth_error lines (List.length lines - 1) = Some l -> ~ hash_at col l t) ->
   exists s block texts, comment_at lines idx line Above = Val s /\ block_above lines idx col block texts /\ Doc texts s).
Proof.
  intros lines idx line col i N F K O.
  assert (C : has_colon line).
  { exists i. apply find_unquoted_simple; auto. intros [Q|Q]; vm_compute in Q; discriminate. }
  split; [|intros W].
  - destruct (comment_at_Val lines idx line Below) as (s & Hs).
    destruct (comment_below _ _ _ _ _ N C K Hs) as (block & texts & B & D). eauto 10.
  - destruct (comment_at_Val lines idx line Above) as (s & Hs).
    destruct (comment_above _ _ _ _ _ N C K W Hs) as (block & texts & B & D). eauto 10.
Qed.
Print Assumptions C40_block_found_partial.
(** The comment above contains text from below. *)
Theorem C40_block_above_refuted : exists lines idx line s,
  nth_error lines idx = Some line /\ comment_at lines idx line Above = Val s /\
  (exists a b, s = a ++ "railing" ++ b) /\
  forall l, In l (firstn idx lines) -> forall a b, l <> a ++ "railing" ++ b.
Proof.
  exists ["# c"; "key: v"; "# trailing"], 1, "key: v", "Trailing c.". split; [reflexivity|]. split; [vm_compute; reflexivity|].
  split; [exists "T", " c."; reflexivity|]. intros l [<-|[]] a b E.
  assert (L : String.length "# c" = String.length (a ++ "railing" ++ b)) by now rewrite E.
  rewrite !length_app_s in L. simpl in L. lia.
Qed.
Print Assumptions C40_block_above_refuted.
(** The side comment of the previous line is taken for a comment above when it stands in the key's column. *)
Theorem C40_other_side_comment_refuted : exists lines idx line s,
  nth_error lines idx = Some line /\ comment_at lines idx line Above = Val s /\ s <> "" /\
  firstn idx lines = ["a: # top"] /\ comment_at lines 0 "a: # top" Side = Val "top.".
Proof. exists ["a: # top"; "   b: 1"], 1, "   b: 1", "Top.". repeat split; try discriminate; vm_compute; reflexivity. Qed.
Print Assumptions C40_other_side_comment_refuted.
Example C40_example :
  comment_at ["x: 1"; "# one"; "# two. Three"; "key: v"] 3 "key: v" Above = Val "One two. Three." /\
  key_column "key: v" 0 /\ exists l, In l (firstn 3 ["x: 1"; "# one"; "# two. Three"; "key: v"]) /\ forall t, ~ hash_at 0 l t.
Proof.
  split; [vm_compute; reflexivity|]. split.
  - exists "", "k"%char, "ey: v". split; [reflexivity|]. split; [reflexivity|]. split; [constructor|].
    split; [vm_compute; intuition congruence|vm_compute; discriminate].
  - exists "x: 1". split; [simpl; auto|]. intros t (a & b & E & L & _). destruct a; [|discriminate]. discriminate.
Qed.

(** ** C43: the text of a block comment ([Doc] in SpecYaml.v).
    The period part holds always, the words are kept unless a line has three quotes in a row. *)
Theorem C43_comment_text_partial : forall texts,
  Forall (fun t => Trimmed t t) texts ->
  let s := capitalize_first (replace tq "" (replace sq3 "" (join_comments texts))) in
  (s = "" \/ exists u, s = u ++ ".") /\
  (Forall triple_free texts ->
   exists wss ws, Forall2 Words texts wss /\ Words s ws /\ Forall2 kept (List.concat wss) ws).
Proof.
  intros texts F. apply docstring_Doc. eapply Forall_impl; [|exact F]. intros t (a & b & E & _ & _ & T1 & T2).
  assert (W : forall c, ~ white c -> is_space c = false).
  { intros c Hc. destruct (is_space c) eqn:E2; auto. apply DocstringFacts.is_space_white in E2. contradiction. }
  destruct T1 as [->|(c & r & E1 & H1)]; [left; auto|]. destruct T2 as [->|(r2 & c2 & E2 & H2)]; [left; auto|]. right. split; eauto 6.
Qed.
Print Assumptions C43_comment_text_partial.
Theorem C43_comment_text_refuted : exists texts,
  Forall (fun t => Trimmed t t) texts /\
  capitalize_first (replace tq "" (replace sq3 "" (join_comments texts))) = "Use  for this." /\
  texts = ["use ''' for this"].
Proof.
  exists ["use ''' for this"]. split; [|split; [vm_compute; reflexivity|reflexivity]].
  constructor; [|constructor]. exact (strip_Trimmed "use ''' for this").
Qed.
Print Assumptions C43_comment_text_refuted.
Example C43_example :
  Forall triple_free ["first line"; ""; "second. third"; "Fourth"] /\
  capitalize_first (replace tq "" (replace sq3 "" (join_comments ["first line"; ""; "second. third"; "Fourth"])))
    = "First line" ++ nl ++ nl ++ "Second. third. Fourth.".
Proof.
  split; [|vm_compute; reflexivity].
  assert (Q : forall l, str_forall (fun c => negb (is_quote c)) l = true -> triple_free l).
  { intros l H q a b Hq E. subst l. rewrite str_forall_app in H. apply andb_true_iff in H as [_ H]. cbn [str_forall] in H.
    apply is_quote_spec in Hq. rewrite Hq in H. discriminate. }
  repeat constructor; apply Q; vm_compute; reflexivity.
Qed.

(** ** C57: side comments.
    Full claim: the text after the first [#] that is outside of quotes and preceded by a space.  The code looks at
    the first [#] with an even number of quote characters before it and takes its text if a space precedes it;
    this is [C57_all_lines].  It is the claim for lines with [simple_quotes] whose first [#] outside of quotes
    follows a space ([C57_side_comment_partial]). *)
Lemma last_of_string : forall a i, String.length a = S i -> exists b c, a = b ++ String c "" /\ String.length b = i.
Proof.
  induction a as [|c a IH]; intros i L; [discriminate|]. destruct a as [|d a].
  - exists "", c. split; [reflexivity|]. simpl in *. lia.
  - simpl in L. destruct i as [|i]; [lia|]. destruct (IH i) as (b & e & E & Lb); [simpl; lia|].
    exists (String c b), e. rewrite E. split; [reflexivity|simpl; lia].
Qed.
Lemma hash_no_quote : ~ quote (char 35).
Proof. intros [Q|Q]; vm_compute in Q; discriminate. Qed.
Theorem C57_all_lines : forall lines idx line,
  (forall a b, line = a ++ " #" ++ b -> first_even (char 35) line (S (String.length a)) ->
     exists t, Trimmed b t /\
       comment_at lines idx line Side = Val (if String.eqb t "" then "" else if endswith "." t then t else t ++ ".")) /\
  ((forall a b, line = a ++ " #" ++ b -> ~ first_even (char 35) line (S (String.length a))) ->
   comment_at lines idx line Side = Val "").
Proof.
  intros lines idx line. destruct (find_unquoted_exact (char 35) line hash_no_quote) as [F1 F2]. split.
  - intros a b E F. apply F1 in F. exists (strip b). split; [apply strip_Trimmed|]. unfold comment_at. f_equal.
    rewrite (side_comment_spec line (String.length a) a b F E eq_refl). cbv zeta. destruct (strip b); reflexivity.
  - intros F. unfold comment_at, side_comment. change hash_c with (char 35).
    destruct (find_unquoted (char 35) line) as [[|i]|]; try reflexivity. assert (Q := proj1 (F1 (S i)) eq_refl). cbn [truthy_index].
    replace (S i - 1) with i by lia. assert (Q' := Q). destruct Q' as (a & b & E & L & _).
    destruct (last_of_string a i L) as (a' & c & -> & L'). rewrite app_assoc_s in E.
    assert (N : str_nth line i = Some c) by (rewrite E, <- L'; apply str_nth_app). rewrite N.
    destruct (Ascii.eqb c space_c) eqn:C; [|reflexivity]. apply Ascii.eqb_eq in C. subst c. exfalso.
    apply (F a' b E). now rewrite L'.
Qed.
Print Assumptions C57_all_lines.
Theorem C57_side_comment_partial : forall lines idx line, simple_quotes line ->
  (forall a b, line = a ++ " #" ++ b -> first_outside (char 35) line (S (String.length a)) ->
     exists t, Trimmed b t /\
       comment_at lines idx line Side = Val (if String.eqb t "" then "" else if endswith "." t then t else t ++ ".")) /\
  ((forall a b, line = a ++ " #" ++ b -> ~ first_outside (char 35) line (S (String.length a))) ->
   comment_at lines idx line Side = Val "").
Proof.
  intros lines idx line K. destruct (C57_all_lines lines idx line) as [A B]. split.
  - intros a b E F. apply (A a b E). now apply simple_first.
  - intros F. apply B. intros a b E G. apply (F a b E). now apply simple_first.
Qed.
Print Assumptions C57_side_comment_partial.
(** A [#] inside of a plain value hides the comment. *)
Theorem C57_side_comment_refuted : exists line a b, line = a ++ " #" ++ b /\ outside (a ++ " ") /\
  (forall a' b', line = a' ++ " #" ++ b' -> String.length a <= String.length a') /\ Trimmed b "the colour" /\
  forall lines idx, comment_at lines idx line Side = Val "".
Proof.
  exists "key: a#b # the colour", "key: a#b", " the colour". split; [reflexivity|]. split; [|split; [|split]].
  - cbn [append]. repeat (apply outside_plain; [intros [Q|Q]; vm_compute in Q; discriminate|]). apply outside_nil.
  - intros a' b' E. change (String.length "key: a#b") with 8.
    do 8 (destruct a' as [|? a']; [discriminate|injection E as <- E]). simpl. lia.
  - exact (strip_Trimmed " the colour").
  - intros lines idx. vm_compute. reflexivity.
Qed.
Print Assumptions C57_side_comment_refuted.
Example C57_example :
  comment_at [] 0 "key: 'a # b'  #  the value " Side = Val "the value." /\ comment_at [] 0 "key: a#b" Side = Val "".
Proof. split; vm_compute; reflexivity. Qed.

(** ** C41: from_yaml_file falls back to the data without comments.
    Full claim: hints whenever the loader can read the original file.  Proved for accepted names and
    positions, whatever the loader and from_data do with the rewritten file.  The result is the hints of
    the original data or those of the rewritten text. *)
Theorem C41_fallback_partial : forall (V H : Type) (loader : string -> exc V) (from_data : V -> exc H) tempdir fs p arg text v h,
  fs p = Some text -> loader text = Val v -> from_data v = Val h ->
  (forall a, arg = Some a -> ~ (In Above (positions_of a) /\ In Below (positions_of a)) /\ yaml_name (snd p)) ->
  (forall t, loader t <> NoFuel) -> (forall w, from_data w <> NoFuel) ->
  exists h', from_yaml loader from_data tempdir fs p arg = Val h' /\
    (h' = h \/ exists a text' v', arg = Some a /\
       temporary_string (Yaml (snd p) (splitlines text) (positions_of a)) = Val text' /\
       loader text' = Val v' /\ from_data v' = Val h').
Proof. intros. eapply from_yaml_falls_back; eauto. Qed.
Print Assumptions C41_fallback_partial.
Theorem C41_fallback_refuted : forall (V H : Type) (loader : string -> exc V) (from_data : V -> exc H) tempdir text,
  from_yaml loader from_data tempdir (fun _ => Some text) ("dir", "config") (Some (One Side)) = Raise YamlError.
Proof. reflexivity. Qed.
Print Assumptions C41_fallback_refuted.
(** A loader that rejects every text with a documentation key; the list item "-" makes the rewriting fail. *)
Example C41_example :
  let loader t := if contains "___docstring" t then Raise ValueError else Val t in
  from_yaml loader (@Val string) "/tmp" (fun _ => Some "a: 1  # x") ("dir", "a.yaml") (Some (One Side)) = Val "a: 1  # x" /\
  from_yaml (@Val string) (@Val string) "/tmp" (fun _ => Some ("-" ++ nl ++ "  a: 1  # x")) ("dir", "a.yaml") (Some (One Side))
    = Val ("-" ++ nl ++ "  a: 1  # x").
Proof. split; vm_compute; reflexivity. Qed.

(** ** C42: concurrent calls.
    Full claim: two callers each get the hints of their own file, for every schedule of their file accesses.
    Proved when the two temporary files differ and neither original is the other's temporary file. *)
Theorem C42_concurrent_partial : forall (V H : Type) (loader : string -> exc V) (from_data : V -> exc H) tempdir
    p1 p2 a1 a2 sched fs s1 s2 fs',
  (forall t, loader t <> NoFuel) -> (forall w, from_data w <> NoFuel) ->
  snd p1 <> snd p2 -> (tempdir, "_" ++ snd p1) <> p2 -> (tempdir, "_" ++ snd p2) <> p1 ->
  run2 loader from_data tempdir p1 p2 a1 a2 sched Start Start fs = (s1, s2, fs') ->
  (forall r, s1 = Done r -> r = from_yaml loader from_data tempdir fs p1 (Some a1)) /\
  (forall r, s2 = Done r -> r = from_yaml loader from_data tempdir fs p2 (Some a2)) /\
  (5 <= count_occ bool_dec sched true -> exists r, s1 = Done r) /\
  (5 <= count_occ bool_dec sched false -> exists r, s2 = Done r).
Proof.
  intros V H loader from_data tempdir p1 p2 a1 a2 sched fs s1 s2 fs' F1 F2 N1 N2 N3 E.
  eapply concurrent_loads; eauto. unfold temp_path. intros Q. injection Q as Q. contradiction.
Qed.
Print Assumptions C42_concurrent_partial.
Definition c42_files : files := fun p => if String.eqb (fst p) "d1" then Some "a: 1  # x" else Some "b: 2  # y".
(** Two files of the same name in different directories: the first caller gets the hints of the second file. *)
Theorem C42_concurrent_refuted : exists sched s2 fs',
  run2 (@Val string) (@Val string) "/tmp" ("d1", "c.yaml") ("d2", "c.yaml") (One Side) (One Side) sched Start Start c42_files
    = (Done (from_yaml (@Val string) (@Val string) "/tmp" c42_files ("d2", "c.yaml") (Some (One Side))), s2, fs') /\
  from_yaml (@Val string) (@Val string) "/tmp" c42_files ("d2", "c.yaml") (Some (One Side)) <>
  from_yaml (@Val string) (@Val string) "/tmp" c42_files ("d1", "c.yaml") (Some (One Side)).
Proof.
  exists [true; true; true; true; false; false; false; false; true]. eexists _, _.
  split; [reflexivity|]. vm_compute. discriminate.
Qed.
Print Assumptions C42_concurrent_refuted.
(** The same file loaded twice at the same time: one caller reads the file the other has just truncated. *)
Theorem C42_same_file_refuted : exists sched s2 fs',
  run2 (@Val string) (@Val string) "/tmp" ("d1", "c.yaml") ("d1", "c.yaml") (One Side) (One Side) sched Start Start c42_files
    = (Done (Val ""), s2, fs').
Proof. exists [true; true; true; true; false; false; false; true]. eexists _, _. reflexivity. Qed.
Print Assumptions C42_same_file_refuted.
Example C42_example : exists fs',
  run2 (@Val string) (@Val string) "/tmp" ("d1", "c.yaml") ("d2", "e.yaml") (One Side) (One Side)
    [true; false; true; false; true; false; true; false; false; true] Start Start c42_files
  = (Done (Val ("___docstring_hidden_key_a: |" ++ nl ++ " x." ++ nl ++ "a: 1  # x")),
     Done (Val ("___docstring_hidden_key_b: |" ++ nl ++ " y." ++ nl ++ "b: 2  # y")), fs').
Proof. eexists. reflexivity. Qed.
