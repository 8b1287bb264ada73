(** The lines of the temporary copy, and the entries as lines of their own. *)
From Coq Require Import Ascii String List Bool Arith ZArith Lia Sorted.
From Verif Require Import PyStr PyStrFacts Exc Yaml SpecNames SpecText SpecImports NamesFacts DocstringFacts SpecYaml
  YamlFacts YamlLines YamlComments YamlWords YamlMore YamlEntries.
Import ListNotations.
Local Open Scope string_scope.
Local Open Scope nat_scope.

(** Keys that begin with a letter or an underscore; lines with keys that begin with an underscore are only looked at behind a dash. *)
Definition doc_key_name (key : string) : Prop :=
  (exists c r, key = String c r /\ (letter c \/ code c = 95)) /\
  Forall (fun c => c <> char 9 /\ ~ quote c /\ c <> char 58) (chars key).
Definition looked_at (dash : bool) (key : string) : Prop := dash = true \/ exists c r, key = String c r /\ letter c.
Lemma starter_facts c : letter c \/ code c = 95 -> is_space c = false /\ is_indent (dash_to_space c) = false.
Proof.
  intros [H|H]; [destruct (letter_alpha c H) as (_ & A & _ & B); auto|].
  assert (G : implb (Nat.eqb (code c) 95) (negb (is_space c) && negb (is_indent (dash_to_space c))) = true) by by_chars c.
  rewrite H in G. cbn in G. rewrite andb_true_iff, !negb_true_iff in G. exact G.
Qed.
Lemma find_unquoted_any key rest : Forall (fun c => c <> char 9 /\ ~ quote c /\ c <> char 58) (chars key) ->
  find_unquoted colon_c (key ++ ":" ++ rest) = Some (String.length key).
Proof.
  intros F. unfold find_unquoted. assert (G : forall i, find_unquoted_aux colon_c false i (key ++ ":" ++ rest) = Some (i + String.length key)); [|apply (G 0)].
  induction key as [|d key IH]; intros i.
  - cbn [append find_unquoted_aux]. simpl. f_equal. lia.
  - inversion F as [|? ? (F1 & F2 & F3) F4]; subst. cbn [append find_unquoted_aux].
    destruct (is_quote d) eqn:Q; [apply is_quote_spec in Q; contradiction|].
    destruct (Ascii.eqb d colon_c) eqn:K; [apply Ascii.eqb_eq in K; contradiction|]. simpl. rewrite (IH F4). f_equal. lia.
Qed.
Lemma key_of_plain_any n key rest : doc_key_name key -> (exists c r, key = String c r /\ letter c) -> ~ In (char 9) (chars rest) ->
  key_of_line (spaces n ++ key ++ ":" ++ rest) = Val key.
Proof.
  intros [_ F] (c & r & Ek & Hl) T. destruct (letter_alpha _ Hl) as (A & S & D & _).
  assert (NT : ~ In (char 9) (chars (spaces n ++ key ++ ":" ++ rest))).
  { rewrite !chars_app, !in_app_iff. intros [H|[H|[[H|[]]|H]]]; auto.
    - assert (G := spaces_forall (fun d => negb (Ascii.eqb d (char 9))) n eq_refl). apply Forall_chars in G.
      rewrite Forall_forall in G. specialize (G _ H). discriminate.
    - rewrite Forall_forall in F. destruct (F _ H) as [W _]. now apply W.
    - discriminate. }
  unfold key_of_line. rewrite remove_spacing_no_tab by auto. rewrite Ek. cbn [append]. rewrite lstrip_spaces by auto. rewrite D.
  set (line := String c (r ++ String ":" rest)).
  destruct (strip line) as [|f fr] eqn:Es.
  { apply strip_by_all in Es. unfold line in Es. cbn [str_forall] in Es. rewrite S in Es. discriminate. }
  destruct (strip_by_head _ _ _ _ Es) as (a & t & E1 & Ha & Hf).
  assert (a = "").
  { destruct a as [|x a]; [auto|]. unfold line in E1. cbn [append] in E1. injection E1 as <- _. cbn [str_forall] in Ha. rewrite S in Ha. discriminate. }
  subst a. cbn [append] in E1. unfold line in E1. injection E1 as <- _.
  assert (Ff : find_str (String c "") line = Some 0) by (apply (find_char_app c "" _ eq_refl)).
  rewrite Ff. cbv zeta.
  assert (Fc : find_unquoted colon_c line = Some (String.length key)).
  { unfold line. change (String c (r ++ String ":" rest)) with (String c r ++ ":" ++ rest). rewrite <- Ek. now apply find_unquoted_any. }
  rewrite Fc, Ek. cbn [String.length truthy_index].
  assert (Tk : take (Datatypes.S (String.length r)) line = String c r).
  { unfold line. apply (take_app (String c r) (String ":" rest)). }
  rewrite Tk. cbn [drop].
  assert (Q : is_quote c = false).
  { destruct (is_quote c) eqn:Q; auto. apply is_quote_spec in Q. subst key. inversion F as [|? ? (_ & ? & _) _]. contradiction. }
  unfold is_quote in Q. apply orb_false_iff in Q as [Q1 Q2].
  assert (W1 : startswith dq (String c r) = false).
  { destruct (startswith dq (String c r)) eqn:Q; auto. apply startswith_spec in Q as (x & Q). injection Q as Q _. subst c. discriminate. }
  assert (W2 : startswith (String squote_c "") (String c r) = false).
  { destruct (startswith (String squote_c "") (String c r)) eqn:Q; auto. apply startswith_spec in Q as (x & Q). injection Q as Q _. subst c. discriminate. }
  rewrite W1, W2. reflexivity.
Qed.
Lemma key_of_dash_any n key rest : doc_key_name key -> ~ In (char 9) (chars rest) ->
  key_of_line (spaces n ++ "- " ++ key ++ ":" ++ rest) = Val key.
Proof.
  intros [(c & r & Ek & Hl) F] T. destruct (starter_facts _ Hl) as (S & _).
  assert (NT : ~ In (char 9) (chars (spaces n ++ "- " ++ key ++ ":" ++ rest))).
  { rewrite !chars_app, !in_app_iff. intros [H|[[H|[H|[]]]|[H|[[H|[]]|H]]]]; auto; try discriminate.
    - assert (G := spaces_forall (fun d => negb (Ascii.eqb d (char 9))) n eq_refl). apply Forall_chars in G.
      rewrite Forall_forall in G. specialize (G _ H). discriminate.
    - rewrite Forall_forall in F. destruct (F _ H) as [W _]. now apply W. }
  unfold key_of_line. rewrite remove_spacing_no_tab by auto. rewrite Ek. cbn [append].
  rewrite (lstrip_spaces n "-") by reflexivity. change (Ascii.eqb "-" dash_c) with true. cbv iota.
  set (line := String space_c (String " " (String c (r ++ String ":" rest)))).
  destruct (strip line) as [|f fr] eqn:Es.
  { apply strip_by_all in Es. unfold line in Es. cbn [str_forall] in Es. rewrite S in Es. rewrite !andb_false_r in Es. discriminate. }
  destruct (strip_by_head _ _ _ _ Es) as (a & t & E1 & Ha & Hf).
  assert (Ea : a = "  " /\ f = c).
  { unfold line in E1. destruct a as [|x [|x' [|x'' a]]]; cbn [append] in E1.
    - injection E1 as <- _. discriminate.
    - injection E1 as _ <- _. discriminate.
    - injection E1 as <- <- <- _. auto.
    - injection E1 as _ _ <- _. cbn [str_forall] in Ha. rewrite S, !andb_false_r in Ha. discriminate. }
  destruct Ea as [-> ->].
  assert (Ff : find_str (String c "") line = Some 2).
  { apply (find_char_app c "  " (r ++ String ":" rest)). cbn [str_forall].
    assert (Nc : Ascii.eqb c " " = false) by (destruct (Ascii.eqb c " ") eqn:Q; auto; apply Ascii.eqb_eq in Q; subst c; discriminate).
    rewrite Nc. reflexivity. }
  rewrite Ff. cbv zeta.
  assert (Fc : find_unquoted colon_c line = Some (2 + String.length key)).
  { assert (Q := find_unquoted_any key rest F). unfold find_unquoted in *. unfold line. rewrite Ek in Q |- *.
    change (find_unquoted_aux colon_c false 2 (String c r ++ ":" ++ rest) = Some (2 + String.length (String c r))).
    assert (Sh : forall l q i j k, find_unquoted_aux colon_c q i l = Some j -> find_unquoted_aux colon_c q (k + i) l = Some (k + j)).
    { clear. induction l as [|d l IH]; intros q i j k H; cbn [find_unquoted_aux] in *; [discriminate|].
      destruct (is_quote d); [rewrite plus_n_Sm; auto|]. destruct (Ascii.eqb d colon_c && negb q); [congruence|]. rewrite plus_n_Sm. auto. }
    apply (Sh _ _ 0 _ 2 Q). }
  rewrite Fc, Ek. cbn [String.length truthy_index Nat.add].
  assert (Tk : take (Datatypes.S (Datatypes.S (Datatypes.S (String.length r)))) line = String space_c (String " " (String c r))).
  { unfold line. apply (take_app (String space_c (String " " (String c r))) (String ":" rest)). }
  rewrite Tk. cbn [drop].
  assert (Q : is_quote c = false).
  { destruct (is_quote c) eqn:Q; auto. apply is_quote_spec in Q. subst key. inversion F as [|? ? (_ & ? & _) _]. contradiction. }
  unfold is_quote in Q. apply orb_false_iff in Q as [Q1 Q2].
  assert (W1 : startswith dq (String c r) = false).
  { destruct (startswith dq (String c r)) eqn:Q; auto. apply startswith_spec in Q as (x & Q). injection Q as Q _. subst c. discriminate. }
  assert (W2 : startswith (String squote_c "") (String c r) = false).
  { destruct (startswith (String squote_c "") (String c r)) eqn:Q; auto. apply startswith_spec in Q as (x & Q). injection Q as Q _. subst c. discriminate. }
  rewrite W1, W2. reflexivity.
Qed.

(** What becomes of a line. *)
Definition line_block (y : yaml) (idx : nat) (line : string) (block : list string) : Prop :=
  (comments_of_line y Spaces idx line = Val [] -> block = [line]) /\
  (forall n dash key rest, doc_key_name key -> looked_at dash key -> line = plain_line n dash key rest ->
    exists texts, Forall2 (fun p s => comment_at (y_lines y) idx line p = Val s) (y_positions y) texts /\
      block = with_entry n dash key rest (filter (fun s => negb (is_empty s)) texts)).

Theorem file_blocks y out : rewritten_lines y = Val out -> detect_indentation (y_lines y) = Spaces ->
  (forall l, In l (y_lines y) -> ~ In (char 9) (chars l)) ->
  exists blocks, out = List.concat blocks /\ List.length blocks = List.length (y_lines y) /\
    forall idx line, nth_error (y_lines y) idx = Some line -> exists block, nth_error blocks idx = Some block /\ line_block y idx line block.
Proof.
  intros H Ind NT. unfold rewritten_lines in H. apply andthen_Val in H as (ms & Em & Hi).
  destruct (extract_comments_spec _ _ Em) as [Sm Im]. rewrite (sort_desc_rev _ Sm) in Hi.
  assert (Lm : forall m, In m ms -> key_line m < List.length (y_lines y)).
  { intros m Hm. destruct (Im m Hm) as (l & _ & _ & Nl & _). apply nth_error_Some. congruence. }
  destruct (insert_comments_blocks _ _ _ Sm Lm Hi) as (blocks & Eo & Lb & Hb).
  exists blocks. split; [auto|]. split; [auto|]. intros idx line N.
  destruct (Hb _ _ N) as (block & Nb & Ho). exists block. split; [auto|].
  destruct (extract_line _ _ _ _ Em N) as (cl & C1 & C2); [rewrite Ind; discriminate|]. rewrite Ind in C1.
  split.
  { intros E. rewrite E in C1. injection C1 as <-. destruct Ho as [[-> _]|(m & e & Hm & Km & _)]; [reflexivity|]. exfalso. exact (C2 m Hm Km). }
  intros n dash key rest PK LA El.
  assert (Tr : ~ In (char 9) (chars rest)).
  { intros Hi'. apply (NT line); [eapply nth_error_In; eauto|]. rewrite El. unfold plain_line. rewrite !chars_app, !in_app_iff. auto. }
  assert (Hk : key_of_line line = Val key).
  { rewrite El; unfold plain_line. destruct dash; cbn [item]; [now apply key_of_dash_any|apply key_of_plain_any; [auto| |auto]]. destruct LA as [LA|LA]; [discriminate|exact LA]. }
  destruct PK as [(c & r & Ek & Hl) F]. destruct (starter_facts _ Hl) as (S1 & I1).
  assert (A : dash = true \/ is_alpha c = true /\ Ascii.eqb c dash_c = false) by (destruct LA as [LA|(c' & r' & E' & LA)]; [auto|]; rewrite Ek in E'; injection E' as <- _; right; destruct (letter_alpha c LA); tauto).
  assert (Rs : exists ch t, remove_spacing line = String ch t /\ is_alpha ch || Ascii.eqb ch dash_c = true /\ Ascii.eqb ch dash_c = dash).
  { rewrite remove_spacing_no_tab by (apply NT; eapply nth_error_In; eauto). rewrite El; unfold plain_line. rewrite Ek. destruct dash; cbn [append item].
    - rewrite lstrip_spaces by reflexivity. eexists _, _. split; [reflexivity|]. auto.
    - destruct A as [A|[A D]]; [discriminate|]. rewrite lstrip_spaces by auto. eexists _, _. split; [reflexivity|]. rewrite A. auto. }
  destruct Rs as (ch & t & Rs & Ra & Rd).
  set (width := n + String.length (item dash)).
  assert (Ci : count_indent line Spaces = Some width).
  { rewrite El; unfold count_indent, plain_line, width. rewrite Ek. f_equal. destruct dash; cbn [item append String.length].
    - clear -I1. induction n as [|n IH]; [|exact (f_equal S IH)]. simpl. now rewrite I1.
    - rewrite Nat.add_0_r. now apply leading_spaces. }
  assert (C3 : line_comments (y_lines y) Spaces idx line key width dash (y_positions y) = Val cl).
  { unfold comments_of_line in C1. rewrite Rs, Ra, Rd in C1. rewrite Ci, Hk in C1. cbn [andthen] in C1.
    rewrite Ek in C1 at 1. cbn [is_empty] in C1. exact C1. }
  destruct (line_comments_texts _ _ _ _ _ _ _ _ _ C3) as (texts & Ft & Et).
  exists texts. split; [auto|]. rewrite <- Et.
  destruct cl as [|c0 cl].
  - cbn [map]. destruct Ho as [[-> _]|(m & e & Hm & Km & _)]; [rewrite El; reflexivity|]. exfalso. exact (C2 m Hm Km).
  - destruct C2 as (m & Hm & Hg). unfold merge_group in Hg. cbn [snd fst] in Hg.
    assert (Hc0 : forall x, In x (c0 :: cl) -> for_key x = key /\ key_line x = idx /\ spacing_kind x = Spaces /\ spacing_count x = width /\ replaces_dash x = dash).
    { intros x Hx. pose proof (line_comments_In _ _ _ _ _ _ _ _ _ _ C3 Hx). tauto. }
    assert (Ed : existsb replaces_dash (c0 :: cl) = dash).
    { destruct dash.
      - cbn [existsb]. destruct (Hc0 c0 (or_introl eq_refl)) as (_ & _ & _ & _ & Q). now rewrite Q.
      - destruct (existsb replaces_dash (c0 :: cl)) eqn:X; auto. apply existsb_exists in X as (x & Hx & X). destruct (Hc0 x Hx) as (_ & _ & _ & _ & Q). congruence. }
    destruct (Hc0 c0 (or_introl eq_refl)) as (K1 & K2 & K3 & K4 & K5).
    rewrite Ed, K1, K2, K3, K4 in Hg. injection Hg as Hg.
    destruct Ho as [[_ Q]|(m' & e & Hm' & Km' & He & ->)].
    { exfalso. apply (Q m Hm). subst m. reflexivity. }
    assert (m' = m).
    { assert (Km : key_line m = idx) by (subst m; reflexivity). clear -Sm Hm Hm' Km Km'.
      induction ms as [|x ms IH]; [destruct Hm|]. inversion Sm as [|? ? Sx Fx]; subst. rewrite Forall_forall in Fx.
      destruct Hm as [<-|Hm], Hm' as [<-|Hm']; auto.
      - specialize (Fx (key_line m') (in_map key_line _ _ Hm')). lia.
      - specialize (Fx (key_line m) (in_map key_line _ _ Hm)). lia. }
    subst m'. unfold doc_entry, spacing, format_comment in He. rewrite <- Hg in He |- *.
    cbn [replaces_dash spacing_kind spacing_count full_string for_key indent_unit] in He |- *.
    unfold with_entry, plain_entry. cbn [map].
    assert (Dp : str_repeat (width + 1) " " = spaces n ++ no_item dash ++ " ").
    { unfold width, spaces. rewrite !repeat_add. destruct dash; cbn [item no_item String.length]; rewrite app_assoc_s; reflexivity. }
    rewrite Dp in He. rewrite join_concat in He.
    rewrite (map_ext _ (fun t => lf ++ spaces n ++ no_item dash ++ " " ++ t)) in He by (intros x; now rewrite !app_assoc_s).
    rewrite El; unfold plain_line. destruct dash; cbn [item no_item] in *.
    + replace (Nat.ltb width 2) with false in He by (symmetry; apply Nat.ltb_ge; unfold width; simpl; lia).
      replace (width - 2) with n in He by (unfold width; simpl; lia). cbn [andthen] in He.
      apply Val_inj in He. rewrite <- He, replace_dash. unfold hidden_prefix. rewrite !app_assoc_s. reflexivity.
    + cbn [andthen] in He. apply Val_inj in He. rewrite <- He. unfold width, hidden_prefix. cbn [String.length].
      rewrite Nat.add_0_r, !app_assoc_s. reflexivity.
Qed.

(** ** Entries as lines of their own *)
Definition entry_lines (n : nat) (dash : bool) (key rest : string) (docs : list string) : list string :=
  match docs with
  | [] => [plain_line n dash key rest]
  | _ => (spaces n ++ item dash ++ "___docstring_hidden_key_" ++ key ++ ": |") ::
      app (map (fun t => spaces n ++ no_item dash ++ " " ++ t) (splitlines (join (lf ++ lf) docs))) [spaces n ++ no_item dash ++ key ++ ":" ++ rest]
  end.
Fixpoint unl (ls : list string) : string := match ls with [] => "" | l :: r => l ++ nl ++ unl r end.
Lemma unl_app a b : unl (a ++ b)%list = unl a ++ unl b.
Proof. induction a as [|x a IH]; [reflexivity|]. cbn [app unl]. now rewrite IH, !app_assoc_s. Qed.
Lemma join_unl ls : ls <> [] -> join nl ls ++ nl = unl ls.
Proof.
  induction ls as [|x ls IH]; intros N; [congruence|]. destruct ls as [|z ls]; [cbn [join unl]; now rewrite app_nil_r_s|].
  change (join nl (x :: z :: ls)) with (x ++ nl ++ join nl (z :: ls)). cbn [unl] in *. rewrite !app_assoc_s, IH by discriminate. reflexivity.
Qed.
Lemma unl_entry n dash key rest docs : unl (with_entry n dash key rest docs) = unl (entry_lines n dash key rest docs).
Proof.
  destruct docs as [|d docs]; [reflexivity|]. unfold with_entry, entry_lines, plain_entry. set (ls := splitlines _). clearbody ls.
  assert (G : forall z, String.concat "" (map (fun t => lf ++ spaces n ++ no_item dash ++ " " ++ t) ls) ++ nl ++ z = nl ++ unl (map (fun t => spaces n ++ no_item dash ++ " " ++ t) ls) ++ z).
  { induction ls as [|t ls IH]; intros z; [reflexivity|]. cbn [map unl].
    replace (String.concat "" (_ :: _)) with ((lf ++ spaces n ++ no_item dash ++ " " ++ t) ++ String.concat "" (map (fun t => lf ++ spaces n ++ no_item dash ++ " " ++ t) ls)) by (destruct ls; [now rewrite app_nil_r_s|reflexivity]).
    rewrite !app_assoc_s, IH. change lf with nl. reflexivity. }
  cbn [unl]. rewrite unl_app. cbn [unl]. rewrite !app_assoc_s, G. reflexivity.
Qed.
