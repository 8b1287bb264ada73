(** Facts about the texts that [LazyTypeHintLive] reads and writes. *)
From Coq Require Import Ascii String List Bool Arith ZArith Lia Permutation.
From Verif Require Import PyStr PyStrFacts Utils NamesFacts DocstringFacts Exc SpecNames SpecText SpecPyFile
  YamlFacts YamlLines YamlEntries PyFile PyFileFacts PyFilePrivate Live SpecLive.
Import ListNotations.
Local Open Scope string_scope.
Local Open Scope nat_scope.

(** ** Reading back *)
Definition drop_last_empty (ls : list string) : list string :=
  match rev ls with "" :: r => rev r | _ => ls end.

Lemma splitlines_aux_line s : forall acc rest, one_line s = true ->
  splitlines_aux (s ++ rest) acc = splitlines_aux rest (acc ++ s).
Proof.
  induction s as [|c s IH]; intros acc rest H; cbn [append]; [now rewrite app_nil_r_s|].
  unfold one_line in H. cbn [str_forall] in H. apply andb_true_iff in H as [Hc Hs]. apply negb_true_iff in Hc.
  cbn [splitlines_aux]. rewrite Hc. rewrite IH by exact Hs. now rewrite app_assoc_s.
Qed.

Lemma drop_last_empty_cons x y r : drop_last_empty (x :: y :: r) = x :: drop_last_empty (y :: r).
Proof.
  unfold drop_last_empty. assert (N : y :: r <> []) by discriminate. destruct (exists_last N) as (a & z & ->).
  change (x :: a ++ [z])%list with ((x :: a) ++ [z])%list. rewrite !rev_app_distr. cbn [rev app].
  destruct z; [|reflexivity]. rewrite rev_app_distr, rev_involutive. reflexivity.
Qed.

Lemma splitlines_join ls : Forall (fun l => one_line l = true) ls -> splitlines (join nl ls) = drop_last_empty ls.
Proof.
  unfold splitlines. induction ls as [|x ls IH]; intros H; [reflexivity|]. inversion H as [|? ? Hx Hl]; subst.
  destruct ls as [|y ls].
  - cbn [join]. rewrite <- (app_nil_r_s x) at 1. rewrite splitlines_aux_line by exact Hx. cbn. now destruct x.
  - rewrite join_cons by discriminate. rewrite splitlines_aux_line by exact Hx. cbn [append].
    rewrite drop_last_empty_cons, <- IH by exact Hl. clear.
    change (nl ++ join nl (y :: ls)) with (String (chr 10) (join nl (y :: ls))). cbn [splitlines_aux].
    change (is_linebreak (chr 10)) with true. cbn iota. change (Nat.eqb (ord (chr 10)) 13) with false. cbn [andb].
    destruct (join nl (y :: ls)); reflexivity.
Qed.

Lemma universal_id s : str_forall (fun c => negb (Nat.eqb (ord c) 13)) s = true -> universal s = s.
Proof.
  induction s as [|c s IH]; [reflexivity|]. cbn [str_forall universal]. intros H. apply andb_true_iff in H as [Hc Hs].
  apply negb_true_iff in Hc. rewrite Hc. now rewrite IH.
Qed.

Definition flat (ls : list string) : list string := concat (map (split_char (chr 10)) ls).

Lemma join_flat ls : join nl (flat ls) = join nl ls.
Proof.
  unfold flat. induction ls as [|x ls IH]; [reflexivity|]. cbn [map concat].
  destruct ls as [|y ls]; [cbn [map concat]; rewrite app_nil_r; apply join_split|].
  rewrite join_app; [|apply split_char_nonnil|].
  - rewrite IH, (join_cons nl x) by discriminate. f_equal. apply join_split.
  - cbn [map concat]. intros E. apply app_eq_nil in E as [E _]. now apply split_char_nonnil in E.
Qed.

Lemma flat_app a b : flat (a ++ b)%list = (flat a ++ flat b)%list.
Proof. unfold flat. now rewrite map_app, concat_app. Qed.
Lemma flat_lines ls : Forall (fun l => one_line l = true) ls -> flat ls = ls.
Proof.
  induction 1 as [|x ls Hx Hl IH]; [reflexivity|]. unfold flat in *. cbn [map concat]. rewrite IH.
  rewrite split_char_single; [reflexivity|]. unfold no_char, one_line in *. eapply str_forall_impl; [|exact Hx].
  intros c Hc. apply negb_true_iff in Hc. destruct (Ascii.eqb (chr 10) c) eqn:E; [|reflexivity].
  apply Ascii.eqb_eq in E. subst c. discriminate.
Qed.

Lemma one_line_no_cr s : one_line s = true -> str_forall (fun c => negb (Nat.eqb (ord c) 13)) s = true.
Proof.
  unfold one_line. apply str_forall_impl. intros c Hc. apply negb_true_iff in Hc.
  destruct (Nat.eqb (ord c) 13) eqn:E; [|reflexivity]. apply Nat.eqb_eq in E. unfold is_linebreak in Hc.
  rewrite E in Hc. discriminate.
Qed.

(** What a new object reads from the file that an object wrote. *)
Lemma reread ls : Forall (fun l => one_line l = true) (flat ls) -> py_read (universal (py_str ls)) = drop_last_empty (flat ls).
Proof.
  intros H. unfold py_read, py_str. rewrite <- join_flat. rewrite universal_id; [now apply splitlines_join|].
  apply str_forall_join; [reflexivity|]. eapply Forall_impl; [|exact H]. intros l. apply one_line_no_cr.
Qed.

(** ** Class names *)
Lemma compatible_chars c : is_compatible c = true -> str_forall word_char c = true /\ c <> "".
Proof. intros H. apply is_compatible_iff in H as ((x & r & -> & _) & H & _). split; [exact H | discriminate]. Qed.

Lemma word_chars_not p s : (forall c, negb (word_char c) || p c = true) -> str_forall word_char s = true -> str_forall p s = true.
Proof. intros H. apply str_forall_impl. intros c Hc. specialize (H c). now rewrite Hc in H. Qed.

Lemma name_one_line c : is_compatible c = true -> one_line c = true.
Proof. intros H. apply compatible_chars in H as [H _]. revert H. apply word_chars_not. intros x. by_chars x. Qed.

Lemma name_no ch c : word_char ch = false -> is_compatible c = true -> no_char ch c.
Proof.
  intros Hc H. apply compatible_chars in H as [H _]. unfold no_char. revert H. apply str_forall_impl.
  intros d Hd. destruct (Ascii.eqb ch d) eqn:E; [|reflexivity]. apply Ascii.eqb_eq in E. congruence.
Qed.

Lemma no_char_app c a b : no_char c (a ++ b) <-> no_char c a /\ no_char c b.
Proof. unfold no_char. rewrite str_forall_app, andb_true_iff. tauto. Qed.
Lemma one_line_app a b : one_line (a ++ b) = one_line a && one_line b.
Proof. apply str_forall_app. Qed.
Lemma contains_no c s : contains (String c "") s = false <-> no_char c s.
Proof. rewrite no_char_chars. rewrite <- contains_char_In. destruct (contains _ s); split; congruence. Qed.

(** ** Occurrences *)
Lemma contains_sep sub c a b : sub <> "" -> no_char c sub ->
  contains sub (a ++ String c b) = contains sub a || contains sub b.
Proof.
  intros Hn Hc. apply eq_true_iff_eq. rewrite orb_true_iff, !contains_spec. split.
  - intros (x & y & E). revert a E. induction x as [|d x IH]; intros a E.
    + cbn [append] in E. destruct (startswith sub a) eqn:P.
      * left. apply startswith_spec in P as [r ->]. exists "", r. reflexivity.
      * exfalso. revert sub Hn Hc E P. induction a as [|e a IHa]; intros [|s sub] Hn Hc E P; try congruence.
        -- cbn in E. injection E as <- _. unfold no_char in Hc. cbn [str_forall] in Hc. rewrite Ascii.eqb_refl in Hc. discriminate.
        -- cbn in E. injection E as <- E. cbn [startswith] in P. rewrite Ascii.eqb_refl in P. cbn [andb] in P.
           unfold no_char in Hc. cbn [str_forall] in Hc. apply andb_true_iff in Hc as [_ Hc].
           destruct sub as [|s' sub]; [discriminate|]. apply (IHa (String s' sub)); [discriminate | exact Hc | exact E | exact P].
    + destruct a as [|e a]; cbn [append] in E.
      * injection E as -> E. right. exists x, y. exact E.
      * injection E as -> E. destruct (IH a E) as [(u & v & ->) | H]; [left | now right]. exists (String d u), v. reflexivity.
  - intros [(x & y & ->) | (x & y & ->)].
    + exists x, (y ++ String c b). now rewrite !app_assoc_s.
    + exists (a ++ String c x), y. rewrite app_assoc_s. reflexivity.
Qed.

Lemma find_str_unique sub s i : find_str sub s = Some i <->
  exists a b, s = a ++ sub ++ b /\ String.length a = i /\ forall a' b', s = a' ++ sub ++ b' -> i <= String.length a'.
Proof.
  split.
  - intros H. apply find_str_spec in H as (b & H1 & H2 & H3). exists (take i s), b. auto.
  - intros (a & b & E & L & H). destruct (find_str sub s) as [j|] eqn:F.
    + f_equal. apply find_str_spec in F as (b' & H1 & H2 & H3).
      assert (i <= j) by (rewrite <- H2; eapply H; exact H1).
      assert (j <= i) by (rewrite <- L; eapply H3; exact E). lia.
    + apply find_str_None in F. assert (contains sub s = true) by (apply contains_spec; eauto). congruence.
Qed.

(** Text in front that does not have the first character of the pattern. *)
Lemma find_str_skip c sub a s i : no_char c a -> find_str (String c sub) s = Some i ->
  find_str (String c sub) (a ++ s) = Some (String.length a + i).
Proof.
  intros Ha H. induction a as [|d a IH]; [exact H|]. unfold no_char in Ha. cbn [str_forall] in Ha.
  apply andb_true_iff in Ha as [Hd Ha]. apply negb_true_iff in Hd. cbn [append find_str startswith]. rewrite Hd. cbn [andb].
  rewrite IH by exact Ha. reflexivity.
Qed.

(** Text behind the first occurrence is irrelevant. *)
Lemma find_str_behind sub a b : find_str sub (a ++ sub) = Some (String.length a) -> find_str sub (a ++ sub ++ b) = Some (String.length a).
Proof.
  induction a as [|d a IH]; cbn [append String.length].
  - intros _. destruct (sub ++ b) eqn:E.
    + apply app_eq_nil_s in E as [-> ->]. reflexivity.
    + rewrite <- E. cbn [find_str]. destruct (sub ++ b) eqn:E'; [congruence|]. rewrite <- E'. cbn [find_str].
      assert (P : startswith sub (sub ++ b) = true) by apply startswith_app. rewrite E' in *. cbn [find_str]. now rewrite P.
  - cbn [find_str]. destruct (startswith sub (String d (a ++ sub))) eqn:P; [discriminate|].
    intros H. destruct (find_str sub (a ++ sub)) as [j|] eqn:F; [|discriminate]. cbn in H. injection H as ->.
    destruct (startswith sub (String d (a ++ sub ++ b))) eqn:Q.
    + exfalso. apply startswith_spec in Q as [r Q].
      assert (T : take (String.length sub) (String d (a ++ sub ++ b)) = take (String.length sub) (String d (a ++ sub))).
      { clear. change (String d (a ++ sub ++ b)) with (String d a ++ sub ++ b). change (String d (a ++ sub)) with (String d a ++ sub).
        rewrite <- app_assoc_s. generalize (String d a ++ sub) (length_app_s (String d a) sub). intros u Hu.
        assert (L : String.length sub <= String.length u) by lia. clear Hu. revert u L. generalize (String.length sub).
        induction n as [|n IH]; intros u L; [reflexivity|]. destruct u as [|x u]; [cbn in L; lia|]. cbn in *. f_equal. apply IH. lia. }
      rewrite Q, take_app in T. assert (startswith sub (String d (a ++ sub)) = true); [|congruence].
      apply startswith_spec. exists (drop (String.length sub) (String d (a ++ sub))). rewrite <- (take_drop (String.length sub) (String d (a ++ sub))) at 1. f_equal. symmetry. exact T.
    + rewrite IH by reflexivity. reflexivity.
Qed.

Lemma rfind_absent sub s : contains sub s = false -> rfind_str sub s = None.
Proof.
  induction s as [|c s IH]; [reflexivity|]. cbn [contains rfind_str]. intros H. apply orb_false_iff in H as [H1 H2].
  rewrite IH by exact H2. cbn [startswith] in *. now rewrite H1.
Qed.

Lemma rfind_last c sub a b : contains (String c sub) (sub ++ b) = false ->
  rfind_str (String c sub) (a ++ String c sub ++ b) = Some (String.length a).
Proof.
  intros H. induction a as [|d a IH].
  - cbn [append rfind_str String.length]. rewrite rfind_absent by exact H.
    change (String c (sub ++ b)) with (String c sub ++ b). now rewrite startswith_app.
  - cbn [append rfind_str String.length] in *. now rewrite IH.
Qed.

Lemma scan_sep_app a c b i : no_char (chr 44) a -> no_char (chr 41) a -> c = chr 44 \/ c = chr 41 ->
  scan_sep (a ++ String c b) i = Val (i + String.length a).
Proof.
  intros H1 H2 Hc. revert i. induction a as [|d a IH]; intros i; cbn [append scan_sep String.length].
  - rewrite Nat.add_0_r. destruct Hc as [-> | ->]; reflexivity.
  - unfold no_char in H1, H2. cbn [str_forall] in H1, H2. apply andb_true_iff in H1 as [D1 H1], H2 as [D2 H2].
    assert (N1 : Nat.eqb (ord d) 44 = false).
    { destruct (Nat.eqb (ord d) 44) eqn:E; [|reflexivity]. apply Nat.eqb_eq in E. unfold chr in D1. rewrite <- E in D1. unfold ord in D1. rewrite ascii_nat_embedding, Ascii.eqb_refl in D1. discriminate. }
    assert (N2 : Nat.eqb (ord d) 41 = false).
    { destruct (Nat.eqb (ord d) 41) eqn:E; [|reflexivity]. apply Nat.eqb_eq in E. unfold chr in D2. rewrite <- E in D2. unfold ord in D2. rewrite ascii_nat_embedding, Ascii.eqb_refl in D2. discriminate. }
    rewrite N1, N2. cbn [orb]. rewrite IH by auto. f_equal. lia.
Qed.

(** ** The registry *)
Lemma quoted_words_skip a s : no_char dquote_char a -> quoted_words (a ++ s) None = quoted_words s None.
Proof.
  intros H. induction a as [|c a IH]; [reflexivity|]. unfold no_char in H. cbn [str_forall] in H. apply andb_true_iff in H as [Hc H].
  apply negb_true_iff in Hc. cbn [append quoted_words]. rewrite Ascii.eqb_sym, Hc. now apply IH.
Qed.
Lemma quoted_words_word c s w : no_char dquote_char c -> no_char (chr 10) c ->
  quoted_words (c ++ String dquote_char s) (Some w) = (w ++ c)%string :: quoted_words s None.
Proof.
  intros H1 H2. revert w. induction c as [|d c IH]; intros w; cbn [append quoted_words].
  - rewrite Ascii.eqb_refl. now rewrite app_nil_r_s.
  - unfold no_char in H1, H2. cbn [str_forall] in H1, H2. apply andb_true_iff in H1 as [D1 H1], H2 as [D2 H2].
    apply negb_true_iff in D1. rewrite Ascii.eqb_sym, D1.
    assert (N : Nat.eqb (ord d) 10 = false).
    { destruct (Nat.eqb (ord d) 10) eqn:E; [|reflexivity]. apply Nat.eqb_eq in E. unfold chr in D2. rewrite <- E in D2. unfold ord in D2. rewrite ascii_nat_embedding, Ascii.eqb_refl in D2. discriminate. }
    rewrite N, IH by auto. now rewrite app_assoc_s.
Qed.

Lemma quoted_words_quoted c s : is_compatible c = true -> quoted_words (quoted c ++ s) None = c :: quoted_words s None.
Proof.
  intros H. unfold quoted. rewrite app_assoc_s. cbn [append quoted_words].
  change (Ascii.eqb """" dquote_char) with true. cbn iota. rewrite app_assoc_s.
  apply (quoted_words_word c s ""); apply name_no; auto.
Qed.

Lemma quoted_words_list cs s : Forall (fun c => is_compatible c = true) cs ->
  quoted_words (join ", " (map quoted cs) ++ s) None = (cs ++ quoted_words s None)%list.
Proof.
  induction 1 as [|c cs Hc Hcs IH]; [reflexivity|]. destruct cs as [|d cs]; cbn [map].
  - cbn [join]. rewrite quoted_words_quoted by exact Hc. reflexivity.
  - rewrite join_cons by discriminate. rewrite app_assoc_s, quoted_words_quoted by exact Hc. cbn [app]. f_equal.
    rewrite app_assoc_s. rewrite (quoted_words_skip ", ") by reflexivity. exact IH.
Qed.

Definition clean_value (cs : list string) : string := match cs with [] => "Any" | _ => registry_value cs end.

Lemma registered_value cs : Forall (fun c => is_compatible c = true) cs ->
  (if String.eqb (clean_value cs) "Any" then [] else quoted_words (clean_value cs) None) = cs.
Proof.
  intros H. destruct cs as [|c cs]; [reflexivity|]. unfold clean_value, registry_value.
  change (String.eqb ("Union[Literal[" ++ join ", " (map quoted (c :: cs)) ++ "], Any]") "Any") with false. cbn iota.
  rewrite (quoted_words_skip "Union[Literal[") by reflexivity. rewrite quoted_words_list by exact H.
  cbn [quoted_words]. apply app_nil_r.
Qed.

Lemma replace_fuel_skip c old new s u : no_char c u -> forall fuel,
  replace_fuel (String.length u + fuel) (String c old) new (u ++ s) = u ++ replace_fuel fuel (String c old) new s.
Proof.
  intros H fuel. induction u as [|d u IH]; [reflexivity|]. unfold no_char in H. cbn [str_forall] in H. apply andb_true_iff in H as [Hd H].
  apply negb_true_iff in Hd. cbn [append String.length Nat.add replace_fuel startswith]. rewrite Hd. cbn [andb]. now rewrite IH.
Qed.

Lemma replace_at_end c old new u : no_char c u -> replace (String c old) new (u ++ String c old) = u ++ new.
Proof.
  intros H. unfold replace. rewrite length_app_s, replace_fuel_skip by exact H. f_equal.
  cbn [String.length replace_fuel]. assert (P := startswith_app (String c old) ""). rewrite app_nil_r_s in P. rewrite P.
  assert (E := drop_app (String c old) ""). rewrite app_nil_r_s in E. cbn [String.length] in E. rewrite E.
  destruct (String.length old); cbn [replace_fuel]; now rewrite app_nil_r_s.
Qed.

Lemma names_no_char ch cs : word_char ch = false -> ch <> ","%char -> ch <> " "%char -> ch <> dquote_char ->
  Forall (fun c => is_compatible c = true) cs -> no_char ch (join ", " (map quoted cs)).
Proof.
  intros Hw H1 H2 H3 H. unfold no_char. apply str_forall_join.
  - cbn [str_forall]. destruct (Ascii.eqb ch ",") eqn:E1; [apply Ascii.eqb_eq in E1; congruence|].
    destruct (Ascii.eqb ch " ") eqn:E2; [apply Ascii.eqb_eq in E2; congruence|]. reflexivity.
  - apply Forall_forall. intros x Hx. apply in_map_iff in Hx as (c & <- & Hc). rewrite Forall_forall in H. specialize (H _ Hc).
    apply (name_no ch c Hw) in H. unfold quoted. change (no_char ch ("""" ++ c ++ """")). rewrite !no_char_app. split; [|split; [exact H|]];
      unfold no_char; cbn [str_forall]; (destruct (Ascii.eqb ch """") eqn:E3; [apply Ascii.eqb_eq in E3; exfalso; now apply H3 | reflexivity]).
Qed.

Lemma new_value_registry cs c : Forall (fun c => is_compatible c = true) cs ->
  new_value (clean_value cs) c = registry_value (cs ++ [c]).
Proof.
  intros H. destruct cs as [|d cs]; [cbn [app]; unfold registry_value; cbn [map join]; unfold quoted; rewrite !app_assoc_s; reflexivity|]. unfold new_value, clean_value, registry_value.
  change (String.eqb ("Union[Literal[" ++ join ", " (map quoted (d :: cs)) ++ "], Any]") "Any") with false. cbn iota.
  replace ("Union[Literal[" ++ join ", " (map quoted (d :: cs)) ++ "], Any]")
    with (("Union[Literal[" ++ join ", " (map quoted (d :: cs))) ++ String "]" ", Any]") by (now rewrite app_assoc_s).
  rewrite (replace_at_end "]" ", Any]").
  - cbn [app]. change (d :: cs ++ [c])%list with ((d :: cs) ++ [c])%list. rewrite map_app, join_app by discriminate.
    cbn [map join]. unfold quoted. rewrite !app_assoc_s. reflexivity.
  - rewrite no_char_app. split; [reflexivity|]. apply names_no_char; auto; discriminate.
Qed.

Lemma registry_no_eq cs : Forall (fun c => is_compatible c = true) cs -> ~ In equals_sign (chars (registry_value cs)).
Proof.
  intros H. apply no_char_chars. destruct cs as [|c cs]; [reflexivity|]. unfold registry_value. rewrite !no_char_app. split; [reflexivity|].
  split; [|reflexivity]. apply names_no_char; auto; discriminate.
Qed.

Lemma registry_one_line cs : Forall (fun c => is_compatible c = true) cs -> one_line (registry_value cs) = true.
Proof.
  intros H. destruct cs as [|c cs]; [reflexivity|]. unfold registry_value. rewrite !one_line_app. apply andb_true_iff. split; [reflexivity|].
  apply andb_true_iff. split; [|reflexivity]. unfold one_line. apply str_forall_join; [reflexivity|].
  apply Forall_forall. intros x Hx. apply in_map_iff in Hx as (d & <- & Hd). rewrite Forall_forall in H. specialize (H _ Hd).
  change (one_line (quoted d) = true). unfold quoted. rewrite !one_line_app, (name_one_line d H). reflexivity.
Qed.

Lemma strip_id s c x d : s = String c x -> is_space c = false -> (exists y, s = y ++ String d "") -> is_space d = false -> strip s = s.
Proof.
  intros E Hc (y & E') Hd. unfold strip, strip_by. assert (lstrip_by is_space s = s) as -> by (rewrite E; cbn [lstrip_by]; now rewrite Hc).
  rewrite E'. clear -Hd. induction y as [|z y IH]; cbn [append rstrip_by]; [now rewrite Hd|]. rewrite IH. destruct y; reflexivity.
Qed.

Lemma assigned_registry t cs : Forall (fun c => is_compatible c = true) cs -> assigned_value (registry t cs) = Val (clean_value cs).
Proof.
  intros H. unfold assigned_value, registry. rewrite <- !app_assoc_s. rewrite app_assoc_s.
  rewrite last_field_spec by now apply registry_no_eq. destruct cs as [|c cs]; [reflexivity|].
  unfold registry_value. set (mid := join ", " (map quoted (c :: cs))).
  change ("Union[Literal[" ++ mid ++ "], Any]") with (String "U" ("nion[Literal[" ++ mid ++ "], Any]")).
  assert (E : strip (String "U" ("nion[Literal[" ++ mid ++ "], Any]")) = String "U" ("nion[Literal[" ++ mid ++ "], Any]")).
  { eapply strip_id with (c := "U"%char) (d := "]"%char); [reflexivity | reflexivity | | reflexivity].
    exists ("Union[Literal[" ++ mid ++ "], Any"). rewrite !app_assoc_s. reflexivity. }
  rewrite E. reflexivity.
Qed.

Lemma registry_mentions t cs : str_forall (fun c => Nat.eqb (ord c) 32) (t_indent t) = true -> assigns "classes_created" (registry t cs) = Val true.
Proof.
  intros H. apply assigns_true; [discriminate|]. split.
  - unfold registry. rewrite chars_str_In, !str_In_app. right; right; right; left. now left.
  - exists (t_indent t), (t_type t ++ "=" ++ registry_value cs). split; [reflexivity|]. apply Forall_chars in H.
    eapply Forall_impl; [|exact H]. intros c Hc [Q | Q]; unfold ord, code in *; rewrite Q in Hc; discriminate.
Qed.

Lemma with_value_registry t cs v : Forall (fun c => is_compatible c = true) cs ->
  with_value (registry t cs) v = t_indent t ++ "classes_created" ++ t_type t ++ "=" ++ v.
Proof.
  intros H. assert (E : registry t cs = (t_indent t ++ "classes_created" ++ t_type t) ++ "=" ++ registry_value cs) by (unfold registry; now rewrite !app_assoc_s).
  destruct (with_value_spec (registry t cs) v) as (p & old & S1 & _ & ->).
  { apply contains_eq. rewrite E, chars_str_In, !str_In_app. right; left. now left. }
  destruct (split_at_last_unique _ _ _ (t_indent t ++ "classes_created" ++ t_type t) (registry_value cs) S1) as [-> _].
  { split; [exact E | now apply registry_no_eq]. }
  now rewrite !app_assoc_s.
Qed.
