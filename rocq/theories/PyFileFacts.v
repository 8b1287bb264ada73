(** Facts about the model of [PyFileModifier]. *)
From Coq Require Import Ascii String List Bool Arith ZArith Lia Permutation Sorted.
From Verif Require Import PyStr PyStrFacts Exc PyFile SpecNames SpecText SpecPyFile NamesFacts DocstringFacts
  YamlFacts YamlLines YamlEntries.
Import ListNotations.
Local Open Scope string_scope.
Local Open Scope nat_scope.

(** ** Characters *)
Lemma is_quote_spec c : is_quote c = true <-> quote_mark c.
Proof.
  unfold is_quote, quote_mark, code. rewrite orb_true_iff, !Ascii.eqb_eq. unfold dquote_char, squote_char. split.
  - intros [-> | ->]; [left | right]; reflexivity.
  - intros [E | E]; [left | right]; rewrite <- E; symmetry; apply ascii_nat_embedding.
Qed.

Lemma str_exists_chars p s : str_exists p s = false <-> Forall (fun c => p c = false) (chars s).
Proof.
  induction s as [|c s IH]; cbn [str_exists chars].
  - split; [constructor | reflexivity].
  - rewrite orb_false_iff, IH. split; [intros [H1 H2]; now constructor | intros H; now inversion H].
Qed.

Lemma contains_char_In c s : contains (String c "") s = true <-> In c (chars s).
Proof.
  rewrite contains_char. induction s as [|d s IH]; cbn [str_exists chars In]; [split; [discriminate | contradiction]|].
  rewrite orb_true_iff, IH, Ascii.eqb_eq. split; intros [H | H]; auto.
Qed.

Lemma contains_eq s : contains "=" s = true <-> In equals_sign (chars s).
Proof. exact (contains_char_In equals_sign s). Qed.

Lemma no_char_chars c s : no_char c s <-> ~ In c (chars s).
Proof.
  rewrite <- contains_char_In, contains_char. unfold no_char. induction s as [|d s IH]; cbn [str_forall str_exists].
  - split; auto; discriminate.
  - destruct (Ascii.eqb c d); cbn; [split; [discriminate | intros H; now destruct H] | exact IH].
Qed.

(** ** find *)
Lemma find_str_spec sub s i : find_str sub s = Some i ->
  exists b, s = take i s ++ sub ++ b /\ String.length (take i s) = i /\
    forall a' b', s = a' ++ sub ++ b' -> i <= String.length a'.
Proof.
  revert i. induction s as [|c s IH]; intros i; cbn [find_str].
  - destruct (startswith sub "") eqn:E; [|discriminate]. intros [= <-]. apply startswith_spec in E as [r E].
    exists r. cbn. repeat split; auto. intros; lia.
  - destruct (startswith sub (String c s)) eqn:E.
    + intros [= <-]. apply startswith_spec in E as [r E]. exists r. cbn. repeat split; auto. intros; lia.
    + destruct (find_str sub s) as [j|] eqn:F; [|discriminate]. intros [= <-]. destruct (IH j eq_refl) as (b & H1 & H2 & H3).
      exists b. cbn. repeat split.
      * now rewrite H1 at 1.
      * now rewrite H2.
      * intros a' b' E'. destruct a' as [|d a']; cbn in E'.
        -- rewrite E' in E. now rewrite startswith_app in E.
        -- injection E' as <- E'. cbn. apply H3 in E'. lia.
Qed.

Lemma find_str_None sub s : find_str sub s = None <-> contains sub s = false.
Proof.
  induction s as [|c s IH]; cbn [find_str contains]; destruct (startswith sub _); cbn [orb]; try (split; discriminate).
  - split; auto.
  - rewrite <- IH. destruct (find_str sub s); cbn; split; congruence.
Qed.

(** ** it_is_string *)
Lemma it_is_string_spec line kw : kw <> "" -> contains kw line = true ->
  exists b, it_is_string line kw = Val b /\
  (b = false <-> exists x y, line = x ++ kw ++ y /\ Forall (fun c => ~ quote_mark c) (chars x)).
Proof.
  intros Hk Hc. unfold it_is_string, before. destruct kw as [|k kw]; [congruence|].
  destruct (find_str (String k kw) line) as [i|] eqn:F; [|apply find_str_None in F; congruence].
  cbn [andthen]. eexists; split; [reflexivity|].
  apply find_str_spec in F as (b & H1 & H2 & H3). rewrite str_exists_chars. split.
  - intros H. exists (take i line), b. split; [exact H1|]. eapply Forall_impl; [|exact H].
    intros c Hq Hq'. apply is_quote_spec in Hq'. congruence.
  - intros (x & y & E & Hx). assert (L : i <= String.length x) by (eapply H3; exact E).
    assert (P : exists z, x = take i line ++ z).
    { exists (drop i x). rewrite E. clear -L. revert i L. induction x as [|c x IH]; intros i L.
      - cbn in L. destruct i; [reflexivity | lia].
      - destruct i; [reflexivity|]. cbn in *. f_equal. apply IH. lia. }
    destruct P as [z ->]. apply Forall_forall. intros c Hc'.
    destruct (is_quote c) eqn:Q; [|reflexivity]. apply is_quote_spec in Q. exfalso.
    rewrite Forall_forall in Hx. apply (Hx c); [|exact Q].
    rewrite chars_str_In in *. apply str_In_app. now left.
Qed.

Lemma assigns_spec label line : label <> "" ->
  exists b, assigns label line = Val b /\ (b = true <-> Mentions label line).
Proof.
  intros Hl. unfold assigns, Mentions. destruct (contains label line) eqn:C.
  - destruct (contains "=" line) eqn:E; cbn [andb].
    + destruct (it_is_string_spec line label Hl C) as (b & -> & Hb). cbn [andthen].
      eexists; split; [reflexivity|]. rewrite negb_true_iff, Hb. apply contains_eq in E. tauto.
    + eexists; split; [reflexivity|]. split; [discriminate|]. intros [H _]. apply contains_eq in H. congruence.
  - eexists; split; [reflexivity|]. split; [discriminate|]. intros (_ & a & b & E & _).
    assert (contains label line = true) by (apply contains_spec; eauto). congruence.
Qed.

(** ** The value of an assignment *)
Lemma split_last line : exists p, split_char eq_char line = (p ++ [last_field line])%list /\ ~ In equals_sign (chars (last_field line)).
Proof.
  unfold last_field. assert (N := split_char_nonnil eq_char line). assert (F := split_char_no eq_char line).
  destruct (exists_last N) as (p & x & E). rewrite E in *. exists p. rewrite last_last. split; [reflexivity|].
  apply Forall_app in F as [_ F]. inversion F as [|? ? H _]. now apply no_char_chars.
Qed.

Lemma join_app sep a b : a <> [] -> b <> [] -> join sep (a ++ b)%list = join sep a ++ sep ++ join sep b.
Proof.
  intros Ha Hb. induction a as [|x a IH]; [congruence|]. destruct a as [|y a].
  - cbn [app]. now rewrite join_cons.
  - cbn [app] in *. rewrite (join_cons sep x (y :: a ++ b)) by discriminate.
    rewrite IH by discriminate. rewrite (join_cons sep x (y :: a)) by discriminate. now rewrite !app_assoc_s.
Qed.

Lemma with_value_spec line v : contains "=" line = true ->
  exists p old, SplitAtLast line p old /\ last_field line = old /\ with_value line v = p ++ "=" ++ v.
Proof.
  intros C. destruct (split_last line) as (p & E & N).
  assert (Hp : p <> []).
  { intros ->. cbn [app] in E. apply contains_eq in C.
    assert (J := join_split eq_char line). rewrite E in J. cbn [join] in J.
    rewrite J in N. contradiction. }
  assert (J := join_split eq_char line). rewrite E in J.
  rewrite join_app in J by (auto; discriminate). cbn [join] in J.
  exists (join "=" p), (last_field line). repeat split; auto.
  unfold with_value. rewrite E, removelast_last, join_app by (auto; discriminate). reflexivity.
Qed.

Lemma split_at_last_unique line p v p' v' : SplitAtLast line p v -> SplitAtLast line p' v' -> p = p' /\ v = v'.
Proof.
  intros [E N] [E' N'].
  assert (H : forall x a y b, ~ In equals_sign (chars a) -> ~ In equals_sign (chars b) -> x ++ "=" ++ a = y ++ "=" ++ b -> String.length x = String.length y).
  { clear. induction x as [|c x IH]; intros a y b Ha Hb H.
    - destruct y as [|d y]; [reflexivity|]. cbn in H. injection H as <- H. exfalso. apply Ha. rewrite H.
      change (y ++ String "=" b) with (y ++ "=" ++ b). rewrite chars_str_In, !str_In_app. right; left. now left.
    - destruct y as [|d y].
      + cbn in H. injection H as -> H. exfalso. apply Hb. rewrite <- H.
        change (x ++ String "=" a) with (x ++ "=" ++ a). rewrite chars_str_In, !str_In_app. right; left. now left.
      + cbn in H. injection H as <- H. cbn [String.length]. f_equal. apply (IH a y b); [exact Ha | exact Hb | exact H]. }
  assert (L : String.length p = String.length p') by (eapply H; [exact N | exact N' | congruence]).
  rewrite E in E'. apply app_inj_len in E' as [-> E']; [|exact L]. split; [reflexivity|]. now injection E'.
Qed.

Lemma last_field_spec p v : ~ In equals_sign (chars v) -> last_field (p ++ "=" ++ v) = v.
Proof.
  intros N. assert (C : contains "=" (p ++ "=" ++ v) = true).
  { apply contains_eq. rewrite chars_str_In, !str_In_app. right; left. now left. }
  destruct (with_value_spec _ "" C) as (p' & old & S1 & -> & _).
  destruct (split_at_last_unique _ _ _ p v S1) as [_ E]; [now split | exact E].
Qed.

Lemma strip_ends s c r : strip s = String c r -> ~ white c /\ (r = "" \/ exists x d, r = x ++ String d "" /\ ~ white d).
Proof.
  intros H. split.
  - unfold strip in H. apply strip_by_head in H. destruct H as (a & t & _ & _ & H). intros W. apply is_space_white in W. congruence.
  - unfold strip, strip_by in H. generalize dependent (lstrip_by is_space s). clear s. intros s H.
    assert (G : forall u, rstrip_by is_space u = "" \/ exists x d, rstrip_by is_space u = x ++ String d "" /\ ~ white d).
    { clear. induction u as [|c u IH]; [now left|]. cbn [rstrip_by]. destruct IH as [-> | (x & d & E & W)].
      - destruct (is_space c) eqn:I; [now left|]. right. exists "", c. split; [reflexivity|].
        intros W. apply is_space_white in W. congruence.
      - right. rewrite E. destruct x as [|x0 x]; cbn.
        + exists (String c ""), d. auto.
        + exists (String c (String x0 x)), d. auto. }
    destruct (G s) as [E | (x & d & E & W)]; [congruence|]. rewrite H in E. destruct x as [|x0 x].
    + injection E as <- <-. now left.
    + injection E as <- ->. right. eauto.
Qed.

Lemma assigned_value_spec line : contains "=" line = true ->
  (blank (last_field line) /\ assigned_value line = Raise IndexError) \/
  (exists w, assigned_value line = Val w /\ Clean (last_field line) w).
Proof.
  intros _. unfold assigned_value. destruct (strip (last_field line)) as [|c r] eqn:E.
  - left. split; [|reflexivity]. apply blank_spec. now apply strip_by_all.
  - right. eexists; split; [reflexivity|].
    destruct (strip_by_spec is_space (last_field line)) as (a & b & H & Ha & Hb).
    change (strip_by is_space (last_field line)) with (strip (last_field line)) in H. rewrite E in H.
    destruct (strip_ends _ _ _ E) as [Wc Wr]. apply blank_spec in Ha, Hb. rewrite H.
    destruct (is_quote c) eqn:Q.
    + apply is_quote_spec in Q. destruct Wr as [-> | (x & d & -> & Wd)].
      * cbn [take String.length]. change (a ++ String c "" ++ b) with (a ++ String c b). now apply Clean_mark.
      * rewrite length_app_s. cbn [String.length]. replace (String.length x + 1 - 1) with (String.length x) by lia.
        rewrite take_app. now apply Clean_quoted.
    + apply Clean_plain; auto. intros W. apply is_quote_spec in W. congruence.
Qed.

Lemma not_white_strip v : ~ blank v -> strip v <> "".
Proof. intros H E. apply H. apply blank_spec. now apply strip_by_all. Qed.

(** ** search_assignment *)
Lemma search_app label a b : forall idx,
  search_assignment_from idx label (a ++ b)%list =
  andthen (search_assignment_from idx label a) (fun x =>
  andthen (search_assignment_from (idx + List.length a) label b) (fun y => Val (x ++ y)%list)).
Proof.
  induction a as [|l a IH]; intros idx; cbn [app search_assignment_from List.length].
  - cbn [andthen]. rewrite Nat.add_0_r. destruct (search_assignment_from idx label b); reflexivity.
  - destruct (assigns label l) as [[|]|e|]; cbn [andthen]; try reflexivity.
    + destruct (assigned_value l) as [v|e|]; cbn [andthen]; try reflexivity.
      rewrite IH. replace (S idx + List.length a) with (idx + S (List.length a)) by lia.
      destruct (search_assignment_from (S idx) label a); cbn [andthen]; try reflexivity.
      destruct (search_assignment_from (idx + S (List.length a)) label b); reflexivity.
    + rewrite IH. replace (S idx + List.length a) with (idx + S (List.length a)) by lia. reflexivity.
Qed.

Lemma search_nil label lines : forall idx,
  search_assignment_from idx label lines = Val [] <-> Forall (fun l => assigns label l = Val false) lines.
Proof.
  induction lines as [|l lines IH]; intros idx; cbn [search_assignment_from].
  - split; auto.
  - rewrite Forall_cons_iff. destruct (assigns label l) as [[|]|e|]; cbn [andthen].
    + split; [|intros [H _]; discriminate]. destruct (assigned_value l); cbn [andthen]; try discriminate.
      destruct (search_assignment_from (S idx) label lines); discriminate.
    + rewrite IH. tauto.
    + split; [discriminate | intros [H _]; discriminate].
    + split; [discriminate | intros [H _]; discriminate].
Qed.

Lemma search_one label lines : forall idx i w, search_assignment_from idx label lines = Val [(i, w)] ->
  exists a l b, lines = (a ++ l :: b)%list /\ i = idx + List.length a /\
    Forall (fun l => assigns label l = Val false) a /\ Forall (fun l => assigns label l = Val false) b /\
    assigns label l = Val true /\ assigned_value l = Val w.
Proof.
  induction lines as [|l lines IH]; intros idx i w; cbn [search_assignment_from]; [discriminate|].
  destruct (assigns label l) as [[|]|e|] eqn:A; cbn [andthen]; try discriminate.
  - destruct (assigned_value l) as [v|e|] eqn:V; cbn [andthen]; try discriminate.
    destruct (search_assignment_from (S idx) label lines) as [r|e|] eqn:R; cbn [andthen]; try discriminate.
    intros H. apply Val_inj in H. assert (r = [] /\ i = idx /\ w = v) as (-> & -> & ->) by (inversion H; auto).
    exists [], l, lines. cbn. apply search_nil in R. repeat split; auto.
  - intros H. destruct (IH _ _ _ H) as (a & l' & b & -> & -> & Ha & Hb & H1 & H2).
    exists (l :: a), l', b. cbn [List.length app]. repeat split; auto; lia.
Qed.

Lemma search_one_conv label a l b w idx :
  Forall (fun l => assigns label l = Val false) a -> Forall (fun l => assigns label l = Val false) b ->
  assigns label l = Val true -> assigned_value l = Val w ->
  search_assignment_from idx label (a ++ l :: b)%list = Val [(idx + List.length a, w)].
Proof.
  intros Ha Hb A V. rewrite search_app. rewrite (proj2 (search_nil label a idx) Ha). cbn [andthen search_assignment_from].
  rewrite A. cbn [andthen]. rewrite V. cbn [andthen]. rewrite (proj2 (search_nil label b _) Hb). reflexivity.
Qed.

Lemma assigns_false label l : label <> "" -> assigns label l = Val false <-> ~ Mentions label l.
Proof.
  intros Hl. destruct (assigns_spec label l Hl) as (b & -> & Hb). split.
  - intros E. apply Val_inj in E. subst b. intros M. apply Hb in M. discriminate.
  - intros M. destruct b; [exfalso; now apply M, Hb | reflexivity].
Qed.

Lemma assigns_true label l : label <> "" -> assigns label l = Val true <-> Mentions label l.
Proof.
  intros Hl. destruct (assigns_spec label l Hl) as (b & -> & Hb). split.
  - intros E. apply Val_inj in E. now apply Hb.
  - intros M. f_equal. now apply Hb.
Qed.

Lemma assigns_has_eq label l : assigns label l = Val true -> contains "=" l = true.
Proof.
  unfold assigns. destruct (contains label l), (contains "=" l); cbn [andb]; auto; intros H; apply Val_inj in H; discriminate.
Qed.

(** All the assignments are found when none of the values is blank. *)
Lemma search_all label lines idx : label <> "" ->
  (forall l p old, In l lines -> Mentions label l -> SplitAtLast l p old -> ~ blank old) ->
  exists found, search_assignment_from idx label lines = Val found /\
    map fst found = map snd (filter (fun p => match assigns label (fst p) with Val true => true | _ => false end)
                               (combine lines (seq idx (List.length lines)))).
Proof.
  intros Hl. revert idx. induction lines as [|l lines IH]; intros idx H; cbn [search_assignment_from combine seq List.length filter].
  - exists []. auto.
  - destruct (IH (S idx)) as (r & -> & Er). { intros. eapply H; eauto. now right. }
    destruct (assigns_spec label l Hl) as (b & A & Hb). rewrite A. cbn [andthen fst]. rewrite A. destruct b.
    + assert (C := assigns_has_eq _ _ A). destruct (with_value_spec l "" C) as (p & old & S1 & E1 & _).
      destruct (assigned_value_spec l C) as [[B _] | (w & -> & _)].
      * exfalso. rewrite E1 in B. apply (H l p old); auto. { now left. } now apply Hb.
      * cbn [andthen]. eexists; split; [reflexivity|]. cbn [map fst snd]. now rewrite Er.
    + exists r. auto.
Qed.

(** ** replace_assignment *)
Lemma py_index_nat len k : k < len -> py_index len (Z.of_nat k) = Some k.
Proof.
  intros H. unfold py_index. destruct (0 <=? Z.of_nat k)%Z eqn:E; [|apply Z.leb_gt in E; lia].
  rewrite Nat2Z.id. apply Nat.ltb_lt in H. now rewrite H.
Qed.
Lemma line_at_nat (a : list string) l b : line_at (a ++ l :: b)%list (Z.of_nat (List.length a)) = Val l.
Proof.
  unfold line_at, py_nth. rewrite py_index_nat by (rewrite app_length; cbn; lia).
  now rewrite nth_error_app2, Nat.sub_diag by lia.
Qed.
Lemma set_line_nat (a : list string) l b x : set_line (Z.of_nat (List.length a)) x (a ++ l :: b)%list = Val (a ++ x :: b)%list.
Proof. unfold set_line. rewrite py_index_nat by (rewrite app_length; cbn; lia). now rewrite set_nth_app. Qed.

Lemma replace_assignment_inv label v lines lines' : replace_assignment label v lines = Val lines' ->
  exists a l b w, lines = (a ++ l :: b)%list /\ lines' = (a ++ with_value l v :: b)%list /\
    Forall (fun l => assigns label l = Val false) a /\ Forall (fun l => assigns label l = Val false) b /\
    assigns label l = Val true /\ assigned_value l = Val w.
Proof.
  unfold replace_assignment, search_assignment. intros H. apply andthen_Val in H as (found & F & H).
  destruct found as [|[i w] [|]]; try discriminate.
  destruct (search_one _ _ _ _ _ F) as (a & l & b & -> & -> & Ha & Hb & A & V). cbn [Nat.add] in H.
  unfold replace_assignment_at in H. rewrite line_at_nat in H. cbn [andthen] in H.
  rewrite (assigns_has_eq _ _ A), set_line_nat in H. apply Val_inj in H. subst lines'.
  exists a, l, b, w. repeat split; auto.
Qed.

Lemma replace_assignment_one label v a l b w :
  Forall (fun l => assigns label l = Val false) a -> Forall (fun l => assigns label l = Val false) b ->
  assigns label l = Val true -> assigned_value l = Val w ->
  replace_assignment label v (a ++ l :: b)%list = Val (a ++ with_value l v :: b)%list.
Proof.
  intros Ha Hb A V. unfold replace_assignment, search_assignment. rewrite (search_one_conv label a l b w 0) by auto.
  cbn [andthen Nat.add]. unfold replace_assignment_at. rewrite line_at_nat. cbn [andthen].
  now rewrite (assigns_has_eq _ _ A), set_line_nat.
Qed.

(** ** Insertion *)
Lemma py_insert_place {A} i (x : A) l :
  exists a b, l = (a ++ b)%list /\ List.length a = place (List.length l) i /\ py_insert i x l = (a ++ x :: b)%list.
Proof.
  set (n := place (List.length l) i).
  assert (Hn : n <= List.length l) by (unfold n, place; lia).
  exists (firstn n l), (skipn n l). rewrite firstn_skipn, firstn_length_le by exact Hn. repeat split.
  unfold py_insert, n, place. destruct (Z.leb_spec 0 i), (Z.ltb_spec i 0); try lia; unfold insert_at.
  - destruct (Z.min_spec (Z.of_nat (List.length l)) i) as [[L ->] | [L ->]]; [|reflexivity].
    rewrite Nat2Z.id. now rewrite firstn_all, skipn_all, firstn_all2, skipn_all2 by lia.
  - do 2 f_equal; lia || (f_equal; lia).
Qed.

Lemma fold_insert {A} n (xs : list A) : forall a b, List.length a = n ->
  fold_left (fun ls x => insert_at n x ls) (rev xs) (a ++ b)%list = (a ++ xs ++ b)%list.
Proof.
  induction xs as [|x xs IH]; intros a b H; [reflexivity|]. cbn [rev]. rewrite fold_left_app. rewrite (IH a b H). cbn [fold_left].
  subst n. now rewrite insert_at_app.
Qed.

Lemma search_line_spec kw lines : forall idx,
  (exists a l b, lines = (a ++ l :: b)%list /\ contains kw l = true /\ Forall (fun x => contains kw x = false) a /\
     search_line_from idx kw lines = Val (idx + List.length a)) \/
  (Forall (fun x => contains kw x = false) lines /\ search_line_from idx kw lines = Raise ValueError).
Proof.
  induction lines as [|l lines IH]; intros idx; cbn [search_line_from]; [right; auto|].
  destruct (contains kw l) eqn:C.
  - left. exists [], l, lines. cbn. rewrite Nat.add_0_r. auto.
  - destruct (IH (S idx)) as [(a & x & b & -> & Hx & Ha & ->) | [F ->]].
    + left. exists (l :: a), x, b. cbn [app List.length]. repeat split; auto. f_equal; lia.
    + right. auto.
Qed.
