(** C91: when the rewriting of a YAML file fails. *)
From Coq Require Import Ascii String List Bool Arith Lia Sorting.Sorted.
From Verif Require Import DocstringFacts PyFileFacts PyStr PyStrFacts Exc Yaml SpecNames NamesFacts SpecText SpecYaml YamlFacts YamlLines YamlComments YamlMore YamlEntries YamlLoadFacts PropsYaml.
Import ListNotations.
Local Open Scope string_scope.
Local Open Scope nat_scope.

Definition spaces_only (lines : list string) : Prop :=
  (exists l, In l lines /\ In (char 32) (chars l)) /\ forall l, In l lines -> ~ In (char 9) (chars l).
Definition dash_first (l : string) : Prop := exists a b, l = a ++ "-" ++ b /\ blank a.
(** The line begins with two characters that are spaces or dashes. *)
Definition two_wide (l : string) : Prop :=
  exists p q r, l = String p (String q r) /\ (code p = 32 \/ code p = 45) /\ (code q = 32 \/ code q = 45).

Lemma andthen_index {A B} (r : exc A) (f : A -> exc B) : (exists a, r = Val a) \/ r = Raise IndexError -> (forall a, (exists b, f a = Val b) \/ f a = Raise IndexError) ->
  (exists b, andthen r f = Val b) \/ andthen r f = Raise IndexError.
Proof. intros [(a & ->)| ->] H; cbn [andthen]; auto. Qed.
Lemma key_of_line_index line : (exists k, key_of_line line = Val k) \/ key_of_line line = Raise IndexError.
Proof.
  unfold key_of_line. destruct (remove_spacing line); auto. destruct (strip _); auto. cbv zeta. destruct (truthy_index _); eauto.
  destruct (_ && _); eauto. destruct (_ && _); eauto.
Qed.
Lemma comments_of_line_index y ind idx line : (exists cs, comments_of_line y ind idx line = Val cs) \/ comments_of_line y ind idx line = Raise IndexError.
Proof.
  unfold comments_of_line. destruct (remove_spacing line) as [|c r]; eauto. destruct (_ || _); eauto. destruct (count_indent line ind); eauto.
  apply andthen_index; [apply key_of_line_index|]. intros k. destruct (is_empty k); eauto. left. apply line_comments_Val.
Qed.
Lemma comments_from_index y ind ls : forall idx, (exists cs, comments_from y ind idx ls = Val cs) \/ comments_from y ind idx ls = Raise IndexError.
Proof.
  induction ls as [|l ls IH]; intros idx; cbn [comments_from]; eauto. apply andthen_index; [apply comments_of_line_index|]. intros cs. apply andthen_index; eauto.
Qed.
Lemma comments_from_raises y ind l ls : In l ls -> (forall idx, comments_of_line y ind idx l = Raise IndexError) -> forall idx, comments_from y ind idx ls = Raise IndexError.
Proof.
  intros H R. induction ls as [|x ls IH]; [destruct H|]. intros idx. cbn [comments_from]. destruct H as [->|H]; [now rewrite R|].
  destruct (comments_of_line_index y ind idx x) as [(cs & ->)| ->]; cbn [andthen]; auto. now rewrite IH.
Qed.
Lemma blank_strip s : str_forall is_space s = true -> strip s = "".
Proof.
  intros H. destruct (strip_by_spec is_space s) as (a & b & E & _). destruct (strip s) as [|c r] eqn:Es; auto. destruct (strip_by_head _ _ _ _ Es) as (x & y & E2 & _ & Hc).
  rewrite E2, str_forall_app in H. cbn [str_forall] in H. apply andb_true_iff in H as [_ H]. apply andb_true_iff in H as [H _]. congruence.
Qed.
Lemma lone_dash_raises y l : ~ In (char 9) (chars l) -> Trimmed l "-" -> forall idx, comments_of_line y Spaces idx l = Raise IndexError.
Proof.
  intros N (a & b & E & Ha & Hb & _) idx. apply blank_spec in Ha, Hb. unfold comments_of_line.
  assert (R : remove_spacing l = String dash_c b).
  { rewrite (remove_spacing_no_tab l N), E. clear -Ha. induction a as [|x a IH]; cbn [String.append lstrip lstrip_by]; [reflexivity|]. cbn [str_forall] in Ha. apply andb_true_iff in Ha as [-> Ha]. now apply IH. }
  rewrite R. rewrite Ascii.eqb_refl, orb_true_r. cbn [count_indent]. unfold key_of_line. rewrite R, Ascii.eqb_refl.
  assert (Z : strip (String space_c b) = "") by (apply blank_strip; cbn [str_forall]; now rewrite Hb). now rewrite Z.
Qed.
Lemma spaces_detected lines : spaces_only lines -> detect_indentation lines = Spaces.
Proof.
  intros [(l & Hl & Sp) N]. unfold detect_indentation.
  assert (G : forall c, existsb (contains (String c "")) lines = true <-> exists l, In l lines /\ In c (chars l)).
  { intros c. rewrite existsb_exists. split; intros (x & Hx & H); exists x; split; auto; now apply PyFileFacts.contains_char_In. }
  assert (T : existsb (contains (String tab_c "")) lines = false) by (apply not_true_iff_false; rewrite G; intros (x & Hx & H); exact (N x Hx H)).
  rewrite T. cbn [andb]. change " " with (String (char 32) ""). rewrite (proj2 (G (char 32))) by eauto. reflexivity.
Qed.
Lemma detected_spaces lines : detect_indentation lines = Spaces -> spaces_only lines.
Proof.
  unfold detect_indentation.
  assert (G : forall c, existsb (contains (String c "")) lines = true <-> exists l, In l lines /\ In c (chars l)).
  { intros c. rewrite existsb_exists. split; intros (x & Hx & H); exists x; split; auto; now apply PyFileFacts.contains_char_In. }
  pose proof (G (char 32)) as Gs. pose proof (G tab_c) as Gt. change (String (char 32) "") with " " in Gs.
  destruct (existsb (contains (String tab_c "")) lines), (existsb (contains " ") lines); cbn [andb]; intros E; try discriminate.
  split; [now apply Gs|]. intros l Hl T. assert (X : false = true) by (apply Gt; eauto). discriminate.
Qed.

Lemma comments_from_total y ind ls : (forall l, In l ls -> ~ lone_dash l \/ (ind = Tabs)) -> forall idx, exists cs, comments_from y ind idx ls = Val cs.
Proof.
  induction ls as [|l ls IH]; intros H idx; cbn [comments_from]; eauto.
  assert (C : exists cs, comments_of_line y ind idx l = Val cs).
  { unfold comments_of_line. destruct (remove_spacing l) as [|c r] eqn:R; eauto. destruct (_ || _); eauto. destruct (count_indent l ind) as [n|] eqn:CI; eauto.
    assert (K : exists k, key_of_line l = Val k).
    { destruct (H l (or_introl eq_refl)) as [D|T]; [eapply key_of_line_total; eauto|]. subst ind. apply (key_of_line_total l c r R). intros (a & b & E & _).
      cbn [count_indent] in CI. destruct (contains "-" l) eqn:Cn; [discriminate|]. assert (contains "-" l = true) by (apply contains_spec; exists a, b; exact E). congruence. }
    destruct K as (k & ->). cbn [andthen]. destruct (is_empty k); eauto. apply line_comments_Val. }
  destruct C as (cs & ->). cbn [andthen]. destruct (IH (fun x Hx => H x (or_intror Hx)) (S idx)) as (cs' & ->). cbn [andthen]. eauto.
Qed.
Lemma merge_total cs : exists ms, merge_comments cs = Val ms.
Proof.
  unfold merge_comments. assert (G : forall gs, (forall g, In g gs -> snd g <> []) -> exists ms, exc_map merge_group gs = Val ms).
  { induction gs as [|[k [|c l]] gs IH]; intros H; cbn [exc_map]; eauto; [exfalso; apply (H _ (or_introl eq_refl)); reflexivity|].
    cbn [merge_group snd andthen]. destruct IH as (ms & ->); [intros g Hg; apply H; now right|]. cbn [andthen]. eauto. }
  apply G. unfold group_comments. assert (F : forall cs gs, (forall g, In g gs -> snd g <> []) -> forall g, In g (fold_left (fun gs c => group_add c gs) cs gs) -> snd g <> []).
  { clear. induction cs as [|c cs IH]; cbn [fold_left]; auto. intros gs H. apply IH. clear IH. induction gs as [|[k l] gs IH]; cbn [group_add]; [intros g [<-|[]]; discriminate|].
    destruct (Nat.eqb k (key_line c)); intros g [<-|Hg]; cbn [snd].
    - destruct l; discriminate.
    - apply H. now right.
    - apply (H (k, l)). now left.
    - apply IH; auto. intros x Hx. apply H. now right. }
  intros g Hg. eapply F; [|exact Hg]. intros x [].
Qed.
Lemma insert_total cs : forall lines, Forall (fun c => key_line c < List.length lines /\ (replaces_dash c = true -> 2 <= spacing_count c)) cs -> exists out, insert_comments cs lines = Val out.
Proof.
  induction cs as [|c cs IH]; intros lines F; cbn [insert_comments]; eauto. inversion F as [|? ? [L D] F']; subst.
  assert (I : exists mid, insert_comment c lines = Val mid).
  { unfold insert_comment, doc_entry, spacing. destruct (replaces_dash c).
    - specialize (D eq_refl). destruct (Nat.ltb_spec (spacing_count c) 2) as [X|_]; [lia|]. cbn [andthen].
      destruct (nth_error lines (key_line c)) eqn:N; [|apply nth_error_None in N; lia]. cbn [of_option andthen]. eauto.
    - cbn [andthen]. eauto. }
  destruct I as (mid & I). rewrite I. cbn [andthen]. apply IH. apply insert_comment_length in I. eapply Forall_impl; [|exact F']. intros x [A B]. split; auto. lia.
Qed.
Lemma two_wide_indent l : two_wide l -> 2 <= leading is_indent (str_map dash_to_space l).
Proof.
  intros (p & q & r & -> & Hp & Hq). assert (X : forall c, code c = 32 \/ code c = 45 -> is_indent (dash_to_space c) = true).
  { intros c H. rewrite <- (ascii_nat_embedding c). fold (code c). destruct H as [-> | ->]; reflexivity. }
  cbn [str_map leading]. rewrite (X p Hp), (X q Hq). lia.
Qed.

Lemma narrow_indent l : ~ In (char 9) (chars l) -> 2 <= leading is_indent (str_map dash_to_space l) -> two_wide l.
Proof.
  intros N H. assert (X : forall c, c <> char 9 -> is_indent (dash_to_space c) = true -> code c = 32 \/ code c = 45).
  { intros c Hc Hi. unfold is_indent, dash_to_space in Hi. destruct (Ascii.eqb_spec c dash_c) as [->|_]; [right; reflexivity|].
    destruct (Ascii.eqb_spec c space_c) as [->|_]; [left; reflexivity|]. destruct (Ascii.eqb_spec c tab_c) as [->|_]; [exfalso; now apply Hc|discriminate]. }
  destruct l as [|p [|q r]]; cbn [str_map leading] in H; [lia| |].
  - destruct (is_indent _); lia.
  - destruct (is_indent (dash_to_space p)) eqn:P; [|lia]. destruct (is_indent (dash_to_space q)) eqn:Q; [|lia]. exists p, q, r. split; auto.
    split; apply X; auto; intros ->; apply N; cbn [chars In]; auto.
Qed.
Lemma insert_comment_index c lines : (exists out, insert_comment c lines = Val out) \/ insert_comment c lines = Raise IndexError.
Proof.
  unfold insert_comment, doc_entry, spacing. destruct (replaces_dash c); [|left; cbn [andthen]; eauto]. destruct (Nat.ltb _ 2); [now right|]. cbn [andthen].
  destruct (nth_error lines (key_line c)); cbn [of_option andthen]; eauto.
Qed.
Lemma insert_raises cs c : In c cs -> replaces_dash c = true -> spacing_count c < 2 -> forall lines, insert_comments cs lines = Raise IndexError.
Proof.
  intros H D L. induction cs as [|x cs IH]; [destruct H|]. intros lines. cbn [insert_comments]. destruct H as [->|H].
  - unfold insert_comment, doc_entry, spacing. rewrite D. apply Nat.ltb_lt in L. now rewrite L.
  - destruct (insert_comment_index x lines) as [(mid & ->)| ->]; cbn [andthen]; auto.
Qed.
Lemma sort_In c cs : In c (sort_desc cs) <-> In c cs.
Proof.
  assert (D : forall x l, In c (insert_desc x l) <-> x = c \/ In c l).
  { intros x l. induction l as [|d l IH]; cbn [insert_desc]; [reflexivity|]. destruct (Nat.leb _ _); [reflexivity|]. cbn [In]. rewrite IH. tauto. }
  induction cs as [|x cs IH]; cbn [sort_desc]; [reflexivity|]. rewrite D, IH. reflexivity.
Qed.
Lemma in_nth {A} (l : list A) x : In x l -> exists i, nth_error l i = Some x.
Proof. apply In_nth_error. Qed.

(** A comment is found for the line. *)
Definition documented (y : yaml) (idx : nat) (l : string) : Prop :=
  (exists p s, In p (y_positions y) /\ comment_at (y_lines y) idx l p = Val s /\ s <> "") /\ exists k, key_of_line l = Val k /\ k <> "".
Definition refused (y : yaml) : Prop :=
  spaces_only (y_lines y) /\
  ((exists l, In l (y_lines y) /\ Trimmed l "-") \/
   (exists idx l, nth_error (y_lines y) idx = Some l /\ dash_first l /\ ~ two_wide l /\ documented y idx l)).

(** The temporary copy can be made for every file but these, and for these [IndexError] is raised. *)
Theorem C91_all_files : forall y,
  (refused y -> temporary_string y = Raise IndexError) /\ (~ refused y -> exists out, temporary_string y = Val out).
Proof.
  intros y. split.
  - intros [Sp W]. unfold temporary_string, rewritten_lines.
    assert (G : (exists l, In l (y_lines y) /\ Trimmed l "-") -> extract_comments y = Raise IndexError).
    { intros (l & Hl & D). unfold extract_comments. rewrite (spaces_detected _ Sp). rewrite (comments_from_raises y Spaces l); auto. apply lone_dash_raises; auto. now apply (proj2 Sp). }
    destruct W as [W|(idx & l & Nl & (a & b & El & Ha) & Tw & (p & s & Hp & Cs & Ns) & k & K & Nk)]; [now rewrite (G W)|].
    destruct (comments_from_index y Spaces (y_lines y) 0) as [(cs & E)|E].
    2:{ unfold extract_comments. rewrite (spaces_detected _ Sp), E. reflexivity. }
    destruct (merge_total cs) as (ms & M).
    assert (X : extract_comments y = Val ms) by (unfold extract_comments; now rewrite (spaces_detected _ Sp), E).
    rewrite X. cbn [andthen]. destruct (extract_line _ _ _ _ X Nl) as (cl & Ecl & R); [now rewrite (spaces_detected _ Sp)|].
    rewrite (spaces_detected _ Sp) in Ecl.
    assert (T : ~ In (char 9) (chars l)) by (apply (proj2 Sp); eapply nth_error_In; eauto).
    assert (Rs : exists r, remove_spacing l = String dash_c r).
    { rewrite (remove_spacing_no_tab l T), El. exists b. apply blank_spec in Ha. clear -Ha. induction a as [|x a IH]; [reflexivity|]. cbn [str_forall] in Ha. apply andb_true_iff in Ha as [Hx Ha]. unfold lstrip in *. cbn [String.append lstrip_by]. rewrite Hx. now apply IH. }
    destruct Rs as (r & Rs). unfold comments_of_line in Ecl. rewrite Rs, Ascii.eqb_refl, orb_true_r in Ecl. cbn [count_indent] in Ecl. rewrite K in Ecl. cbn [andthen] in Ecl.
    destruct (is_empty k) eqn:Ek; [destruct k; [congruence|discriminate]|].
    destruct cl as [|c cl].
    { exfalso. destruct (line_comments_texts _ _ _ _ _ _ _ _ _ Ecl) as (ss & F & Fl). destruct (Forall2_In_l _ _ _ _ F Hp) as (s' & Hs & Es).
      assert (s' = s) by congruence. subst s'. symmetry in Fl. cbn [map] in Fl.
      assert (Z : In s (filter (fun s => negb (is_empty s)) ss)) by (apply filter_In; split; auto; destruct s; [congruence|reflexivity]). rewrite Fl in Z. destruct Z. }
    destruct R as (m & Hm & Mg). destruct (extract_comments_spec _ _ X) as [_ I]. destruct (I m Hm) as (l' & ch & r' & N' & R' & _ & _ & D' & C').
    assert (Km : key_line m = idx).
    { cbn [merge_group] in Mg. injection Mg as <-. cbn [key_line]. destruct (line_comments_In _ _ _ _ _ _ _ _ _ c Ecl (or_introl eq_refl)) as (_ & -> & _). reflexivity. }
    rewrite Km, Nl in N'. injection N' as <-. rewrite Rs in R'. injection R' as <- _. rewrite Ascii.eqb_refl in D'.
    rewrite (insert_raises (sort_desc ms) m); auto; [now apply sort_In|].
    assert (Lc : Some (leading is_indent (str_map dash_to_space l)) = Some (spacing_count m)).
    { rewrite <- C'. destruct (spacing_kind m) eqn:Sk; try reflexivity. cbn [count_indent] in C' |- *. destruct (contains "-" l); [discriminate|reflexivity]. }
    injection Lc as Lc. destruct (Nat.lt_ge_cases (spacing_count m) 2); auto. exfalso. apply Tw, narrow_indent; auto. lia.
  - intros N. unfold temporary_string, rewritten_lines.
    assert (E : exists ms, extract_comments y = Val ms).
    { unfold extract_comments. destruct (detect_indentation (y_lines y)) eqn:D; eauto.
      - destruct (comments_from_total y Spaces (y_lines y)) with (idx := 0) as (cs & ->); [|apply merge_total]. intros l Hl. left. intros L. apply N. split; [now apply detected_spaces|left; exists l; auto].
      - destruct (comments_from_total y Tabs (y_lines y) (fun l _ => or_intror eq_refl) 0) as (cs & ->). apply merge_total. }
    destruct E as (ms & E). rewrite E. cbn [andthen]. destruct (extract_comments_spec _ _ E) as [Srt I].
    destruct (insert_total (sort_desc ms) (y_lines y)) as (out & ->); [|cbn [andthen]; eauto].
    apply Forall_forall. intros c Hc. apply (proj1 (sort_In c ms)) in Hc. destruct (I c Hc) as (l & ch & r & Nl & R & K & NE & D & C).
    split; [apply nth_error_Some; congruence|]. intros Dc. rewrite Dc in D. symmetry in D. apply Ascii.eqb_eq in D. subst ch.
    destruct (remove_spacing_head _ _ _ R) as (sp & t & El & Hsp & _).
    assert (Du : detect_indentation (y_lines y) <> Unclear).
    { intros U. unfold extract_comments in E. rewrite U in E. injection E as <-. destruct Hc. }
    destruct (extract_line _ _ _ _ E Nl Du) as (cl & Ecl & G).
    destruct cl as [|d cl]; [exfalso; now apply (G c Hc)|]. destruct G as (m & Hm & Mg).
    assert (Dn : ~ dash_first l \/ dash_first l) by (right; exists sp, t; split; [exact El|now apply blank_spec]).
    destruct (comments_of_line_In _ _ _ _ _ d Ecl (or_introl eq_refl)) as (_ & _ & Nd & (p & Hp & Hs) & ch' & r' & R2 & K2 & NE2 & _ & C2).
    destruct (detect_indentation (y_lines y)) eqn:Di; [| |congruence].
    2:{ exfalso. cbn [count_indent] in C2. destruct (contains "-" l) eqn:Cn; [discriminate|]. assert (contains "-" l = true) by (apply contains_spec; exists sp, t; exact El). congruence. }
    cbn [count_indent] in C2.
    assert (Lc : leading is_indent (str_map dash_to_space l) = spacing_count c).
    { destruct (spacing_kind c) eqn:Sk; cbn [count_indent] in C; try congruence. destruct (contains "-" l); congruence. }
    rewrite <- Lc. destruct (Nat.lt_ge_cases (leading is_indent (str_map dash_to_space l)) 2) as [Lt|]; auto. exfalso. apply N.
    split; [now apply detected_spaces|]. right. exists (key_line c), l. split; auto. split; [exists sp, t; split; [exact El|now apply blank_spec]|].
    split; [intros Tw; apply two_wide_indent in Tw; lia|]. split; [exists p, (full_string d); auto|]. exists (for_key d). auto.
Qed.
Print Assumptions C91_all_files.

(** Full claim: the copy can be made for every file. *)
Theorem C91_copy_refuted : exists y, y_lines y = ["-1: x  # c"] /\ temporary_string y = Raise IndexError.
Proof. exists (Yaml "a.yaml" ["-1: x  # c"] [Side]). split; [reflexivity|vm_compute; reflexivity]. Qed.
Print Assumptions C91_copy_refuted.
(** Proved in terms of the lines: when dashes at the beginning of a line come after a space or before a space or dash, only lines with
    nothing but a dash make it fail, and only if the file has spaces and no tabs. *)
Theorem C91_copy_partial : forall y,
  (forall l, In l (y_lines y) -> dash_first l -> Trimmed l "-" \/ two_wide l) ->
  (spaces_only (y_lines y) /\ (exists l, In l (y_lines y) /\ Trimmed l "-") -> temporary_string y = Raise IndexError) /\
  (~ (spaces_only (y_lines y) /\ exists l, In l (y_lines y) /\ Trimmed l "-") -> exists out, temporary_string y = Val out).
Proof.
  intros y W. destruct (C91_all_files y) as [A B]. split; [intros [Sp L]; apply A; split; auto|]. intros N. apply B. intros [Sp [L|(idx & l & Nl & D & Tw & _)]]; [now apply N|].
  apply nth_error_In in Nl. destruct (W l Nl D) as [T|T]; [|now apply Tw]. apply N. eauto.
Qed.
Print Assumptions C91_copy_partial.
Definition list_file : yaml := Yaml "a.yaml" ["items:  # the items"; "  - name: 1  # first"; "  -"; "    name: 2"] [Side; Above].
Definition good_file : yaml := Yaml "a.yaml" ["items:  # the items"; "  - name: 1  # first"; "- 2"] [Side; Above].
Example C91_example :
  (forall l, In l (y_lines list_file) -> dash_first l -> Trimmed l "-" \/ two_wide l) /\ temporary_string list_file = Raise IndexError /\
  (forall l, In l (y_lines good_file) -> dash_first l -> Trimmed l "-" \/ two_wide l) /\ exists out, temporary_string good_file = Val out.
Proof.
  split; [|split; [vm_compute; reflexivity|split; [|eexists; vm_compute; reflexivity]]].
  - intros l Hl D. right. destruct Hl as [<-|[<-|[<-|[<-|[]]]]]; try solve [eexists _, _, _; split; [reflexivity|split; cbn; auto]].
    destruct D as (a & b & E & F). destruct a as [|x a]; [discriminate|]. exfalso. injection E as <- _. inversion F as [|? ? W _]. vm_compute in W. lia.
  - intros l Hl D. right. destruct Hl as [<-|[<-|[<-|[]]]]; try solve [eexists _, _, _; split; [reflexivity|split; cbn; auto]].
    destruct D as (a & b & E & F). destruct a as [|x a]; [discriminate|]. exfalso. injection E as <- _. inversion F as [|? ? W _]. vm_compute in W. lia.
Qed.
