(** Further facts about the YAML rewriting: file names, files without comments, completeness,
    side comments, and the calls that load the files. *)
From Coq Require Import Ascii String List Bool Arith ZArith Lia.
From Verif Require Import PyStr PyStrFacts Exc Yaml SpecNames SpecText SpecImports NamesFacts DocstringFacts SpecYaml
  YamlFacts YamlLines YamlComments YamlWords YamlLoad.
Import ListNotations.
Local Open Scope string_scope.
Local Open Scope nat_scope.

(** ** File names *)
Lemma rfind_aux c s : forall i last,
  (rfind_char_aux c s i last = last /\ str_forall (fun d => negb (Ascii.eqb c d)) s = true) \/
  exists a b, s = a ++ String c b /\ str_forall (fun d => negb (Ascii.eqb c d)) b = true /\
              rfind_char_aux c s i last = Some (i + String.length a).
Proof.
  induction s as [|d s IH]; intros i last; [left; auto|]. cbn [rfind_char_aux str_forall].
  destruct (IH (S i) (if Ascii.eqb c d then Some i else last)) as [[E F]|(a & b & E & F & R)].
  - rewrite E, F. destruct (Ascii.eqb c d) eqn:K.
    + right. apply Ascii.eqb_eq in K. subst d. exists "", s. simpl. rewrite Nat.add_0_r. auto.
    + left. auto.
  - right. exists (String d a), b. subst s. rewrite R. simpl. split; [auto|]. split; [auto|]. f_equal. lia.
Qed.

Definition yaml_name (name : string) : Prop :=
  exists stem, stem <> "" /\ (name = stem ++ ".yaml" \/ name = stem ++ ".yml").

Lemma dot_suffix b x : str_forall (fun d => negb (Ascii.eqb dot_c d)) b = true ->
  endswith (String dot_c x) (String dot_c b) = true -> b = x.
Proof.
  intros F H. apply endswith_spec in H as (r & H). destruct r as [|c r]; cbn [append] in H; [injection H as H; auto|injection H as H1 H2].
  subst b. rewrite str_forall_app in F. apply andb_true_iff in F as [_ F]. cbn [str_forall] in F.
  rewrite Ascii.eqb_refl in F. discriminate.
Qed.

Lemma suffix_unique a b a' b' : str_forall (fun d => negb (Ascii.eqb dot_c d)) b = true ->
  str_forall (fun d => negb (Ascii.eqb dot_c d)) b' = true ->
  a ++ String dot_c b = a' ++ String dot_c b' -> a = a' /\ b = b'.
Proof.
  intros Fb Fb'. revert a'; induction a as [|c a IH]; intros [|c' a'] E; cbn [append] in E;
    [injection E as E2 | injection E as E1 E2 | injection E as E1 E2 | injection E as E1 E2].
  - auto.
  - subst b. rewrite str_forall_app in Fb. apply andb_true_iff in Fb as [_ F]. cbn [str_forall] in F.
    rewrite Ascii.eqb_refl in F. discriminate.
  - subst b'. rewrite str_forall_app in Fb'. apply andb_true_iff in Fb' as [_ F]. cbn [str_forall] in F.
    rewrite Ascii.eqb_refl in F. discriminate.
  - destruct (IH _ E2) as [-> ->]. subst. auto.
Qed.

Lemma path_suffix_yaml name :
  endswith ".yaml" (path_suffix name) || endswith ".yml" (path_suffix name) = true <-> yaml_name name.
Proof.
  unfold path_suffix, rfind_char. destruct (rfind_aux dot_c name 0 None) as [[E F]|(a & b & E & F & R)].
  - rewrite E. split; [discriminate|]. intros (stem & _ & [-> | ->]); rewrite str_forall_app in F;
      apply andb_true_iff in F as [_ F]; vm_compute in F; discriminate.
  - rewrite R. cbn [Nat.add]. subst name. rewrite drop_app, length_app_s. cbn [String.length].
    split.
    + destruct (Nat.ltb 0 (String.length a) && Nat.ltb (String.length a) (String.length a + S (String.length b) - 1)) eqn:K;
        [|discriminate].
      apply andb_true_iff in K as [K _]. apply Nat.ltb_lt in K. intros H. exists a. split; [intros ->; simpl in K; lia|].
      apply orb_true_iff in H as [H|H]; apply dot_suffix in H; auto; subst b; auto.
    + intros (stem & Hs & H).
      assert (G : a = stem /\ (b = "yaml" \/ b = "yml")).
      { destruct H as [H|H]; (apply suffix_unique in H; [|exact F|reflexivity]); destruct H as [-> ->]; auto. }
      destruct G as [-> Hb]. clear H R.
      assert (L : 0 < String.length stem) by (destruct stem; [congruence|simpl; lia]).
      assert (Lb : 0 < String.length b) by (destruct Hb as [-> | ->]; simpl; lia).
      replace (Nat.ltb 0 (String.length stem)) with true by (symmetry; apply Nat.ltb_lt; lia).
      replace (Nat.ltb _ _) with true by (symmetry; apply Nat.ltb_lt; lia).
      destruct Hb as [-> | ->]; vm_compute; reflexivity.
Qed.

Lemma pos_mem_spec p l : pos_mem p l = true <-> In p l.
Proof.
  unfold pos_mem. rewrite existsb_exists. split.
  - intros (x & Hx & E). destruct p, x; try discriminate; auto.
  - intros H. exists p. split; [auto|destruct p; auto].
Qed.

Lemma yaml_init_spec name arg text :
  (In Above (positions_of arg) /\ In Below (positions_of arg) \/ ~ yaml_name name ->
   yaml_init name arg text = Raise YamlError) /\
  (~ (In Above (positions_of arg) /\ In Below (positions_of arg)) -> yaml_name name ->
   yaml_init name arg text = Val (Yaml name (splitlines text) (positions_of arg))).
Proof.
  unfold yaml_init. rewrite <- !pos_mem_spec, <- path_suffix_yaml.
  destruct (pos_mem Above _) eqn:EA, (pos_mem Below _) eqn:EB; simpl;
    destruct (endswith ".yaml" _ || endswith ".yml" _) eqn:E; simpl; split; intros; auto; try tauto;
    try (exfalso; intuition congruence).
Qed.

(** ** Files without comments *)
Lemma no_comments y : extract_comments y = Val [] -> temporary_string y = Val (join nl (y_lines y)).
Proof. intros H. unfold temporary_string, rewritten_lines. rewrite H. reflexivity. Qed.

Lemma detect_spec lines :
  detect_indentation lines = Unclear <->
  ((exists l, In l lines /\ In (char 9) (chars l)) <-> (exists l, In l lines /\ In (char 32) (chars l))).
Proof.
  assert (G : forall c, existsb (contains (String c "")) lines = true <-> exists l, In l lines /\ In c (chars l)).
  { intros c. rewrite existsb_exists. split; intros (l & Hl & H); exists l; split; auto.
    - rewrite contains_spec in H. destruct H as (a & b & ->). rewrite chars_app, in_app_iff. simpl. auto.
    - rewrite contains_char. clear Hl. induction l as [|d l IH]; [destruct H|]. cbn [str_exists].
      destruct H as [->|H]; [now rewrite Ascii.eqb_refl|]. rewrite (IH H). apply orb_true_r. }
  unfold detect_indentation. rewrite <- !G. change (String (char 32) "") with " ". change (char 9) with tab_c.
  destruct (existsb (contains (String tab_c "")) lines), (existsb (contains " ") lines); simpl; intuition congruence.
Qed.

Definition no_hash (l : string) : Prop := ~ In (char 35) (chars l).

Lemma find_unquoted_no c line : is_quote c = false -> ~ In c (chars line) -> find_unquoted c line = None.
Proof.
  intros Hq H. destruct (find_unquoted c line) as [i|] eqn:E; [|auto]. exfalso.
  apply (find_unquoted_aux_Some c _ _ _ _ Hq) in E as (a & b & -> & _). apply H. rewrite chars_app, in_app_iff. simpl. auto.
Qed.
Lemma side_no_hash line : no_hash line -> side_comment line = "".
Proof. intros H. unfold side_comment. rewrite (find_unquoted_no hash_c line eq_refl); auto. Qed.
Lemma has_hash_no col l : no_hash l -> has_hash col l = false.
Proof.
  intros H. destruct (has_hash col l) eqn:E; [|auto]. exfalso. apply has_hash_spec in E as (a & b & -> & _). apply H.
  rewrite chars_app, in_app_iff. simpl. auto.
Qed.
Lemma run_no col l : Forall no_hash l -> run col l = [].
Proof. destruct 1; simpl; auto. now rewrite has_hash_no. Qed.

Lemma block_no_hash lines idx above : Forall no_hash lines -> block_comment lines idx above = Val "".
Proof.
  intros F. unfold block_comment. destruct (nth_error lines idx) as [line|] eqn:E; [|auto].
  destruct (truthy_index _) eqn:T; [|auto].
  destruct (strip (remove_char dash_c (strip line))) as [|c r] eqn:Es.
  { pose proof (block_comment_total lines idx above) as (s & Hs). unfold block_comment in Hs. rewrite E, T, Es in Hs. discriminate. }
  assert (L : idx < List.length lines) by (apply nth_error_Some; congruence). cbv zeta.
  destruct above.
  - rewrite (block_lines_run lines _ (-1) (rev (firstn idx lines) ++ rev lines)%list).
    + rewrite run_no; [reflexivity|]. apply Forall_app. rewrite Forall_forall in F.
      split; apply Forall_forall; intros x Hx; apply F.
      * apply in_rev in Hx. rewrite <- (firstn_skipn idx lines). apply in_or_app. auto.
      * now apply in_rev.
    + intros k. apply above_visited. lia.
    + rewrite app_length, !rev_length, firstn_length. lia.
  - rewrite (block_lines_run lines _ 1 (skipn (S idx) lines)).
    + rewrite run_no; [reflexivity|]. rewrite Forall_forall in F. apply Forall_forall. intros x Hx. apply F.
      rewrite <- (firstn_skipn (S idx) lines). apply in_or_app. auto.
    + intros k. apply below_visited.
    + rewrite skipn_length. lia.
Qed.

Lemma comment_at_no_hash lines idx line p : Forall no_hash lines -> no_hash line -> comment_at lines idx line p = Val "".
Proof.
  intros F H. destruct p; unfold comment_at; try rewrite block_no_hash by auto; try reflexivity.
  now rewrite side_no_hash.
Qed.

Lemma line_comments_no lines ind idx line key n dash ps : Forall no_hash lines -> no_hash line ->
  line_comments lines ind idx line key n dash ps = Val [].
Proof.
  intros F H. induction ps as [|p ps IH]; cbn [line_comments]; [auto|].
  rewrite comment_at_no_hash by auto. cbn [andthen]. rewrite IH. reflexivity.
Qed.

(** A line that consists of one list dash only. *)
Definition lone_dash (l : string) : Prop := Trimmed l "-".

Lemma join_lstrip_blank l r : join "" (map lstrip l) = r -> str_forall is_space r = true ->
  str_forall is_space (join (String tab_c "") l) = true.
Proof.
  revert r; induction l as [|x l IH]; intros r H B; [auto|].
  destruct (lstrip_by_spec is_space x) as (a & E & Ha & _).
  assert (E2 : join "" (map lstrip (x :: l)) = lstrip x ++ join "" (map lstrip l)).
  { destruct l; [simpl; now rewrite app_nil_r_s|]. reflexivity. }
  rewrite E2 in H. subst r. rewrite str_forall_app in B. apply andb_true_iff in B as [B1 B2].
  specialize (IH _ eq_refl B2).
  assert (Bx : str_forall is_space x = true) by (rewrite E, str_forall_app, Ha; exact B1).
  destruct l as [|y l]; [simpl; auto|]. rewrite join_cons by discriminate. rewrite !str_forall_app, Bx, IH. reflexivity.
Qed.

Lemma key_of_line_total line ch r : remove_spacing line = String ch r -> ~ lone_dash line ->
  exists k, key_of_line line = Val k.
Proof.
  intros Hr Hd. unfold key_of_line. rewrite Hr.
  set (l := if Ascii.eqb ch dash_c then String space_c r else String ch r).
  destruct (strip l) as [|f fr] eqn:Es.
  - exfalso. apply strip_by_all in Es. unfold l in Es. destruct (Ascii.eqb ch dash_c) eqn:Ec.
    + apply Ascii.eqb_eq in Ec. subst ch. cbn [str_forall] in Es. apply andb_true_iff in Es as [_ Es].
      apply Hd. unfold lone_dash.
      unfold remove_spacing in Hr.
      assert (G : forall l, join "" (map lstrip l) = String dash_c r ->
        exists a b, join (String tab_c "") l = a ++ String dash_c b /\ str_forall is_space a = true /\ str_forall is_space b = true).
      { clear -Es. induction l as [|x l IH]; intros H; [discriminate|].
        assert (E2 : join "" (map lstrip (x :: l)) = lstrip x ++ join "" (map lstrip l)).
        { destruct l; [simpl; now rewrite app_nil_r_s|]. reflexivity. }
        rewrite E2 in H. destruct (lstrip_by_spec is_space x) as (a & E & Ha & Hh). fold (lstrip x) in E, Hh.
        destruct (lstrip x) as [|c t] eqn:Ex.
        - cbn [append] in H. destruct (IH H) as (a' & b' & E' & Ha' & Hb').
          assert (Hx : str_forall is_space x = true) by (rewrite E, str_forall_app, Ha; auto).
          destruct l as [|y l]; [discriminate|]. rewrite join_cons by discriminate. rewrite E'.
          exists (x ++ String tab_c a'), b'. split; [rewrite app_assoc_s; reflexivity|]. split; [|auto].
          rewrite str_forall_app, Hx. cbn [str_forall]. rewrite Ha'. reflexivity.
        - cbn [append] in H. injection H as -> H. 
          assert (Es2 : str_forall is_space (t ++ join "" (map lstrip l)) = true) by now rewrite H.
          rewrite str_forall_app in Es2. apply andb_true_iff in Es2 as [Bt Bl].
          apply (join_lstrip_blank l _ eq_refl) in Bl.
          destruct l as [|y l].
          + exists a, t. simpl. auto.
          + rewrite join_cons by discriminate. rewrite E. exists a, (t ++ String tab_c (join (String tab_c "") (y :: l))).
            split; [rewrite !app_assoc_s; reflexivity|]. split; [auto|]. rewrite str_forall_app, Bt. cbn [str_forall].
            rewrite Bl. reflexivity. }
      destruct (G _ Hr) as (a & b & E & Ha & Hb). rewrite join_split in E. exists a, b.
      split; [exact E|]. rewrite <- !blank_spec. split; [auto|]. split; [auto|].
      assert (W : ~ white dash_c) by (now apply not_white).
      split; right; [exists dash_c, ""|exists "", dash_c]; auto.
    + destruct (remove_spacing_head _ _ _ Hr) as (? & ? & _ & _ & Hc). cbn [str_forall] in Es. rewrite Hc in Es. discriminate.
  - cbv zeta. fold l. destruct (truthy_index (find_unquoted colon_c l)); [|eauto].
    destruct (startswith dq _ && endswith dq _); [eauto|]. destruct (startswith _ _ && endswith _ _); eauto.
Qed.

Lemma comments_from_no y ind rest : Forall no_hash (y_lines y) -> (forall l, In l rest -> no_hash l /\ ~ lone_dash l) ->
  forall idx, comments_from y ind idx rest = Val [].
Proof.
  intros F. induction rest as [|line rest IH]; intros H idx; cbn [comments_from]; [auto|].
  destruct (H line (or_introl eq_refl)) as [H1 H2].
  assert (E : comments_of_line y ind idx line = Val []).
  { unfold comments_of_line. destruct (remove_spacing line) as [|c r] eqn:Er; [auto|].
    destruct (is_alpha c || Ascii.eqb c dash_c); [|auto]. destruct (count_indent line ind); [|auto].
    destruct (key_of_line_total _ _ _ Er H2) as (k & ->). cbn [andthen]. destruct (is_empty k); [auto|].
    now apply line_comments_no. }
  rewrite E. cbn [andthen]. rewrite IH; [reflexivity|]. intros l Hl. apply H. now right.
Qed.

Lemma no_hash_unchanged y : Forall no_hash (y_lines y) -> Forall (fun l => ~ lone_dash l) (y_lines y) ->
  temporary_string y = Val (join nl (y_lines y)).
Proof.
  intros F D. apply no_comments. unfold extract_comments.
  assert (E : forall ind, comments_from y ind 0 (y_lines y) = Val []).
  { intros ind. apply comments_from_no; auto. rewrite Forall_forall in F, D. auto. }
  destruct (detect_indentation (y_lines y)); rewrite ?E; reflexivity.
Qed.

(** ** Side comments *)
Lemma side_comment_spec line i a b :
  find_unquoted hash_c line = Some (S i) -> line = a ++ " #" ++ b -> String.length a = i ->
  side_comment line = (let t := strip b in if is_empty t then "" else if ends_dot t then t else t ++ ".").
Proof.
  intros H E L. unfold side_comment. rewrite H. cbn [truthy_index]. replace (S i - 1) with i by lia.
  assert (N : str_nth line i = Some space_c).
  { rewrite E, <- L. change (" #" ++ b) with (String space_c ("#" ++ b)). apply str_nth_app. }
  rewrite N. rewrite Ascii.eqb_refl.
  assert (D : drop (S i + 1) line = b).
  { rewrite E. replace (S i + 1) with (String.length (a ++ " #")) by (rewrite length_app_s; simpl; lia).
    rewrite <- app_assoc_s. apply drop_app. }
  rewrite D. cbv zeta.
  assert (R : rstrip (strip b) = strip b).
  { destruct (strip_trimmed b) as [E0|(_ & r & c & E1 & Hc)]; [now rewrite E0|]. rewrite E1. now apply rstrip_id. }
  rewrite R. destruct (is_empty (strip b)) eqn:Ee; simpl.
  - destruct (strip b); [auto|discriminate].
  - destruct (ends_dot (strip b)); auto.
Qed.
