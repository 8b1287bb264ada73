(** Facts about [rename_declaration]. *)
From Coq Require Import Ascii String List Bool Arith Lia.
From Verif Require Import PyStr PyStrFacts Utils SpecNames SpecText SpecYaml NamesFacts DocstringFacts YamlFacts YamlComments SpecDeclaration Output.
Import ListNotations.
Local Open Scope string_scope.
Local Open Scope nat_scope.

Definition word_code (c : ascii) : bool :=
  let n := nat_of_ascii c in
  between 65 90 n || between 97 122 n || Nat.eqb n 95 || Nat.eqb n 170 || Nat.eqb n 181 || Nat.eqb n 186 || between 192 214 n
  || between 216 246 n || between 248 255 n || between 48 57 n || existsb (Nat.eqb n) [178; 179; 185; 188; 189; 190].
Lemma word_code_spec c : is_word_char c = true <-> word_character c.
Proof.
  assert (E : is_word_char c = word_code c) by (apply eqb_prop; by_chars c).
  rewrite E. unfold word_code, word_character, id_continue, id_start, in_range, code. cbv zeta. unfold between. cbn [existsb In].
  rewrite !orb_true_iff, !andb_true_iff, !Nat.leb_le, !Nat.eqb_eq. split; [intros H|intros H].
  - lia.
  - lia.
Qed.
Lemma space_not_word c : is_space c = true -> is_word_char c = false.
Proof. intros H. assert (implb (is_space c) (negb (is_word_char c)) = true) by by_chars c. rewrite H in H0. cbn in H0. now apply negb_true_iff in H0. Qed.

Lemma word_prefix_spec x : x = word_prefix x ++ drop (String.length (word_prefix x)) x /\ Forall word_character (chars (word_prefix x)) /\
  (drop (String.length (word_prefix x)) x = "" \/ exists c r, drop (String.length (word_prefix x)) x = String c r /\ ~ word_character c).
Proof.
  induction x as [|c x (I1 & I2 & I3)]; cbn [word_prefix]; [repeat split; auto; constructor|].
  destruct (is_word_char c) eqn:E.
  - cbn [String.length String.append drop chars]. rewrite <- I1. repeat split; auto. constructor; auto. now apply word_code_spec.
  - cbn [String.length String.append drop chars]. split; [reflexivity|]. split; [constructor|]. right. exists c, x. split; auto. rewrite <- word_code_spec, E. discriminate.
Qed.
Lemma word_prefix_exact n rest : Forall word_character (chars n) -> (rest = "" \/ exists c r, rest = String c r /\ ~ word_character c) -> word_prefix (n ++ rest) = n.
Proof.
  intros F H. induction n as [|c n IH]; cbn [String.append].
  - destruct H as [->|(c & r & -> & H)]; [reflexivity|]. cbn [word_prefix]. destruct (is_word_char c) eqn:E; auto. now apply word_code_spec in E.
  - inversion F; subst. cbn [word_prefix]. rewrite (proj2 (word_code_spec c)) by auto. now rewrite IH.
Qed.

Lemma lstrip_spec x : exists gap, x = gap ++ lstrip x /\ blank gap /\ (lstrip x = "" \/ exists c r, lstrip x = String c r /\ is_space c = false).
Proof.
  unfold lstrip. induction x as [|c x (gap & I1 & I2 & I3)]; cbn [lstrip_by]; [exists ""; repeat split; auto; constructor|].
  destruct (is_space c) eqn:E.
  - exists (String c gap). cbn [String.append]. rewrite <- I1. repeat split; auto. constructor; auto. now apply is_space_white.
  - exists "". repeat split; [constructor|]. right. eauto.
Qed.
Lemma lstrip_exact gap x : blank gap -> (exists c r, x = String c r /\ is_space c = false) -> lstrip (gap ++ x) = x.
Proof.
  intros B (c & r & -> & H). unfold lstrip. induction gap as [|d gap IH]; cbn [String.append lstrip_by]; [now rewrite H|].
  inversion B; subst. rewrite (proj2 (is_space_white d)) by auto. apply IH; auto.
Qed.

Lemma match_class_spec x n rest : match_class x = Some (n, rest) <-> class_head x n rest.
Proof.
  unfold match_class. split.
  - destruct (startswith "class" x) eqn:E; [|discriminate]. apply startswith_spec in E as [r ->].
    change (drop 5 ("class" ++ r)) with r. destruct (String.eqb (lstrip r) r) eqn:N; [discriminate|].
    destruct (lstrip_spec r) as (gap & R1 & R2 & R3). destruct (word_prefix_spec (lstrip r)) as (W1 & W2 & W3).
    destruct (word_prefix (lstrip r)) as [|c w] eqn:Ew; [discriminate|]. intros H. injection H as <- <-.
    exists gap. split; [|split; [|split; [exact R2|split; [discriminate|split; [exact W2|exact W3]]]]].
    + rewrite R1 at 1. now rewrite W1 at 1.
    + intros ->. apply String.eqb_neq in N. now apply N.
  - intros (gap & -> & G & B & N & F & R). rewrite startswith_app. change (drop 5 ("class" ++ gap ++ n ++ rest)) with (gap ++ n ++ rest).
    assert (L : lstrip (gap ++ n ++ rest) = n ++ rest).
    { apply lstrip_exact; auto. destruct n as [|c n]; [congruence|]. inversion F; subst. exists c, (n ++ rest). split; auto.
      destruct (is_space c) eqn:E; auto. apply space_not_word in E. rewrite (proj2 (word_code_spec c)) in E by auto. discriminate. }
    rewrite L. assert (D : String.eqb (n ++ rest) (gap ++ n ++ rest) = false).
    { apply String.eqb_neq. intros E. apply (f_equal String.length) in E. rewrite length_app_s in E at 1. rewrite !length_app_s in E. destruct gap; [congruence|cbn in E; lia]. }
    rewrite D, word_prefix_exact by auto. destruct n as [|c n]; [congruence|]. now rewrite drop_app.
Qed.
Lemma match_class_no x : match_class x = None <-> no_head x.
Proof.
  split.
  - intros H n rest C. apply match_class_spec in C. congruence.
  - intros H. destruct (match_class x) as [[n rest]|] eqn:E; auto. apply match_class_spec in E. now apply H in E.
Qed.

Lemma search_class_spec x n : search_class x = Some n <-> First_head x n.
Proof.
  split.
  - induction x as [|c x IH]; intros H.
    + cbn in H. discriminate.
    + cbn [search_class] in H. destruct (match_class (String c x)) as [[w r]|] eqn:E.
      * injection H as ->. apply first_here with r. now apply match_class_spec.
      * apply first_later; auto. now apply match_class_no.
  - induction 1 as [x n rest H|c x n H1 H2 IH].
    + apply match_class_spec in H. destruct x; cbn [search_class]; now rewrite H.
    + cbn [search_class]. apply match_class_no in H1. now rewrite H1.
Qed.

Lemma class_head_shorter x n rest : class_head x n rest -> String.length rest < String.length x.
Proof. intros (gap & -> & _). rewrite !length_app_s. cbn. lia. Qed.
Lemma sub_class_spec new fuel : forall x, String.length x <= fuel -> Heads_replaced new x (sub_class fuel new x).
Proof.
  induction fuel as [|f IH]; intros x L.
  - destruct x; [constructor|cbn in L; lia].
  - cbn [sub_class]. destruct (match_class x) as [[w r]|] eqn:E.
    + apply match_class_spec in E. apply heads_head with w r; auto. apply IH. apply class_head_shorter in E. lia.
    + destruct x as [|c x]; [constructor|]. apply heads_skip; [now apply match_class_no|]. apply IH. cbn in L. lia.
Qed.
Lemma sub_class_unique new x y : Heads_replaced new x y -> forall fuel, String.length x <= fuel -> sub_class fuel new x = y.
Proof.
  induction 1 as [|x n rest y H1 H2 IH|c x y H1 H2 IH]; intros fuel L.
  - destruct fuel; reflexivity.
  - pose proof (class_head_shorter _ _ _ H1) as S1. destruct fuel as [|f]; [lia|]. cbn [sub_class]. apply match_class_spec in H1. rewrite H1, IH; auto. lia.
  - destruct fuel as [|f]; [cbn in L; lia|]. cbn [sub_class]. apply match_class_no in H1. rewrite H1. f_equal. apply IH. cbn in L. lia.
Qed.

Lemma chars_inj a : forall b, chars a = chars b -> a = b.
Proof. induction a as [|c a IH]; intros [|d b] H; try discriminate; auto. injection H as -> H. f_equal. auto. Qed.
Lemma chars_app a b : chars (a ++ b) = (chars a ++ chars b)%list.
Proof. induction a; cbn; congruence. Qed.
Lemma chars_concat l : chars (String.concat "" l) = flat_map chars l.
Proof.
  induction l as [|x l IH]; [reflexivity|]. cbn [flat_map]. rewrite <- IH. destruct l as [|y l]; [cbn [String.concat]; now rewrite app_nil_r|].
  change (String.concat "" (x :: y :: l)) with (x ++ "" ++ String.concat "" (y :: l)). rewrite chars_app. reflexivity.
Qed.
Lemma no_char_chars c x : no_char c x <-> ~ In c (chars x).
Proof.
  unfold no_char. induction x as [|d x IH]; [cbn; tauto|]. cbn [str_forall chars In]. rewrite andb_true_iff, negb_true_iff, Ascii.eqb_neq, IH. split; intros H.
  - intros [->|I]; tauto.
  - split; [intros ->; tauto|tauto].
Qed.
Lemma split_kept c x : flat_map chars (split_char c x) = filter (fun d => negb (Ascii.eqb d c)) (chars x).
Proof.
  induction x as [|d x IH]; [reflexivity|]. cbn [split_char chars filter]. destruct (Ascii.eqb c d) eqn:E.
  - apply Ascii.eqb_eq in E as ->. rewrite Ascii.eqb_refl. cbn [negb flat_map chars app]. exact IH.
  - assert (E' : Ascii.eqb d c = false) by (rewrite Ascii.eqb_sym; exact E). rewrite E'. cbn [negb]. rewrite <- IH. destruct (split_char c x); reflexivity.
Qed.
Lemma first_part c x : In c (chars x) -> exists a b, x = a ++ String c b /\ ~ In c (chars a).
Proof.
  induction x as [|d x IH]; [intros []|]. intros H. destruct (ascii_dec d c) as [->|N].
  - exists "", x. split; auto.
  - destruct H as [H|H]; [congruence|]. destruct (IH H) as (a & b & -> & I). exists (String d a), b. split; auto. cbn. intros [E|E]; auto.
Qed.

Lemma Trimmed_strip x t : Trimmed x t -> strip x = t.
Proof.
  intros (a & b & -> & A & B & H1 & H2). unfold strip, strip_by. fold (lstrip (a ++ t ++ b)).
  destruct H1 as [->|(c & r & -> & H1)].
  - cbn [String.append]. assert (E : lstrip (a ++ b) = "").
    { unfold lstrip. assert (F : blank (a ++ b)) by (unfold blank in *; rewrite chars_app; apply Forall_app; auto). revert F. generalize (a ++ b). intros y F.
      induction y as [|d y IH]; auto. inversion F; subst. cbn [lstrip_by]. rewrite (proj2 (is_space_white d)) by auto. auto. }
    now rewrite E.
  - rewrite lstrip_exact; auto.
    + destruct H2 as [H2|(r' & c' & E & H2)]; [discriminate|]. rewrite E. assert (K : is_space c' = false) by (apply not_true_iff_false; now rewrite is_space_white).
      clear - B K. unfold blank in B. induction r' as [|d r' IH].
      * cbn [String.append rstrip_by]. assert (E : rstrip_by is_space b = "").
        { clear K. induction b as [|d b IH]; auto. inversion B; subst. cbn [rstrip_by]. rewrite IH by auto. now rewrite (proj2 (is_space_white d)). }
        rewrite E, K. reflexivity.
      * cbn [String.append rstrip_by]. cbn [String.append] in IH. rewrite IH. destruct (r' ++ String c' "") eqn:E; [|reflexivity]. destruct r'; discriminate.
    + exists c, (r ++ b). split; auto. apply not_true_iff_false. now rewrite is_space_white.
Qed.

Theorem rename_declaration_exact d new d' old : rename_declaration d new = (d', old) <-> Renames new d d' old.
Proof.
  assert (C : contains "=" d = true <-> In equals_sign (chars d)).
  { change "=" with (String equals_sign ""). rewrite contains_char. destruct (str_exists (Ascii.eqb equals_sign) d) eqn:E.
    - split; auto. intros _. destruct (in_dec ascii_dec equals_sign (chars d)) as [I|I]; auto. apply no_char_chars in I. unfold no_char in I.
      rewrite str_forall_exists in I. rewrite E in I. discriminate.
    - split; [discriminate|]. intros I. exfalso. assert (N : no_char equals_sign d) by (unfold no_char; rewrite str_forall_exists, E; reflexivity). now apply no_char_chars in N. }
  unfold rename_declaration. split.
  - destruct (contains "=" d) eqn:E.
    + apply proj1 in C. specialize (C eq_refl). destruct (first_part _ _ C) as (a & b & -> & N).
      change (chr 61) with equals_sign. rewrite split_char_app by (now apply no_char_chars). cbn [hd tl]. intros H. injection H as <- <-.
      change (String equals_sign b) with ("=" ++ b). apply renames_value; auto; [apply strip_Trimmed|]. rewrite chars_concat. apply split_kept.
    + assert (N : ~ In equals_sign (chars d)) by (rewrite <- C; discriminate). destruct (startswith "class " d) eqn:F.
      * destruct (search_class d) as [o|] eqn:S1.
        -- intros H. injection H as <- <-. apply renames_class; auto; [now apply startswith_spec|now apply search_class_spec|]. now apply sub_class_spec.
        -- intros H. injection H as <- <-. apply renames_nothing; auto. intros r n _ G. apply search_class_spec in G. congruence.
      * intros H. injection H as <- <-. apply renames_nothing; auto. intros r n -> _. rewrite startswith_app in F. discriminate.
  - intros H. destruct H as [a b k o N T K|d d' o N P F R|d N P].
    + assert (I : In equals_sign (chars (a ++ "=" ++ b))) by (rewrite chars_app; apply in_or_app; right; now left). rewrite (proj2 C I).
      change (a ++ "=" ++ b) with (a ++ String equals_sign b). change (chr 61) with equals_sign. rewrite split_char_app by (now apply no_char_chars). cbn [hd tl].
      rewrite (Trimmed_strip a o T). replace (String.concat "" (split_char equals_sign b)) with k; [reflexivity|]. apply chars_inj. rewrite K, chars_concat. symmetry. apply split_kept.
    + destruct (contains "=" d); [exfalso; apply N, C; reflexivity|]. rewrite (proj2 (startswith_spec _ _) P). apply search_class_spec in F. rewrite F.
      now rewrite (sub_class_unique (new o) d d' R).
    + destruct (contains "=" d); [exfalso; apply N, C; reflexivity|]. destruct (startswith "class " d) eqn:S1; [|reflexivity]. apply startswith_spec in S1 as [r S1].
      destruct (search_class d) as [o|] eqn:G; [|reflexivity]. apply search_class_spec in G. exfalso. eapply P; eauto.
Qed.
