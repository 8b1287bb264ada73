(** C90: the text made of a block comment, exactly (and so C43 for all blocks). *)
From Coq Require Import Ascii String List Bool Arith Lia.
From Verif Require Import PyStr PyStrFacts Exc Yaml SpecNames NamesFacts SpecText SpecYaml SpecComment YamlFacts YamlComments YamlWords YamlLines PropsYaml.
Import ListNotations.
Local Open Scope string_scope.
Local Open Scope nat_scope.

Lemma by_upper c : Upper c (upper_char c).
Proof.
  unfold upper_char. cbv zeta. change (ord c) with (code c). destruct (Nat.eqb_spec (code c) 223) as [E|E]; [now constructor|].
  assert (Sm : between 97 122 (code c) || between 224 246 (code c) || between 248 254 (code c) = true <-> small c).
  { unfold small, in_range. rewrite !orb_true_iff, !between_spec. tauto. }
  destruct (between 97 122 (code c) || between 224 246 (code c) || between 248 254 (code c)) eqn:B.
  - apply upper_small; [tauto|]. unfold chr, code. rewrite nat_ascii_embedding; [|pose proof (nat_ascii_bounded c); unfold code in *; lia].
    assert (L : 32 <= code c); [|unfold code in L; lia]. destruct Sm as [Sm _]. specialize (Sm eq_refl). unfold small, in_range in Sm. lia.
  - apply upper_other; auto. intros F. apply Sm in F. discriminate.
Qed.
Lemma Upper_one c u u' : Upper c u -> Upper c u' -> u = u'.
Proof.
  assert (N : forall x, small x -> code x <> 223) by (unfold small, in_range; intros x; lia).
  intros H H'. inversion H as [? E|? d Sm E|? E Sm]; inversion H' as [? E'|? d' Sm' E'|? E' Sm']; subst; auto; try contradiction; try (exfalso; eapply N; eauto; fail).
  f_equal. rewrite <- (ascii_nat_embedding d), <- (ascii_nat_embedding d'). f_equal. unfold code in *. lia.
Qed.
Lemma by_capital s : Capital s (capitalize_first s).
Proof. destruct s as [|c s]; constructor. apply by_upper. Qed.
Lemma starts_spec s : starts_upper s = true <-> starts_capital s.
Proof.
  destruct s as [|c s]; cbn [starts_upper]; [split; [discriminate|intros (c & r & E & _); discriminate]|].
  unfold is_upper. cbv zeta. change (ord c) with (code c). rewrite !orb_true_iff, !between_spec. unfold starts_capital, capital, in_range. split.
  - intros H. exists c, s. split; [auto|tauto].
  - intros (d & r & E & H). injection E as <- _. tauto.
Qed.

(** The end of a text *)
Lemma ends_append p x a b : endswith (String x p) (a ++ String b (String x p)) = true.
Proof. apply endswith_spec. exists (a ++ String b ""). now rewrite app_assoc_s. Qed.
Lemma last_of (a b : string) c d : a ++ String c "" = b ++ String d "" -> a = b /\ c = d.
Proof.
  revert b; induction a as [|x a IH]; intros [|y b] E; cbn in E; [injection E as ->; auto| | |].
  - injection E as _ E. destruct b; discriminate.
  - injection E as _ E. destruct a; discriminate.
  - injection E as -> E. apply IH in E as [-> ->]. auto.
Qed.
Lemma ends_one c a s : s <> "" -> endswith (String c "") (a ++ s) = endswith (String c "") s.
Proof.
  intros N. apply eq_iff_eq_true. rewrite !endswith_spec. split; [|intros (r & ->); exists (a ++ r); now rewrite app_assoc_s].
  intros (r & E). assert (L : exists u d, s = u ++ String d "").
  { clear -N. induction s as [|x s IH]; [congruence|]. destruct s as [|y s]; [exists "", x; reflexivity|]. destruct IH as (u & d & ->); [discriminate|]. exists (String x u), d. reflexivity. }
  destruct L as (u & d & ->). rewrite <- app_assoc_s in E. apply last_of in E as [_ ->]. eauto.
Qed.
Lemma cap_nonempty s : s <> "" -> capitalize_first s <> "".
Proof. destruct s as [|c s]; [congruence|]. intros _. cbn [capitalize_first]. unfold upper_char. destruct (Nat.eqb _ _); [discriminate|]. destruct (_ || _); discriminate. Qed.
Lemma upper_last c : exists u d, upper_char c = u ++ String d "" /\ (code c = 46 <-> code d = 46) /\ (code c = 10 <-> code d = 10).
Proof.
  assert (H : forall n, n < 256 -> let c := ascii_of_nat n in exists u d, upper_char c = u ++ String d "" /\ (code c = 46 <-> code d = 46) /\ (code c = 10 <-> code d = 10)).
  { intros n Hn. cbv zeta. set (c' := ascii_of_nat n). pose proof (by_upper c') as U. inversion U as [? E|? d Sm E|? E Sm].
    - exists "S", "S"%char. split; [reflexivity|]. rewrite E. vm_compute (code "S"%char). lia.
    - exists "", d. split; [reflexivity|]. unfold small, in_range in Sm. lia.
    - exists "", c'. split; [reflexivity|]. lia. }
  specialize (H (nat_of_ascii c) (nat_ascii_bounded c)). cbv zeta in H. now rewrite ascii_nat_embedding in H.
Qed.
Lemma code_eqb c n : n < 256 -> (c = ascii_of_nat n <-> code c = n).
Proof. intros L. split; [intros ->; now apply nat_ascii_embedding|]. intros E. unfold code in E. now rewrite <- E, ascii_nat_embedding. Qed.
Lemma ends_cap_at n s : n = 46 \/ n = 10 -> endswith (String (ascii_of_nat n) "") (capitalize_first s) = endswith (String (ascii_of_nat n) "") s.
Proof.
  intros Hn. destruct s as [|c s]; [reflexivity|]. cbn [capitalize_first]. destruct s as [|x s].
  - rewrite app_nil_r_s. destruct (upper_last c) as (u & d & -> & E1 & E2). apply eq_iff_eq_true. rewrite !endswith_spec. split.
    + intros (r & E). apply last_of in E as [_ E]. exists "". cbn. f_equal. subst d. apply code_eqb; [destruct Hn; lia|].
      destruct Hn as [-> | ->]; [apply E1|apply E2]; apply nat_ascii_embedding; lia.
    + intros (r & E). destruct r as [|? r]; [|destruct r; discriminate]. cbn in E. injection E as E. exists u. do 2 f_equal. apply code_eqb; [destruct Hn; lia|].
      destruct Hn as [-> | ->]; [apply E1|apply E2]; rewrite E; apply nat_ascii_embedding; lia.
  - rewrite ends_one by discriminate. change (String c (String x s)) with (String c "" ++ String x s). now rewrite ends_one by discriminate.
Qed.
Lemma ends_cap s : ends_dot (capitalize_first s) = ends_dot s /\ ends_nl (capitalize_first s) = ends_nl s.
Proof. split; [apply (ends_cap_at 46)|apply (ends_cap_at 10)]; auto. Qed.
Lemma dot_app a s : s <> "" -> ends_dot (a ++ s) = ends_dot s.
Proof. apply ends_one. Qed.
Lemma nl_app a s : s <> "" -> ends_nl (a ++ s) = ends_nl s.
Proof. apply ends_one. Qed.
Lemma trimmed_no_nl s : trimmed s -> ends_nl s = false.
Proof.
  intros [->|[_ (r & c & -> & Hc)]]; [reflexivity|]. apply not_true_iff_false. rewrite ends_nl_spec. intros (u & E). apply last_of in E as [_ ->]. discriminate Hc.
Qed.

(** ** The loop *)
Definition stands (prev result : string) : Prop :=
  (prev = "" -> ends_nl result = true /\ ends_dot result = false) /\ (prev <> "" -> ends_nl result = false /\ ends_dot result = ends_dot prev).
Lemma capital_same l : starts_upper l = true -> capitalize_first l = l.
Proof.
  destruct l as [|c l]; [discriminate|]. cbn [starts_upper capitalize_first]. intros H. assert (E : upper_char c = String c ""); [|now rewrite E].
  pose proof (proj1 (starts_spec (String c ""))) as Sp. cbn [starts_upper] in Sp. destruct (Sp H) as (d & r & E & Cp). injection E as <- _.
  pose proof (by_upper c) as U. inversion U as [? E|? d Sm E|? E Sm]; auto; unfold capital, small, in_range in *; lia.
Qed.
Lemma joined_Following ls : forall prev result, Forall trimmed ls -> trimmed prev -> stands prev result ->
  exists t, Following prev ls t /\ joined false result ls = result ++ t /\ stands (last ls prev) (result ++ t).
Proof.
  induction ls as [|l ls IH]; intros prev result F T St; [exists ""; split; [constructor|now rewrite app_nil_r_s]|].
  replace (last (l :: ls) prev) with (last ls l) by (clear; destruct ls as [|x ls]; [reflexivity|]; cbn [last]; revert x; induction ls as [|y ls IHl]; intros x; [reflexivity|]; cbn [last] in *; apply (IHl y)).
  inversion F as [|? ? Tl Fl]; subst. cbn [joined]. unfold join_step. destruct l as [|c l].
  - cbn [is_empty]. destruct (IH "" (result ++ nl ++ nl)) as (t & Ft & E & Sl); auto.
    + split; [|congruence]. intros _. split; [apply ends_nl_spec; exists (result ++ nl); now rewrite app_assoc_s|].
      rewrite dot_app by discriminate. reflexivity.
    + exists (nl ++ nl ++ t). split; [now constructor|]. rewrite E. rewrite !app_assoc_s in *. auto.
  - set (L := String c l) in *. assert (Ne : L <> "") by discriminate. change (is_empty L) with false. cbv iota. rewrite (trimmed_strip L Tl).
    pose proof (trimmed_no_nl L Tl) as Nl. destruct (ends_cap L) as [Cd Cn]. pose proof (cap_nonempty L Ne) as Nc.
    assert (go : forall sep x, (x = L \/ x = capitalize_first L) -> exists t, Following L ls t /\ joined false (result ++ sep ++ x) ls = result ++ sep ++ x ++ t /\ stands (last ls L) (result ++ sep ++ x ++ t)).
    { intros sep x Hx. assert (Xn : x <> "") by (destruct Hx as [-> | ->]; auto). destruct (IH L (result ++ sep ++ x)) as (t & Ft & E & Sl); auto.
      - split; [congruence|]. intros _. rewrite <- app_assoc_s. rewrite nl_app, dot_app by auto. destruct Hx as [-> | ->]; rewrite ?Cd, ?Cn; auto.
      - exists t. split; auto. rewrite E. rewrite !app_assoc_s in *. auto. }
    destruct (string_dec prev "") as [->|Np].
    + destruct St as [St _]. destruct (St eq_refl) as [En Ed]. rewrite En, Ed. destruct (go "" (capitalize_first L)) as (t & Ft & E & Sl); auto. cbn [String.append] in E, Sl.
      exists (capitalize_first L ++ t). split; [apply following_paragraph; auto; apply by_capital|]. split; [destruct (starts_upper L); exact E|exact Sl].
    + destruct St as [_ St]. destruct (St Np) as [En Ed]. rewrite En, Ed. destruct (ends_dot prev) eqn:D.
      * destruct (go " " (capitalize_first L)) as (t & Ft & E & Sl); auto. exists (" " ++ capitalize_first L ++ t). split.
        -- apply following_sentence; auto; [now apply ends_dot_spec|apply by_capital].
        -- split; [|exact Sl]. destruct (starts_upper L) eqn:U; [rewrite (capital_same L U) in *|]; exact E.
      * assert (Nd : ~ full_stop prev) by (unfold full_stop; rewrite <- ends_dot_spec; congruence). destruct (starts_upper L) eqn:U.
        -- destruct (go ". " L) as (t & Ft & E & Sl); auto. exists (". " ++ L ++ t). split; [apply following_stop; auto; now apply starts_spec|split; [exact E|exact Sl]].
        -- destruct (go " " L) as (t & Ft & E & Sl); auto. exists (" " ++ L ++ t). split; [apply following_word; auto; rewrite <- starts_spec; congruence|split; [exact E|exact Sl]].
Qed.
Lemma drop_empty_all l : exists n, l = (repeat "" n ++ drop_empty l)%list /\ (drop_empty l = [] \/ exists x r, drop_empty l = x :: r /\ x <> "").
Proof. exact (drop_empty_spec l). Qed.
Lemma repeat_empties n : Forall (eq "") (repeat "" n).
Proof. apply Forall_forall. intros x Hx. apply repeat_spec in Hx. auto. Qed.
Lemma strip_empties l : exists before after, Forall (eq "") before /\ Forall (eq "") after /\ l = (before ++ rev (drop_empty (rev (drop_empty l))) ++ after)%list.
Proof.
  destruct (drop_empty_spec l) as (n & E & _). destruct (drop_empty_spec (rev (drop_empty l))) as (k & E2 & _).
  exists (repeat "" n), (rev (repeat "" k)). split; [apply repeat_empties|]. split; [apply Forall_rev, repeat_empties|].
  rewrite <- rev_app_distr, <- E2, rev_involutive. exact E.
Qed.
Lemma last_snoc {A} (r : list A) x d : last (r ++ [x]) d = x.
Proof. induction r as [|y r IH]; [reflexivity|]. cbn [app last]. rewrite IH. destruct r; reflexivity. Qed.
Lemma join_comments_text ls : Forall trimmed ls -> Comment_text ls (join_comments ls).
Proof.
  intros F. unfold join_comments. destruct (strip_empties ls) as (before & after & B & A & E). destruct (trim_lines_spec ls) as (_ & I & C).
  set (m := rev (drop_empty (rev (drop_empty ls)))) in *. clearbody m.
  destruct C as [->|[(x & r & -> & Hx) (r' & x' & E' & Hx')]].
  - constructor. rewrite E. apply Forall_app. auto.
  - assert (Fm : Forall trimmed (x :: r)) by (rewrite Forall_forall in *; intros y Hy; apply F, I, Hy). inversion Fm as [|? ? Tx Fr]; subst x0 l.
    cbn [joined]. assert (J : join_step true "" x = x) by (unfold join_step; destruct x; [congruence|]; cbn [is_empty]; now rewrite (trimmed_strip _ Tx)).
    rewrite J. clear J. destruct (joined_Following r x x Fr Tx) as (t & Ft & -> & Sl); [split; [congruence|]; intros _; split; [now apply trimmed_no_nl|reflexivity]|].
    assert (Lx : last r x = x') by (change (last r x) with (last r x); destruct r as [|y r]; [destruct r'; [now injection E'|destruct r'; discriminate]|]; transitivity (last (x :: y :: r) x); [reflexivity|]; rewrite E'; apply last_snoc).
    rewrite Lx in Sl. destruct Sl as [_ Sl]. destruct (Sl Hx') as [_ Sd]. cbv zeta. rewrite Sd.
    assert (Ne : is_empty (x ++ t) = false) by (destruct x; [congruence|reflexivity]). rewrite Ne.
    rewrite E. replace (if ends_dot x' then x ++ t else (x ++ t) ++ ".") with (x ++ t ++ (if ends_dot x' then "" else ".")) by (destruct (ends_dot x'); rewrite ?app_nil_r_s, ?app_assoc_s; reflexivity).
    apply (comment_lines _ _ _ _ _ x'); auto; [eauto|]. destruct (ends_dot x') eqn:D; [left|right]; split; auto.
    + now apply ends_dot_spec.
    + unfold full_stop. rewrite <- ends_dot_spec. congruence.
Qed.

(** ** Deleting quotes *)
Lemma replace_Deleted p : p <> "" -> forall n s, String.length s <= n -> Deleted p s (replace_fuel n p "" s).
Proof.
  intros Np n. induction n as [|n IH]; intros s L.
  - destruct s; [|cbn in L; lia]. apply deleted_none. intros a b E. destruct a; [|discriminate]. destruct p; [congruence|discriminate].
  - destruct s as [|c s]; [apply deleted_none; intros a b E; destruct a; [|discriminate]; destruct p; [congruence|discriminate]|]. cbn [replace_fuel].
    destruct (startswith p (String c s)) eqn:St.
    + apply startswith_spec in St as (r & E). rewrite E. rewrite drop_app. cbn [String.append].
      apply (deleted_first p "" r (replace_fuel n p "" r)); [intros; cbn; lia|]. apply IH.
      assert (X := f_equal String.length E). rewrite length_app_s in X. cbn in X, L. destruct p; [congruence|]. cbn in X. lia.
    + assert (N : forall b, String c s <> p ++ b) by (intros b E; assert (startswith p (String c s) = true) by (apply startswith_spec; eauto); congruence).
      cbn in L. specialize (IH s ltac:(lia)). set (s' := replace_fuel n p "" s) in *. clearbody s'. inversion IH as [? No|a b b' Fi D]; subst.
      * apply deleted_none. intros a b E. destruct a as [|x a]; [now apply (N b)|]. cbn in E. injection E as _ E. now apply (No a b).
      * change (String c (a ++ p ++ b)) with (String c a ++ p ++ b). change (String c (a ++ b')) with (String c a ++ b'). apply deleted_first; auto.
        intros a' b'' E. destruct a' as [|x a']; [exfalso; now apply (N b'')|]. cbn in E. injection E as _ E. apply Fi in E. cbn. lia.
Qed.

(** ** The theorems *)
(** The text of every block: what the lines give, without triple quotes, beginning with a capital letter. *)
Theorem C90_text : forall texts, Forall (fun t => Trimmed t t) texts ->
  Docstring_text texts (capitalize_first (replace tq "" (replace sq3 "" (join_comments texts)))).
Proof.
  intros texts F. exists (join_comments texts), (replace sq3 "" (join_comments texts)), (replace tq "" (replace sq3 "" (join_comments texts))).
  split; [|split; [|split]].
  - apply join_comments_text. eapply Forall_impl; [|exact F]. intros t (a & b & E & _ & _ & T1 & T2).
    assert (W : forall c, ~ white c -> is_space c = false) by (intros c Hc; destruct (is_space c) eqn:E2; auto; apply DocstringFacts.is_space_white in E2; contradiction).
    destruct T1 as [->|(c & r & E1 & H1)]; [left; auto|]. destruct T2 as [->|(r2 & c2 & E2 & H2)]; [left; auto|]. right. split; eauto 6.
  - apply replace_Deleted; [discriminate|lia].
  - apply replace_Deleted; [discriminate|lia].
  - apply by_capital.
Qed.
Print Assumptions C90_text.
Lemma trimmed_self s : Trimmed (strip s) (strip s).
Proof. destruct (strip_Trimmed s) as (a & b & _ & _ & _ & T1 & T2). exists "", "". split; [now rewrite app_nil_r_s|]. split; [constructor|]. split; [constructor|]. auto. Qed.
Theorem C90_below : forall lines idx line s, nth_error lines idx = Some line -> comment_at lines idx line Below = Val s -> s <> "" ->
  exists col block texts, key_column line col /\ block_below lines idx col block texts /\ Docstring_text texts s.
Proof.
  intros lines idx line s N H NE. destruct (colon_of_comment _ _ _ Below _ N ltac:(discriminate) H NE) as [C (col & K)].
  apply andthen_Val in H as (t & H & E). injection E as <-. rewrite (block_comment_below _ _ _ _ _ N C K H).
  eexists col, _, _. split; [auto|]. split; [apply below_block|]. apply C90_text. apply Forall_forall. intros x Hx. apply in_map_iff in Hx as (y & <- & _). apply trimmed_self.
Qed.
Print Assumptions C90_below.
(** Above, under the condition of C40_block_above_partial (the search does not wrap around to the end of the file). *)
Theorem C90_above_partial : forall lines idx line s,
  nth_error lines idx = Some line -> comment_at lines idx line Above = Val s -> s <> "" ->
  (forall col, key_column line col ->
     (exists l, In l (firstn idx lines) /\ forall t, ~ hash_at col l t) \/
     (forall l t, nth_error lines (List.length lines - 1) = Some l -> ~ hash_at col l t)) ->
  exists col block texts, key_column line col /\ block_above lines idx col block texts /\ Docstring_text texts s.
Proof.
  intros lines idx line s N H NE W. destruct (colon_of_comment _ _ _ Above _ N ltac:(discriminate) H NE) as [C (col & K)].
  apply andthen_Val in H as (t & H & E). injection E as <-. rewrite (block_comment_above _ _ _ _ _ N C K H).
  eexists col, _, _. split; [auto|]. split; [apply above_block; auto|]. apply C90_text. apply Forall_rev. apply Forall_forall. intros x Hx. apply in_map_iff in Hx as (y & <- & _). apply trimmed_self.
Qed.
Print Assumptions C90_above_partial.

(** The specification determines the text. *)
Lemma Capital_one s a b : Capital s a -> Capital s b -> a = b.
Proof. intros H H'. inversion H as [|c r u U]; subst; inversion H' as [|? ? u' U']; subst; auto. now rewrite (Upper_one _ _ _ U U'). Qed.
Lemma not_stop_empty : ~ full_stop "".
Proof. intros (u & E). destruct u; discriminate. Qed.
Lemma Following_one prev ls : forall a b, Following prev ls a -> Following prev ls b -> a = b.
Proof.
  revert prev. induction ls as [|l ls IH]; intros prev a b H H'; [inversion H; inversion H'; now subst|].
  assert (Sn : ~ starts_capital "") by (intros (c & r & E & _); discriminate). pose proof not_stop_empty as Fn.
  inversion H; inversion H'; subst; try congruence; try contradiction; repeat f_equal; eauto; try (eapply Capital_one; eauto).
Qed.
Lemma drop_empties before x r : Forall (eq "") before -> x <> "" -> drop_empty (before ++ x :: r) = x :: r.
Proof. induction 1 as [|y l <- F IH]; intros N; cbn [app drop_empty]; auto. destruct x; [congruence|reflexivity]. Qed.
Lemma core_of before l ls after x : Forall (eq "") before -> Forall (eq "") after -> l <> "" -> x <> "" -> (exists r, l :: ls = r ++ [x])%list ->
  rev (drop_empty (rev (drop_empty (before ++ (l :: ls) ++ after)))) = l :: ls.
Proof.
  intros B A N X (r & E). cbn [app]. rewrite drop_empties by auto. change (l :: ls ++ after)%list with ((l :: ls) ++ after)%list. rewrite E, <- app_assoc, rev_app_distr. cbn [app rev].
  rewrite <- app_assoc. cbn [app]. rewrite drop_empties; [|now apply Forall_rev|auto]. cbn [rev]. now rewrite rev_involutive.
Qed.
Lemma Comment_one ls a b : Comment_text ls a -> Comment_text ls b -> a = b.
Proof.
  assert (Z : forall before l r after, Forall (eq "") (before ++ (l :: r) ++ after) -> l <> "" -> False).
  { intros before l r after F N. apply Forall_app in F as [_ F]. cbn [app] in F. inversion F. congruence. }
  intros H H'. inversion H as [? F|before l r after t x B A N Fo X R stop St E1 E2]; inversion H' as [? F'|before' l' r' after' t' x' B' A' N' Fo' X' R' stop' St' E1' E2']; subst; auto.
  - exfalso. eapply Z; eauto.
  - exfalso. eapply Z; eauto.
  - pose proof (core_of _ _ _ _ _ B A N X R) as C. pose proof (core_of _ _ _ _ _ B' A' N' X' R') as C'. rewrite E1' in C'. rewrite C in C'. injection C' as <- <-.
    rewrite (Following_one _ _ _ _ Fo Fo'). do 2 f_equal. destruct R as (q & Q), R' as (q' & Q'). rewrite Q in Q'. apply app_inj_tail in Q' as [_ <-]. intuition congruence.
Qed.
Lemma app_cut (a c b d : string) : a ++ b = c ++ d -> String.length a = String.length c -> a = c /\ b = d.
Proof. revert c. induction a as [|x a IH]; intros [|y c] E L; try discriminate; [auto|]. cbn in E, L. injection E as -> E. destruct (IH c E) as [-> ->]; auto. Qed.
Lemma Deleted_one p s a : p <> "" -> Deleted p s a -> forall b, Deleted p s b -> a = b.
Proof.
  intros Np. induction 1 as [s No|x y y' Fi D IH]; intros b H.
  - inversion H as [|u v v' Fi' D' E]; subst; auto. exfalso. eapply No; reflexivity.
  - inversion H as [? No|u v v' Fi' D' E1 E2]; subst; [exfalso; eapply No; reflexivity|]. symmetry in E1. pose proof (Fi _ _ E1) as L. symmetry in E1. pose proof (Fi' _ _ E1) as L'.
    apply app_cut in E1 as [-> E1]; [|lia]. apply app_cut in E1 as [_ ->]; [|reflexivity]. f_equal. now apply IH.
Qed.
Theorem C90_determined : forall texts a b, Docstring_text texts a -> Docstring_text texts b -> a = b.
Proof.
  intros texts a b (j & j1 & j2 & C & D1 & D2 & Cp) (k & k1 & k2 & C' & D1' & D2' & Cp'). rewrite (Comment_one _ _ _ C' C) in D1'.
  rewrite <- (Deleted_one (three 39) _ _ ltac:(discriminate) D1 _ D1') in D2'. rewrite <- (Deleted_one (three 34) _ _ ltac:(discriminate) D2 _ D2') in Cp'. eapply Capital_one; eauto.
Qed.
Print Assumptions C90_determined.
Example C90_example :
  Docstring_text ["first line"; "second"; "Third."; "fourth"; ""; "use '''x'''"; ""] ("First line second. Third. Fourth" ++ line_feed ++ line_feed ++ "Use x.") /\
  (exists s, comment_at ["key: 1"; "# first"; "# Second"; "other: 2"] 0 "key: 1" Below = Val s /\ s = "First. Second.").
Proof.
  split; [|eexists; split; vm_compute; reflexivity].
  replace ("First line second. Third. Fourth" ++ line_feed ++ line_feed ++ "Use x.") with (capitalize_first (replace tq "" (replace sq3 "" (join_comments ["first line"; "second"; "Third."; "fourth"; ""; "use '''x'''"; ""])))) by (vm_compute; reflexivity).
  apply C90_text. repeat (apply Forall_cons || apply Forall_nil); match goal with |- Trimmed ?t ?t => exact (trimmed_self t) end.
Qed.

(** ** What every text has *)
Lemma stop_app a b : full_stop b -> full_stop (a ++ b).
Proof. intros (u & ->). exists (a ++ u). now rewrite app_assoc_s. Qed.
Lemma stop_capital s c : Capital s c -> full_stop s -> full_stop c.
Proof.
  intros H. destruct H as [|x r y U]; intros (u & E); [destruct u; discriminate|]. destruct u as [|z u]; cbn [append] in *.
  - injection E as -> ->. rewrite app_nil_r_s. inversion U as [? F|? d F|? F G]; subst; [vm_compute in F; discriminate| |now exists ""]. exfalso. unfold small, in_range in F. vm_compute in F. lia.
  - injection E as -> ->. apply stop_app. now exists u.
Qed.
Lemma following_stops prev ls t : Following prev ls t -> (ls = [] -> full_stop prev) -> (ls <> [] -> full_stop (last ls "")) -> ls <> [] -> full_stop t.
Proof.
  induction 1 as [prev|prev ls t F IH|l ls l' t Nl C F IH|prev l ls l' t Nl P C F IH|prev l ls t Np P Sc F IH|prev l ls t Nl Np P Sc F IH]; intros A B N; [congruence|..]; specialize (B N).
  - destruct ls as [|m ls]; [destruct B as (u & B); destruct u; discriminate|]. repeat apply stop_app. apply IH; [discriminate|intros _; exact B|discriminate].
  - destruct ls as [|m ls]; [inversion F; subst; rewrite app_nil_r_s; eapply stop_capital; eauto|]. repeat apply stop_app. apply IH; [discriminate|intros _; exact B|discriminate].
  - destruct ls as [|m ls]; [inversion F; subst; rewrite app_nil_r_s; apply stop_app; eapply stop_capital; eauto|]. repeat apply stop_app. apply IH; [discriminate|intros _; exact B|discriminate].
  - destruct ls as [|m ls]; [inversion F; subst; rewrite app_nil_r_s; now apply stop_app|]. repeat apply stop_app. apply IH; [discriminate|intros _; exact B|discriminate].
  - destruct ls as [|m ls]; [inversion F; subst; rewrite app_nil_r_s; now apply stop_app|]. repeat apply stop_app. apply IH; [discriminate|intros _; exact B|discriminate].
Qed.
Lemma comment_stops ls j : Comment_text ls j -> j = "" \/ full_stop j.
Proof.
  intros [? F|before l ls' after t x B A Nl F Nx (r & E) stop St]; [now left|right]. destruct St as [[Fx ->]|[_ ->]].
  2: { rewrite <- app_assoc_s. apply stop_app. now exists "". }
  rewrite app_nil_r_s. destruct ls' as [|m ls']; [inversion F; subst; rewrite app_nil_r_s; destruct r as [|? [|]]; injection E as <-; try discriminate; exact Fx|].
  apply stop_app. eapply following_stops; [exact F|discriminate| |discriminate]. intros _. destruct r as [|y r]; [discriminate|]. injection E as _ E. rewrite E. now rewrite last_snoc.
Qed.
Lemma by_end (s : string) : s = "" \/ exists u c, s = u ++ String c "".
Proof. induction s as [|a s [->|(u & c & ->)]]; [now left| |]; right; [now exists "", a|now exists (String a u), c]. Qed.
Lemma stop_part x b : b <> "" -> full_stop (x ++ b) -> full_stop b.
Proof. intros N (u & E). destruct (by_end b) as [->|(v & c & ->)]; [easy|]. rewrite <- app_assoc_s in E. apply last_of in E as [_ ->]. now exists v. Qed.
Lemma deleted_stops n s s' : ascii_of_nat n <> "."%char -> Deleted (three n) s s' -> s = "" \/ full_stop s -> s' = "" \/ full_stop s'.
Proof.
  intros Nq. induction 1 as [s No|a b b' Fi D IH]; auto. intros [E|F]; [destruct a; discriminate|].
  destruct (by_end b) as [->|(v & c & ->)].
  - exfalso. rewrite app_nil_r_s in F. destruct F as (u & F). unfold three in F. cbv zeta in F.
    change (String (ascii_of_nat n) (String (ascii_of_nat n) (String (ascii_of_nat n) ""))) with (String (ascii_of_nat n) (String (ascii_of_nat n) "") ++ String (ascii_of_nat n) "") in F.
    rewrite <- app_assoc_s in F. apply last_of in F as [_ F]. now apply Nq.
  - assert (Fb : full_stop (v ++ String c "")) by (apply (stop_part (a ++ three n)); [destruct v; discriminate|now rewrite app_assoc_s]).
    destruct (IH (or_intror Fb)) as [->|F']; [|right; now apply stop_app].
    (* everything after the quotes is gone: then the full stop is too *)
    exfalso. clear IH Fi F. remember (v ++ String c "") as b eqn:E. clear E. remember "" as e eqn:Ee. revert Ee Fb. clear a. induction D as [s No|a b b' Fi D IH]; intros Ee Fb.
    + subst s. destruct Fb as (u & Fb). destruct u; discriminate.
    + destruct a; [|discriminate]. cbn [append] in *. apply IH; [exact Ee|]. destruct b as [|x b].
      * exfalso. destruct Fb as (u & F). rewrite app_nil_r_s in F. unfold three in F. cbv zeta in F.
        change (String (ascii_of_nat n) (String (ascii_of_nat n) (String (ascii_of_nat n) ""))) with (String (ascii_of_nat n) (String (ascii_of_nat n) "") ++ String (ascii_of_nat n) "") in F.
        apply last_of in F as [_ F]. now apply Nq.
      * eapply stop_part; [discriminate|exact Fb].
Qed.
Lemma split_app (u w a b : string) : u ++ w = a ++ b -> (exists z, u = a ++ z /\ b = z ++ w) \/ (exists x z, a = u ++ String x z /\ w = String x z ++ b).
Proof.
  revert a; induction u as [|c u IH]; intros [|d a]; cbn [append]; intros E.
  - left. exists "". now split.
  - right. exists d, a. now split.
  - left. exists (String c u). now split.
  - injection E as -> E. destruct (IH a E) as [(z & -> & ->)|(x & z & -> & ->)]; [left; now exists z|right; now exists x, z].
Qed.
Lemma deleted_gone n s s' : Deleted (three n) s s' -> forall u v, s' <> u ++ three n ++ v.
Proof.
  induction 1 as [s No|a b b' Fi D IH]; [exact No|]. intros u v E. symmetry in E. destruct (split_app u (three n ++ v) a b' E) as [(z & _ & Eb)|(x & z & -> & Ez)]; [now apply (IH z v)|].
  assert (P : exists w, String x z ++ three n ++ b = three n ++ w).
  { revert Ez. unfold three. cbv zeta. cbn [append]. intros Ez. injection Ez as <- Ez. destruct z as [|y z]; cbn [append] in *; [eexists; reflexivity|]. injection Ez as <- Ez. destruct z as [|y z]; cbn [append] in *; [eexists; reflexivity|]. injection Ez as <- Ez. eexists; reflexivity. }
  destruct P as (w & P). specialize (Fi u w). rewrite app_assoc_s, P in Fi. specialize (Fi eq_refl). rewrite length_app_s in Fi. cbn [String.length] in Fi. lia.
Qed.
Lemma front_gone n x r u v : x <> ascii_of_nat n -> String x r = u ++ three n ++ v -> exists w, r = w ++ three n ++ v.
Proof. intros N E. destruct u as [|y u]; cbn [append] in E; [unfold three in E; cbv zeta in E; cbn [append] in E; injection E as E _; contradiction|]. injection E as _ E. now exists u. Qed.
Lemma capital_gone n s c : Capital s c -> ~ capital (ascii_of_nat n) -> (forall u v, s <> u ++ three n ++ v) -> forall u v, c <> u ++ three n ++ v.
Proof.
  intros H. destruct H as [|x r y U]; intros Nc No u v E; [destruct u; discriminate|].
  assert (R : forall w, r <> w ++ three n ++ v) by (intros w ->; now apply (No (String x w) v)).
  assert (NS : "S"%char <> ascii_of_nat n) by (intros E'; apply Nc; rewrite <- E'; left; split; vm_compute; lia).
  inversion U as [? F|? d F G|? F G]; subst; cbn [append] in E.
  - apply front_gone in E as (w & E); [|exact NS]. apply front_gone in E as (w' & E); [|exact NS]. now apply (R w').
  - apply front_gone in E as (w & E); [now apply (R w)|]. intros ->. apply Nc. unfold small, capital, in_range in *. lia.
  - now apply (No u v).
Qed.
Lemma capital_begins s t c r : Capital s t -> t = String c r -> ~ small c.
Proof.
  intros H. destruct H as [|x r' y U]; intros E; [discriminate|]. inversion U as [? F|? d F G|? F G]; subst; cbn [append] in *; match goal with E : String _ _ = String _ _ |- _ => injection E as <- <- end.
  - intros F'. unfold small, in_range in F'. vm_compute in F'. lia.
  - unfold small, in_range in *. lia.
  - exact G.
Qed.
(** Whatever the comment lines are: the docstring has no three double quotes in a row, it is empty or ends with a full stop, and
    it does not begin with a small letter. *)
Theorem C90_shape : forall texts s, Docstring_text texts s ->
  (forall u v, s <> u ++ three 34 ++ v) /\ (s = "" \/ full_stop s) /\ (forall c r, s = String c r -> ~ small c).
Proof.
  intros texts s (j & j1 & j2 & C & D1 & D2 & K). repeat split.
  - eapply capital_gone; [exact K| |eapply deleted_gone; exact D2]. unfold capital, in_range. vm_compute. lia.
  - apply comment_stops in C. apply (deleted_stops 39) in D1; [|discriminate|exact C]. apply (deleted_stops 34) in D2; [|discriminate|exact D1].
    destruct D2 as [->|F]; [left; now inversion K|right; eapply stop_capital; eauto].
  - intros c r. now apply (capital_begins j2).
Qed.
Print Assumptions C90_shape.
(** C90 as stated (“triple quotes are removed”): three single quotes can be left, because the double ones are deleted after
    them, and their deletion can bring single quotes together. *)
Theorem C90_single_quotes_refuted : exists texts s, Forall (fun t => Trimmed t t) texts /\ Docstring_text texts s /\ exists u v, s = u ++ three 39 ++ v.
Proof.
  pose (t := "a '" ++ three 34 ++ "''"). exists [t], (capitalize_first (replace tq "" (replace sq3 "" (join_comments [t])))). split; [|split].
  - constructor; [|constructor]. exact (trimmed_self t).
  - apply C90_text. constructor; [|constructor]. exact (trimmed_self t).
  - exists "A ", ".". now vm_compute.
Qed.
Print Assumptions C90_single_quotes_refuted.

(** ** C40 for all lines: which lines are read, upwards through the top of the file to its end and on. *)
Lemma run_Block col ls : Block col ls (map (text_at col) (run col ls)).
Proof.
  induction ls as [|l ls IH]; cbn [run]; [constructor|]. destruct (has_hash col l) eqn:H; cbn [map].
  - apply block_more; auto. now apply has_hash_spec.
  - apply block_stop. intros t. now apply has_hash_false.
Qed.
Lemma texts_trimmed col l : Forall (fun t => Trimmed t t) (map (text_at col) l).
Proof. apply Forall_forall. intros x Hx. apply in_map_iff in Hx as (y & <- & _). apply trimmed_self. Qed.
Lemma colon_no_quote : ~ quote (char 58).
Proof. intros [E|E]; vm_compute in E; discriminate. Qed.
Theorem C40_all_lines : forall lines idx line, nth_error lines idx = Some line ->
  ((forall i, ~ first_even (char 58) line (S i)) -> comment_at lines idx line Above = Val "" /\ comment_at lines idx line Below = Val "") /\
  (forall i, first_even (char 58) line (S i) -> exists col, key_column line col /\
     (exists texts s, Block col (skipn (S idx) lines) texts /\ Docstring_text texts s /\ comment_at lines idx line Below = Val s) /\
     (exists texts s, Block col (rev (firstn idx lines) ++ rev lines) texts /\ Docstring_text (rev texts) s /\ comment_at lines idx line Above = Val s)).
Proof.
  intros lines idx line N. destruct (C39_all_lines (char 58) line colon_no_quote) as [F1 F2]. split.
  - intros No. assert (B : forall above, block_comment lines idx above = Val ""); [|unfold comment_at; rewrite !B; auto].
    intros above. unfold block_comment. rewrite N. change colon_c with (char 58). destruct (find_unquoted (char 58) line) as [[|i]|] eqn:E; auto. exfalso. apply (No i). now apply F1.
  - intros i F. assert (C : has_colon line) by (exists i; now apply F1).
    assert (K : exists col, key_column line col).
    { destruct (strip (remove_char dash_c (strip line))) as [|c r] eqn:Es.
      - destruct (block_comment_total lines idx true) as (s & B). unfold block_comment in B. destruct C as (j & Cj). rewrite N, Cj in B. cbn [truthy_index] in B. rewrite Es in B. discriminate.
      - destruct (key_column_found _ _ _ Es) as (a & b & E & _ & K). eauto. }
    destruct K as (col & K). exists col. split; auto. split.
    + destruct (block_comment_total lines idx false) as (s & B). pose proof (block_comment_below _ _ _ _ _ N C K B) as E.
      eexists _, (capitalize_first s). split; [apply run_Block|]. split; [|unfold comment_at; rewrite B; reflexivity]. rewrite E. apply C90_text, texts_trimmed.
    + destruct (block_comment_total lines idx true) as (s & B). pose proof (block_comment_above _ _ _ _ _ N C K B) as E.
      eexists _, (capitalize_first s). split; [apply run_Block|]. split; [|unfold comment_at; rewrite B; reflexivity]. rewrite E. apply C90_text, Forall_rev, texts_trimmed.
Qed.
Print Assumptions C40_all_lines.
Example C40_all_example : first_even (char 58) "key: 1" 3 /\ comment_at ["# a"; "key: 1"; "# b"; "# c"] 1 "key: 1" Above = Val "B c a.".
Proof. split; [|vm_compute; reflexivity]. apply (C39_all_lines (char 58) "key: 1" colon_no_quote). reflexivity. Qed.
