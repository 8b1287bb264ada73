(** C99: the data of a YAML file with its comments. *)
From Coq Require Import Ascii String List Bool Arith ZArith Lia.
From Verif Require Import PyStr PyStrFacts Exc Yaml YamlLoad SpecNames SpecText SpecImports NamesFacts DocstringFacts SpecYaml SpecComment
  YamlFacts YamlLines YamlComments YamlWords YamlMore YamlEntries SpecLive LiveText SpecMypy SpecLines PropsLines PropsYamlFail PropsYaml PropsComment
  Dispatch Values Strategies Tree Build SpecData SpecMerge SpecTypes SpecDocs TreeProofs SampleEmit SpecYamlDoc YamlDocFacts YamlDocLines YamlDocTexts YamlDocTokens YamlDocOne.
Import ListNotations.
Local Open Scope string_scope.
Local Open Scope nat_scope.

(** ** The comments of a key *)
(** Beside it: the text after the first hash that is not quoted and comes after a space. *)
Definition side_text (line s : string) : Prop :=
  (exists a b t, line = a ++ " #" ++ b /\ first_even (char 35) line (S (String.length a)) /\ Trimmed b t /\
    ((t = "" /\ s = "") \/ (t <> "" /\ full_stop t /\ s = t) \/ (t <> "" /\ ~ full_stop t /\ s = t ++ "."))) \/
  ((forall a b, line = a ++ " #" ++ b -> ~ first_even (char 35) line (S (String.length a))) /\ s = "").
(** Above and below it: the comment lines in its column. *)
Definition found (lines : list string) (i : nat) (line : string) (p : position) (s : string) : Prop :=
  match p with
  | Side => side_text line s
  | _ => ((forall k, ~ first_even (char 58) line (S k)) /\ s = "") \/
      exists col texts, (exists k, first_even (char 58) line (S k)) /\ key_column line col /\ Docstring_text texts s /\
        match p with Below => Block col (skipn (S i) lines) texts | _ => Block col (rev (firstn i lines) ++ rev lines)%list (rev texts) end
  end.
(** The documentation of the key in line [i]: what is found at the positions, one paragraph each.  Keys that begin with an underscore
    and are not behind a dash have none. *)
Definition written (lines : list string) (ps : list position) (i : nat) (key : string) (o : option string) : Prop :=
  exists line, nth_error lines i = Some line /\
    ((skipped line /\ o = None) \/
     (~ skipped line /\ exists texts, Forall2 (found lines i line) ps texts /\
       let docs := filter (fun s => negb (String.eqb s "")) texts in
       (docs = [] /\ o = None) \/ (docs <> [] /\ o = Some (join (lf ++ lf) docs ++ lf)))).

Lemma comment_found lines i line p s : nth_error lines i = Some line -> comment_at lines i line p = Val s -> found lines i line p s.
Proof.
  intros N H. assert (B : forall q, q <> Side -> comment_at lines i line q = Val s -> found lines i line q s).
  { clear p H. intros q Nq H. destruct (C40_all_lines lines i line N) as [A1 A2]. destruct (C39_all_lines (char 58) line colon_no_quote) as [F1 F2].
    assert (D : (exists k, first_even (char 58) line (S k)) \/ forall k, ~ first_even (char 58) line (S k)).
    { destruct (find_unquoted (char 58) line) as [[|k]|] eqn:E; [right|left; exists k; now apply F1|right]; intros j Hj; apply F1 in Hj; congruence. }
    destruct D as [(k & Hk)|No].
    - destruct (A2 k Hk) as (col & Kc & (tb & sb & Bb & Db & Eb) & (ta & sa & Ba & Da & Ea)). destruct q; [right|right|congruence]; exists col.
      + exists (rev ta). rewrite rev_involutive. rewrite Ea in H. injection H as <-. eauto 6.
      + exists tb. rewrite Eb in H. injection H as <-. eauto 6.
    - destruct (A1 No) as [Ea Eb]. destruct q; [left|left|congruence]; split; auto; congruence. }
  destruct p; try (apply B; [discriminate|exact H]). destruct (C57_all_lines lines i line) as [S1 S2]. destruct (find_unquoted_exact (char 35) line hash_no_quote) as [F1 F2].
  assert (D : (exists a b, line = a ++ " #" ++ b /\ first_even (char 35) line (S (String.length a))) \/ forall a b, line = a ++ " #" ++ b -> ~ first_even (char 35) line (S (String.length a))).
  { destruct (find_unquoted (char 35) line) as [[|k]|] eqn:E.
    - right. intros a b _ F. apply F1 in F. congruence.
    - pose proof (proj1 (F1 (S k)) eq_refl) as Q. assert (Q' := Q). destruct Q' as (a & b & El & L & _). destruct (last_of_string a k L) as (a' & c & -> & L'). rewrite app_assoc_s in El. cbn [append] in El.
      destruct (ascii_dec c " ") as [->|Nc].
      + left. exists a', b. split; [exact El|]. now rewrite L'.
      + right. intros u w Ew F. apply F1 in F. try rewrite E in F. injection F as F. apply Nc. rewrite El in Ew. assert (Lu : String.length a' = String.length u) by lia.
        clear -Ew Lu. revert u Lu Ew. induction a' as [|x a' IH]; intros [|z u] Lu Ew; try discriminate; cbn [append] in Ew; [now injection Ew|]. injection Ew as -> Ew. cbn in Lu. eapply IH; [|exact Ew]. lia.
    - right. intros a b _ F. apply F1 in F. congruence. }
  destruct D as [(a & b & E & F)|No].
  - left. destruct (S1 a b E F) as (t & Tt & Et). exists a, b, t. split; [auto|]. split; [auto|]. split; [auto|]. rewrite Et in H. injection H as <-.
    destruct (String.eqb t "") eqn:Z; [apply String.eqb_eq in Z; auto|]. apply String.eqb_neq in Z. destruct (endswith "." t) eqn:En.
    + right. left. split; auto. split; auto. now apply ends_dot_spec.
    + right. right. split; auto. split; auto. intros X. apply ends_dot_spec in X. unfold ends_dot in X. congruence.
  - right. split; auto. rewrite (S2 No) in H. now injection H.
Qed.
Lemma docs_written y i key o : docs_of y i key o -> written (y_lines y) (y_positions y) i key o.
Proof.
  intros (line & N & [H|(Ns & texts & F & D)]); exists line; (split; [exact N|]); [left; exact H|right]. split; auto. exists texts. split.
  - clear D. induction F; constructor; auto. now apply comment_found.
  - replace (filter (fun s => negb (String.eqb s "")) texts) with (filter (fun s => negb (is_empty s)) texts); auto. clear. induction texts as [|t texts IH]; [reflexivity|]. cbn [filter]. rewrite IH. destruct t; reflexivity.
Qed.

(** ** The copy *)
Lemma annotated_mono (text text' : nat -> string -> option string -> Prop) ts ts' : (forall i k o, text i k o -> text' i k o) -> Annotated text ts ts' -> Annotated text' ts ts'.
Proof. intros M. induction 1; constructor; auto. Qed.
Lemma tokens_lines E0 (P Q : string -> Prop) i ls ts : Tokens E0 P i ls ts -> (forall l, P l -> Q l) -> (forall l, idle l -> Q l) -> (forall n dash key rest, key_name key -> Q (key_at n dash key rest)) ->
  (forall n rest, single rest -> Q (pad n ++ "- " ++ rest)) -> Forall Q ls.
Proof.
  intros H A B C D. induction H as [| | |i n dash key rest folded ch m body text ls ts K Hd L Qb Cc De H IH|i n rest ls ts Hp H IH|]; auto; [|inversion IH; subst; constructor; auto].
  constructor; auto. apply Forall_app. split; auto. eapply Forall_impl; [|exact Qb]. auto.
Qed.

(** No line makes the copy fail. *)
Definition harmless (l : string) : Prop := ~ Trimmed l "-" /\ (dash_first l -> two_wide l).
Lemma trimmed_dash l : Trimmed l "-" -> exists a b, l = a ++ String "-" b /\ blank a /\ blank b.
Proof. intros (a & b & E & A & B & _). exists a, b. auto. Qed.
Lemma blank_pad_dash n c r a b : ~ white c -> pad n ++ String c r = a ++ String "-" b -> blank a -> c = "-"%char /\ r = b.
Proof.
  intros W E A. revert a A E. induction n as [|n IH]; intros [|x a] A E; cbn [pad append] in E.
  - injection E as -> ->. auto.
  - injection E as <- _. inversion A; subst. contradiction.
  - discriminate.
  - injection E as <- E. apply (IH a); auto. now inversion A.
Qed.
Lemma two_wide_item n r : two_wide (pad n ++ String "-" (String " " r)).
Proof. destruct n as [|[|n]]; cbn [pad append]; eexists _, _, _; (split; [reflexivity|]); cbv; auto. Qed.
Lemma harmless_other n c r : ~ white c -> code c <> 45 -> harmless (pad n ++ String c r).
Proof.
  intros W N. assert (X : forall a b, pad n ++ String c r = a ++ String "-" b -> blank a -> False) by (intros a b E A; apply blank_pad_dash in E as [-> _]; auto; now apply N).
  split; [intros H; apply trimmed_dash in H as (a & b & E & A & _); eauto|]. intros (a & b & E & A). exfalso. eauto.
Qed.
Lemma not_dash_white : ~ white "-".
Proof. cbv. intuition discriminate. Qed.
Lemma harmless_item n r : ~ blank r -> harmless (pad n ++ String "-" (String " " r)).
Proof.
  intros B. split; [|intros _; apply two_wide_item]. intros H. apply trimmed_dash in H as (a & b & E & A & Bb). apply blank_pad_dash in E as [_ <-]; auto using not_dash_white. inversion Bb; subst. contradiction.
Qed.
Lemma harmless_empty n : harmless (pad n ++ "").
Proof.
  rewrite app_nil_r_s. assert (X : forall a b, pad n <> a ++ String "-" b).
  { intros a b E. assert (I : In "-"%char (chars (pad n))) by (rewrite E, chars_app, in_app_iff; right; now left). clear -I. induction n as [|n IH]; [contradiction|]. destruct I as [I|I]; [discriminate|auto]. }
  split; [intros H; apply trimmed_dash in H as (a & b & E & _); now apply X in E|]. intros (a & b & E & _). now apply X in E.
Qed.
Lemma letter_not_white c : ascii_letter c \/ code c = 95 -> ~ white c /\ code c <> 45.
Proof. intros H. split; [apply not_white; exact (proj1 (starter_facts c H))|]. unfold ascii_letter in H. lia. Qed.
Lemma quiet_harmless l : quiet l -> harmless l.
Proof.
  intros (n & r & -> & [->|[(c & t & -> & W & N & _)|(c & t & -> & W & _)]]); [apply harmless_empty|now apply harmless_other|]. apply harmless_item. intros B. inversion B. contradiction.
Qed.
Lemma tokens_harmless E0 i ls ts : Tokens E0 quiet i ls ts -> Forall harmless ls.
Proof.
  intros H. apply (tokens_lines _ _ _ _ _ _ H).
  - apply quiet_harmless.
  - intros l (n & r & -> & [->|(t & ->)]); [apply harmless_empty|]. apply harmless_other; cbv; [intuition discriminate|discriminate].
  - intros n dash key rest K. destruct (key_starts key K) as (c & r & -> & N & L). apply letter_not_white in L as [W D]. unfold key_at. destruct dash; cbn [bullet append]; [|now apply harmless_other].
    apply harmless_item. intros B. inversion B. contradiction.
  - intros n rest [(c & r & -> & W & _) _]. apply harmless_item. intros B. inversion B. contradiction.
Qed.

Lemma harmless_marker : harmless marker.
Proof.
  split; [|intros _; eexists _, _, _; split; [reflexivity|]; split; right; reflexivity]. intros H. apply trimmed_dash in H as (a & b & E & A & B).
  apply (blank_pad_dash 0 "-"%char "--") in E as [_ <-]; auto using not_dash_white. inversion B as [|? ? W _]. now apply not_dash_white in W.
Qed.
Lemma contents_harmless E0 ls ts : Contents E0 quiet ls ts -> Forall harmless ls.
Proof.
  intros [l t T|pre l t I T]; apply tokens_harmless in T; auto. apply Forall_app. split; [|constructor; [exact harmless_marker|exact T]].
  eapply Forall_impl; [|exact I]. intros x (n & r & -> & [->|(u & ->)]); [apply harmless_empty|]. apply harmless_other; cbv; [intuition discriminate|discriminate].
Qed.

Lemma drop_last_cases ls : ls = drop_last_empty ls \/ ls = (drop_last_empty ls ++ [""])%list.
Proof.
  unfold drop_last_empty. destruct (rev ls) as [|[|c r] l] eqn:E; auto. right. change (rev l ++ [""])%list with (rev ("" :: l)). now rewrite <- E, rev_involutive.
Qed.
(** The last line of the copy has an end only if it is empty. *)
Lemma join_last ls l : ls <> [] -> join nl (ls ++ [l])%list = join nl ls ++ nl ++ l.
Proof.
  induction ls as [|a ls IH]; intros N; [congruence|]. destruct ls as [|b ls]; [reflexivity|].
  change (join nl ((a :: b :: ls) ++ [l])%list) with (a ++ nl ++ join nl ((b :: ls) ++ [l])%list). rewrite IH by discriminate. change (join nl (a :: b :: ls)) with (a ++ nl ++ join nl (b :: ls)). now rewrite !app_assoc_s.
Qed.
Lemma last_snoc (l : string) : l = "" \/ exists a c, l = a ++ String c "".
Proof. induction l as [|d l [->|(a & c & ->)]]; [now left| |]; right; [exists "", d; reflexivity|exists (String d a), c; reflexivity]. Qed.
Lemma snoc_char a c b d : a ++ String c "" = b ++ String d "" -> c = d.
Proof. revert b. induction a as [|x a IH]; intros [|z b] E; cbn [append] in E; injection E; intros; auto; [destruct b; discriminate|destruct a; discriminate|eauto]. Qed.
Lemma ends_line_break c : ends_line c -> printb c = false.
Proof.
  intros H. assert (G : implb (existsb (Nat.eqb (code c)) [10; 11; 12; 13; 28; 29; 30; 133]) (negb (printb c)) = true) by by_chars c.
  assert (X : existsb (Nat.eqb (code c)) [10; 11; 12; 13; 28; 29; 30; 133] = true) by (apply existsb_exists; exists (code c); split; [exact H|apply Nat.eqb_refl]).
  rewrite X in G. now apply negb_true_iff in G.
Qed.
Lemma copy_unterminated flat : Forall (fun l => plainly l) flat -> flat = [] \/ last flat "" <> "" -> ~ terminated (join nl flat).
Proof.
  intros F N (a & c & E & H). destruct flat as [|l flat] using rev_ind; [destruct a; discriminate|]. clear IHflat. destruct N as [N|N]; [destruct flat; discriminate|]. rewrite last_last in N.
  destruct (last_snoc l) as [->|(b & d & ->)]; [congruence|]. apply Forall_app in F as [_ F]. inversion F as [|? ? P _]; subst. apply all_app in P as [_ P]. cbn [str_forall] in P. rewrite andb_true_r in P.
  assert (X : exists b', join nl (app flat [b ++ String d ""]) = b' ++ String d "").
  { destruct flat as [|x flat]; [exists b; reflexivity|]. rewrite join_last by discriminate. exists (join nl (x :: flat) ++ nl ++ b). now rewrite !app_assoc_s. }
  destruct X as (b' & X). rewrite X in E. apply snoc_char in E. subst d. now rewrite (ends_line_break c H) in P.
Qed.
Lemma copy_terminated ls : ls <> [] -> terminated (join nl (ls ++ [""])%list).
Proof. intros N. rewrite join_last by auto. exists (join nl ls), (ascii_of_nat 10). split; [reflexivity|now left]. Qed.
(** The copy of the file: its tokens are those of the file, with the comments of each key as a text before it. *)
Lemma copy_tokens y ts : Contents False quiet (y_lines y) ts -> Forall (fun l => Forall printable (chars l)) (y_lines y) -> Forall triple_free (y_lines y) ->
  (exists l, In l (y_lines y) /\ In (char 32) (chars l)) ->
  exists out lines' ts', temporary_string y = Val out /\ Lines out lines' /\ Contents (terminated out) any lines' ts' /\ Annotated (docs_of y) ts ts' /\ Forall (fun l => Forall printable (chars l)) lines'.
Proof.
  intros T P Tf Sp. assert (P' : Forall (fun l => plainly l) (y_lines y)) by (eapply Forall_impl; [|exact P]; intros l; apply printb_forall).
  assert (NT : forall l, In l (y_lines y) -> ~ In (char 9) (chars l)) by (rewrite Forall_forall in P'; intros l Hl; apply plain_no_tabs; auto).
  pose proof (contents_harmless _ _ _ T) as Hh. rewrite Forall_forall in Hh.
  destruct (C91_copy_partial y) as [_ X]; [intros l Hl D; right; now apply (Hh l Hl)|]. destruct X as (out & Eo); [intros (_ & l & Hl & D); now apply (Hh l Hl)|].
  pose proof Eo as Eo'. unfold temporary_string in Eo'. apply andthen_Val in Eo' as (ls & Er & E). injection E as <-.
  destruct (file_blocks y ls Er) as (bs & -> & Lb & Hb); auto; [apply spaces_detected; split; auto|].
  destruct (copied_contents y False (y_lines y) ts bs Tf P' eq_refl T) as (flat & ts' & E1 & E2 & E3 & A1 & A2); [now apply Blocks_make|].
  assert (Ej : join nl (List.concat bs) = join nl flat).
  { destruct flat as [|f flat]; [now rewrite (proj2 E2 eq_refl)|]. destruct (List.concat bs) as [|b cb] eqn:Ec; [destruct E2 as [E2 _]; now specialize (E2 eq_refl)|].
    rewrite <- (join_unl (b :: cb)), <- (join_unl (f :: flat)) in E1 by discriminate. now apply app_inj_r in E1. }
  exists (join nl (List.concat bs)), (drop_last_empty flat), ts'. split; [exact Eo|].
  assert (O : Forall (fun l => SpecLive.one_line l = true) flat) by (eapply Forall_impl; [|exact E3]; intros l; apply printb_one_line).
  split; [rewrite Ej, <- (splitlines_join flat O); apply lines_of|].
  assert (D : flat = drop_last_empty flat \/ flat = (drop_last_empty flat ++ [""])%list) by apply drop_last_cases.
  split.
  { rewrite Ej. destruct D as [D|D].
    - rewrite <- D. apply (contents_end False); [exact A1|]. split; [intros []|]. apply copy_unterminated; [exact E3|].
      destruct flat as [|l fl] using rev_ind; [now left|]. clear IHfl. right. intros Z. rewrite last_last in Z. subst l. unfold drop_last_empty in D. rewrite rev_app_distr in D. cbn [rev app] in D. rewrite rev_involutive in D.
      apply (f_equal (@List.length string)) in D. rewrite app_length in D. cbn in D. lia.
    - pose proof (drop_last_contents _ _ _ A1 _ D) as X. destruct (drop_last_empty flat) as [|l fl]; [inversion X as [? ? X' E E'|pre ? ? X' X2 E E']; subst; [inversion X'; subst; apply cs_bare; constructor|destruct pre; discriminate E]|].
      apply (contents_end True); [exact X|]. split; [|auto]. intros _. rewrite D. apply copy_terminated. discriminate. }
  split; [exact A2|].
  assert (F : Forall (fun l => Forall printable (chars l)) flat) by (eapply Forall_impl; [|exact E3]; intros l; apply printb_forall).
  destruct D as [<-|D]; [exact F|]. rewrite D in F. now apply Forall_app in F as [F _].
Qed.

(** ** C99 *)
Lemma annotated_each text ts ts' : Annotated text ts ts' -> forall i c k tok, In tok ts -> keyed i c k tok -> text i k None \/ exists t j, text i k (Some t) /\ In (TText j c (doc_name k) t) ts'.
Proof.
  intros H i c k tok. induction H as [|c0 ts ts' H IH|c0 r0 ts ts' H IH|i0 i' c0 k0 r0 ts ts' T0 H IH|i0 i' j c0 k0 r0 t0 ts ts' T0 H IH|i0 i' c0 k0 x0 ts ts' T0 H IH|i0 i' j c0 k0 x0 t0 ts ts' T0 H IH];
    intros Hi K; try contradiction; (destruct Hi as [<-|Hi]; cbn [keyed] in K; [try contradiction|]);
    try (destruct (IH Hi K) as [A|(t & j' & A & B)]; [now left|right; exists t, j'; split; [exact A|cbn [In]; auto]]; fail);
    destruct K as (-> & -> & ->); first [now left|right; exists t0, j; split; [exact T0|now left]].
Qed.
Lemma doc_name_doc k : doc_key (KStr (doc_name k)).
Proof. now exists k. Qed.

(** Full claim: for every file that can be read, the temporary copy means the data with the comments of each key as an entry before it. *)
Definition reads_with_comments (inline : string -> pyval -> Prop) (ps : list position) (text : string) (lines : list string) (v : pyval) (out : string) : Prop :=
  exists lines' ts ts' v', Lines out lines' /\ Contents (terminated text) any lines ts /\ Contents (terminated out) any lines' ts' /\ Annotated (written lines ps) ts ts' /\
    Document inline (terminated out) any lines' v' /\ strips v' v /\ noted v' /\
    forall i c k tok, In tok ts -> keyed i c k tok -> written lines ps i k None \/
      exists t kk tt d, written lines ps i k (Some t) /\ sub (VMap kk tt d) v' /\ In (KStr (doc_name k), VStr t) d /\ has_key (KStr k) d.
Lemma tokens_any E0 P i ls ts : Tokens E0 P i ls ts -> Tokens E0 any i ls ts.
Proof. induction 1; try (constructor; auto; fail); [apply tk_text with (folded := folded) (ch := ch) (m := m); auto; apply Forall_forall; intros x _; exact I|apply tk_nested; [exact I|auto]]. Qed.
Lemma contents_any E0 P ls ts : Contents E0 P ls ts -> Contents E0 any ls ts.
Proof. intros [l t T|pre l t I T]; [apply cs_bare|apply cs_marked; auto]; eapply tokens_any; eauto. Qed.
Lemma document_any inline E0 P ls v : Document inline E0 P ls v -> Document inline E0 any ls v.
Proof. intros [A (ts & B & C)]. split; auto. exists ts. split; auto. now apply contents_any in B. Qed.

Lemma lasting_document inline E0 P ls v : Lasting inline E0 P ls v -> Document inline E0 P ls v.
Proof. intros [A (ts & B & _ & C)]. split; eauto. Qed.

(** Proved for files with a space and without three quotes in a row, whose texts have no lines that look like keys or list items, and that
    mean the same if their last line has no end. *)
Theorem C99_copy_partial : forall inline name arg text y lines v,
  yaml_init name arg text = Val y -> Lines text lines -> Lasting inline (terminated text) quiet lines v -> Forall triple_free lines ->
  (exists l, In l lines /\ In (char 32) (chars l)) -> undocumented v ->
  exists out, temporary_string y = Val out /\ reads_with_comments inline (y_positions y) text lines v out.
Proof.
  intros inline name arg text y lines v Hy Hl [P (ts & T0 & T & C)] Tf Sp U.
  assert (El : y_lines y = lines).
  { rewrite (Lines_splitlines _ _ Hl). unfold yaml_init in Hy. destruct (pos_mem Above _ && _); [discriminate|]. destruct (negb _); [discriminate|]. injection Hy as <-. reflexivity. }
  subst lines. destruct (copy_tokens y ts T P Tf Sp) as (out & lines' & ts' & Eo & Lo & T' & A & P'). exists out. split; [exact Eo|].
  destruct (annotated_document (docs_of y) inline ts v ts' C U A) as (v' & C' & St & Nt).
  exists lines', ts, ts', v'. split; [exact Lo|]. split; [now apply contents_any in T0|]. split; [exact T'|]. split; [eapply annotated_mono; [|exact A]; intros i k o; apply docs_written|].
  split; [split; [exact P'|eauto]|]. split; [exact St|]. split; [exact Nt|].
  intros i c k tok Hi K. destruct (annotated_each _ _ _ A i c k tok Hi K) as [W|(t & j & W & Ht)]; [left; now apply docs_written in W|right].
  destruct (proj2 (proj2 (texts_in_value inline)) ts' v' C' j c (doc_name k) t Ht) as (kk & tt & d & Sd & Hd). exists t, kk, tt, d. split; [now apply docs_written in W|]. split; [exact Sd|]. split; [exact Hd|].
  destruct (Nt kk tt d Sd) as [Dt _]. destruct (Dt _ _ Hd (doc_name_doc k)) as (_ & n & E & _ & Hn). injection E as E. now subst n.
Qed.
Print Assumptions C99_copy_partial.

(** The specification of files is one: two readings of a file are the same, whatever is in one line. *)
Theorem C99_one_reading : forall inline : string -> pyval -> Prop, (forall r v w, inline r v -> inline r w -> v = w) -> (forall r v, inline r v -> ~ bare r) ->
  forall E lines v w, Document inline E any lines v -> Document inline E any lines w -> v = w.
Proof. intros inline F A E lines v w. now apply document_one. Qed.
Print Assumptions C99_one_reading.

(** A file that does not end in a text of several lines means the same if its last line has no end. *)
Theorem C99_lasting : forall inline E P lines v ts, Forall (fun l => Forall printable (chars l)) lines -> Contents E P lines ts -> Collection inline ts v ->
  ~ (exists before i c k x, ts = (before ++ [TText i c k x])%list) -> Lasting inline E P lines v.
Proof. intros inline E P lines v ts Pr T C N. split; [exact Pr|]. exists ts. split; [exact T|]. split; [now apply (contents_lasting E)|exact C]. Qed.
Print Assumptions C99_lasting.

(** A loader that reads a text as the specification says, if it is such a file. *)
Definition reads_as (inline : string -> pyval -> Prop) (loader : string -> exc pyval) (text : string) : Prop :=
  forall lines v, Lines text lines -> Document inline (terminated text) any lines v -> loader text = Val v.
(** [from_yaml_file] makes hints for the data with the comments, and for the data alone if that fails. *)
Theorem C99_call_partial : forall {H} inline loader (from_data : pyval -> exc H) tempdir fs p arg text y lines v,
  reads_as inline loader text -> (forall out, temporary_string y = Val out -> reads_as inline loader out) -> fs p = Some text -> yaml_init (snd p) arg text = Val y -> Lines text lines -> Lasting inline (terminated text) quiet lines v -> Forall triple_free lines ->
  (exists l, In l lines /\ In (char 32) (chars l)) -> undocumented v ->
  exists v', strips v' v /\ noted v' /\ (exists out lines', temporary_string y = Val out /\ Lines out lines' /\ Document inline (terminated out) any lines' v') /\
    from_yaml loader from_data tempdir fs p (Some arg) = try_else (from_data v') (from_data v).
Proof.
  intros H inline loader from_data tempdir fs p arg text y lines v R R2 Hf Hy Hl D Tf Sp U.
  destruct (C99_copy_partial inline (snd p) arg text y lines v Hy Hl D Tf Sp U) as (out & Eo & lines' & ts & ts' & v' & Lo & _ & _ & _ & Dv & St & Nt & _).
  exists v'. split; [auto|]. split; [auto|]. split; [eauto 6|]. unfold from_yaml, open_yaml.
  assert (Y0 : exists y0, yaml_init (snd p) arg "" = Val y0).
  { unfold yaml_init in *. destruct (pos_mem Above _ && _); [discriminate|]. destruct (negb _); [discriminate|]. eauto. }
  destruct Y0 as (y0 & ->). rewrite Hf, Hy. cbn [andthen]. unfold load at 1. rewrite Hf, (R lines v Hl (document_any _ _ _ _ _ (lasting_document _ _ _ _ _ D))). cbn [andthen]. rewrite Eo. cbn [andthen].
  unfold load, write. assert (E : path_eqb (temp_path tempdir p) (temp_path tempdir p) = true) by (unfold path_eqb; now rewrite !String.eqb_refl). rewrite E, (R2 out Eo lines' v' Lo Dv). reflexivity.
Qed.
Print Assumptions C99_call_partial.

(** ** A file *)
Lemma no_quotes_free ls : forallb (str_forall (fun c => negb (is_quote c))) ls = true -> Forall triple_free ls.
Proof.
  rewrite forallb_forall. intros H. apply Forall_forall. intros l Hl q a b Hq E. specialize (H l Hl). subst l. rewrite str_forall_app in H. apply andb_true_iff in H as [_ H]. cbn [str_forall] in H.
  apply is_quote_spec in Hq. rewrite Hq in H. discriminate.
Qed.
Lemma undocumentedb_spec v : forallb (fun x => match x with VMap _ _ d => forallb (fun e => negb (is_hidden (fst e))) d | _ => true end) (subs v) = true -> undocumented v.
Proof.
  intros H k t d Hd key Hk Dk. rewrite forallb_forall in H. specialize (H _ (sub_subs _ _ Hd)). cbn beta iota in H. unfold has_key in Hk. apply in_map_iff in Hk as (e & <- & He).
  rewrite forallb_forall in H. specialize (H e He). apply hidden_doc in Dk. now rewrite Dk in H.
Qed.
Definition ones (rest : string) (v : pyval) : Prop := (exists n s, rest = pad n ++ "1" ++ s) /\ v = VInst ty_int.
Lemma ones_one r v w : ones r v -> ones r w -> v = w.
Proof. intros [_ ->] [_ ->]. reflexivity. Qed.
Lemma ones_bare r v : ones r v -> ~ bare r.
Proof.
  intros [(n & s & ->) _] (k & t & E & [->|(_ & u & ->)]).
  - rewrite app_nil_r_s in E. symmetry in E. revert E. apply pad_no. cbv; discriminate.
  - cbn [append] in E. apply pad_split in E as (_ & E & _); [discriminate|cbv; discriminate..].
Qed.
Definition config : list string :=
  ["# The server"; "server:"; "  # Where it listens"; "  # for clients"; "  port: 1  # TCP"; "  note: |"; "    (careful: no)"; "    stop it first"; ""; "users:  # Who may log in"; "- name: 1  # the name"; "  level: 1"; "- 1 # nobody"; "_last:"].
Definition config_value : pyval :=
  VMap MDict ty_dict [(KStr "server", VMap MDict ty_dict [(KStr "port", VInst ty_int); (KStr "note", VStr ("(careful: no)" ++ lf ++ "stop it first" ++ lf))]);
    (KStr "users", VSeq KList ty_list [VMap MDict ty_dict [(KStr "name", VInst ty_int); (KStr "level", VInst ty_int)]; VInst ty_int]); (KStr "_last", VInst ty_none)].
Ltac no_header := intros (n & r & [E|E]); do 4 (destruct n as [|n]; [discriminate|try discriminate]); discriminate.
Fixpoint no_gap (k : string) : bool :=
  match k with "" => true | String c r => (if Nat.eqb (code c) 32 then match r with "" => false | String d _ => negb (Nat.eqb (code d) 35) end else true) && no_gap r end.
Definition key_nameb (k : string) : bool :=
  match k with "" => false | String c _ => (Nat.leb 65 (code c) && Nat.leb (code c) 90) || (Nat.leb 97 (code c) && Nat.leb (code c) 122) || Nat.eqb (code c) 95 end &&
  str_forall (fun c => (Nat.eqb (code c) 32 || negb (is_space c)) && negb (is_quote c) && negb (Nat.eqb (code c) 58)) k && no_gap k.
Lemma no_gap_spec k : no_gap k = true -> (forall a, k <> a ++ " ") /\ (forall a b, k <> a ++ " #" ++ b).
Proof.
  induction k as [|c k IH]; intros H; [split; intros [|]; discriminate|]. cbn [no_gap] in H. apply andb_true_iff in H as [H G]. destruct (IH G) as [A B]. split.
  - intros [|d a] E; injection E as -> E; [subst k; discriminate H|exact (A a E)].
  - intros [|d a] b E; injection E as -> E; [subst k; discriminate H|exact (B a b E)].
Qed.
Lemma key_nameb_spec k : key_nameb k = true -> key_name k.
Proof.
  unfold key_nameb. rewrite !andb_true_iff. intros [[H F] G]. split; [|split; [|now apply no_gap_spec]].
  - destruct k as [|c r]; [discriminate H|]. exists c, r. split; [reflexivity|]. rewrite !orb_true_iff, !andb_true_iff, !Nat.leb_le, Nat.eqb_eq in H. unfold ascii_letter. tauto.
  - apply Forall_chars in F. eapply Forall_impl; [|exact F]. intros c X. cbn beta in X. rewrite !andb_true_iff, orb_true_iff, !negb_true_iff, Nat.eqb_eq, Nat.eqb_neq in X. destruct X as [[X1 X2] X3].
    split; [destruct X1; [now left|right; now apply not_white]|]. split; [|exact X3]. intros Q. apply is_quote_spec in Q. congruence.
Qed.
Ltac key_ok := apply key_nameb_spec; reflexivity.
Ltac key_line n dash key rest := apply (tk_key _ _ _ n dash key rest); [key_ok|first [left; reflexivity|right; eexists; reflexivity]|no_header|].
Definition config_tokens : list token :=
  [TKey 1 0 "server" ""; TKey 4 2 "port" " 1  # TCP"; TText 5 2 "note" ("(careful: no)" ++ lf ++ "stop it first" ++ lf); TKey 9 0 "users" "  # Who may log in";
   TDash 0; TKey 10 2 "name" " 1  # the name"; TKey 11 2 "level" " 1"; TItem 0 "1 # nobody"; TKey 13 0 "_last" ""].
Lemma config_read (E0 : Prop) (P : string -> Prop) : P "    (careful: no)" -> P "    stop it first" -> P "" -> Tokens E0 P 0 config config_tokens.
Proof.
  intros P1 P2 P3. unfold config, config_tokens.
  apply tk_idle; [exists 0, "# The server"; split; [reflexivity|right; eexists; reflexivity]|].
  key_line 0 false "server" "".
  apply tk_idle; [exists 2, "# Where it listens"; split; [reflexivity|right; eexists; reflexivity]|].
  apply tk_idle; [exists 2, "# for clients"; split; [reflexivity|right; eexists; reflexivity]|].
  key_line 2 false "port" " 1  # TCP".
  apply (tk_text _ _ _ 2 false "note" " |" false Single 4 ["    (careful: no)"; "    stop it first"; ""]).
  - key_ok.
  - exact header_plain.
  - exists "(careful: no)", ["stop it first"], [""], 2. split; [|split; [|split; [|split; [|split]]]].
    + constructor; [left; reflexivity|]. constructor; [left; reflexivity|]. constructor; [right; split; [reflexivity|]; exists 0; split; [lia|reflexivity]|constructor].
    + eexists _, _. split; [reflexivity|cbv; lia].
    + repeat constructor.
    + discriminate.
    + left. split; [right; discriminate|reflexivity].
    + reflexivity.
  - repeat constructor; assumption.
  - cbv; lia.
  - right. exists 0, "u"%char, "sers:  # Who may log in". eexists. split; [reflexivity|]. split; [lia|cbv; lia].
  - key_line 0 false "users" "  # Who may log in".
    key_line 0 true "name" " 1  # the name".
    key_line 2 false "level" " 1".
    apply (tk_item _ _ _ 0 "1 # nobody"); [split; [|split]|].
    + eexists _, _. split; [reflexivity|]. split; [intros F; cbv in F; intuition discriminate|]. split; [cbv; lia|]. intros [F _]. cbv in F. lia.
    + no_header.
    + cbv. intuition discriminate.
    + key_line 0 false "_last" "". constructor.
Qed.
Lemma config_means : Collection ones config_tokens config_value.
Proof.
  assert (B : bare "") by (exists 0, ""; auto). assert (B2 : bare "  # Who may log in") by (exists 2, "# Who may log in"; split; [reflexivity|right; split; [lia|eexists; reflexivity]]).
  assert (O : forall n s, ones (pad n ++ "1" ++ s) (VInst ty_int)) by (intros n s; split; [eauto|reflexivity]).
  apply (co_map ones 0); [discriminate| |repeat constructor; cbn; intuition discriminate].
  apply (en_block ones 0 1 "server" "" [TKey 4 2 "port" " 1  # TCP"; TText 5 2 "note" ("(careful: no)" ++ lf ++ "stop it first" ++ lf)]); auto; [repeat constructor| |].
  { apply (co_map ones 2); [discriminate| |repeat constructor; cbn; intuition discriminate]. apply en_inline; [apply (O 1 "  # TCP")|]. apply en_text. constructor. }
  apply (en_block ones 0 9 "users" "  # Who may log in" [TDash 0; TKey 10 2 "name" " 1  # the name"; TKey 11 2 "level" " 1"; TItem 0 "1 # nobody"]); auto.
  { repeat (apply Forall_cons; [first [right; reflexivity|left; cbn; lia]|]). constructor. }
  { apply (co_seq ones 0); [discriminate|]. apply (it_map ones 0 [TKey 10 2 "name" " 1  # the name"; TKey 11 2 "level" " 1"]); [repeat constructor| |].
    - apply (co_map ones 2); [discriminate| |repeat constructor; cbn; intuition discriminate]. apply en_inline; [apply (O 1 "  # the name")|]. apply en_inline; [apply (O 1 "")|]. constructor.
    - apply it_inline; [apply (O 0 " # nobody")|]. constructor. }
  apply en_null; auto. constructor.
Qed.
Lemma printable_lines ls : forallb (str_forall printb) ls = true -> Forall (fun l => Forall printable (chars l)) ls.
Proof. intros H. apply Forall_forall. intros l Hl. rewrite forallb_forall in H. apply printb_forall. auto. Qed.
Lemma config_tokens_read E0 : Tokens E0 quiet 0 config config_tokens.
Proof.
  apply config_read.
  - exists 4, "(careful: no)". split; [reflexivity|]. right. left. eexists _, _. split; [reflexivity|]. split; [intros F; cbv in F; intuition discriminate|]. split; [cbv; lia|].
    left. split; [cbv; lia|]. unfold ascii_letter. cbv. lia.
  - exists 4, "stop it first". split; [reflexivity|]. right. left. eexists _, _. split; [reflexivity|]. split; [intros F; cbv in F; intuition discriminate|]. split; [cbv; lia|].
    right. intros F. cbv in F. intuition discriminate.
  - exists 0, "". auto.
Qed.
Lemma config_document E0 : Lasting ones E0 quiet config config_value.
Proof.
  split; [apply printable_lines; vm_compute; reflexivity|]. exists config_tokens. split; [apply cs_bare, config_tokens_read|]. split; [apply cs_bare, config_tokens_read|apply config_means].
Qed.

Definition config_text : string := join nl config.
Definition config_file : yaml := Yaml "config.yaml" config [Above; Side].
Example config_init : yaml_init "config.yaml" (Many [Above; Side]) config_text = Val config_file.
Proof. vm_compute. reflexivity. Qed.
(** The comments are before the keys, those at two positions as two paragraphs; the literal text and the list are as they were. *)
Definition config_copy : list string :=
  ["# The server"; "___docstring_hidden_key_server: |"; " The server."; "server:"; "  # Where it listens"; "  # for clients"; "  ___docstring_hidden_key_port: |";
   "   Where it listens for clients."; "   "; "   TCP."; "  port: 1  # TCP"; "  note: |"; "    (careful: no)"; "    stop it first"; ""; "___docstring_hidden_key_users: |"; " Who may log in.";
   "users:  # Who may log in"; "- ___docstring_hidden_key_name: |"; "   the name."; "  name: 1  # the name"; "  level: 1"; "- 1 # nobody"; "_last:"].
Example C99_copy_example : yaml_init "config.yaml" (Many [Above; Side]) config_text = Val config_file /\ Lines config_text config /\ Lasting ones (terminated config_text) quiet config config_value /\
  Forall triple_free config /\ (exists l, In l config /\ In (char 32) (chars l)) /\ undocumented config_value /\
  temporary_string config_file = Val (join nl config_copy) /\ reads_with_comments ones [Above; Side] config_text config config_value (join nl config_copy).
Proof.
  assert (Ls : Lines config_text config) by (replace config with (splitlines config_text) by (vm_compute; reflexivity); apply lines_of).
  assert (Tf : Forall triple_free config) by (apply no_quotes_free; vm_compute; reflexivity).
  assert (Sp : exists l, In l config /\ In (char 32) (chars l)) by (exists "# The server"; split; [now left|right; now left]).
  assert (U : undocumented config_value) by (apply undocumentedb_spec; vm_compute; reflexivity).
  assert (Y : yaml_init "config.yaml" (Many [Above; Side]) config_text = Val config_file) by exact config_init.
  assert (E : temporary_string config_file = Val (join nl config_copy)) by (vm_compute; reflexivity).
  destruct (C99_copy_partial ones "config.yaml" _ config_text config_file config config_value Y Ls (config_document _) Tf Sp U) as (out & Eo & R).
  assert (Z : out = join nl config_copy) by congruence. subst out. split; [exact Y|]. split; [exact Ls|]. split; [exact (config_document _)|]. split; [exact Tf|]. split; [exact Sp|]. split; [exact U|]. split; [exact E|]. exact R.
Qed.

(** A folded text without the ends of its last lines, a literal one with all of them, and a key with a space. *)
Definition folded_lines : list string := ["a: >- # why"; "  one"; "  two"; ""; "   three"; ""; "b: |+"; "  x"; ""; "last key: # end"].
Definition folded_value : pyval :=
  VMap MDict ty_dict [(KStr "a", VStr ("one two" ++ lf ++ lf ++ " three")); (KStr "b", VStr ("x" ++ lf ++ lf)); (KStr "last key", VInst ty_none)].
Lemma quiet_word n c t : ascii_letter c -> ~ In (char 58) (chars (pad n ++ String c t)) -> quiet (pad n ++ String c t).
Proof.
  intros L N. exists n, (String c t). split; [reflexivity|]. right. left. exists c, t. split; [reflexivity|]. destruct (letter_not_white c (or_introl L)) as [W D]. auto.
Qed.
Lemma quiet_nothing : quiet "".
Proof. exists 0, "". auto. Qed.
Example C99_folded_example : Lines (join nl folded_lines) folded_lines /\ Lasting ones (terminated (join nl folded_lines)) quiet folded_lines folded_value /\
  exists out, temporary_string (Yaml "a.yaml" folded_lines [Side]) = Val out /\ reads_with_comments ones [Side] (join nl folded_lines) folded_lines folded_value out.
Proof.
  assert (Ls : Lines (join nl folded_lines) folded_lines) by (replace folded_lines with (splitlines (join nl folded_lines)) at 2 by (vm_compute; reflexivity); apply lines_of).
  assert (K1 : key_name "a") by key_ok. assert (K2 : key_name "b") by key_ok. assert (K3 : key_name "last key") by key_ok.
  assert (H3 : ~ header " # end") by (intros (n & r & [E|E]); do 2 (destruct n as [|n]; [discriminate E|]); discriminate E).
  assert (Q : Forall quiet ["  one"; "  two"; ""; "   three"; ""]).
  { repeat (apply Forall_cons || apply Forall_nil); try exact quiet_nothing; [apply (quiet_word 2 "o"%char "ne")|apply (quiet_word 2 "t"%char "wo")|apply (quiet_word 3 "t"%char "hree")]; try (unfold ascii_letter; cbv; lia); intros F; cbv in F; intuition discriminate. }
  assert (Q2 : Forall quiet ["  x"; ""]).
  { repeat (apply Forall_cons || apply Forall_nil); try exact quiet_nothing. apply (quiet_word 2 "x"%char ""); [unfold ascii_letter; cbv; lia|intros F; cbv in F; intuition discriminate]. }
  assert (T : forall E0, Tokens E0 quiet 0 folded_lines [TText 0 0 "a" ("one two" ++ lf ++ lf ++ " three"); TText 6 0 "b" ("x" ++ lf ++ lf); TKey 9 0 "last key" " # end"]).
  { intros E0. apply (tk_text E0 quiet 0 0 false "a" " >- # why" true Removed 2 ["  one"; "  two"; ""; "   three"; ""] _ ["b: |+"; "  x"; ""; "last key: # end"]); [exact K1| | |exact Q|cbv; lia| |].
    - exists 0, " # why". split; [reflexivity|]. exists 1, "# why". split; [reflexivity|]. right. split; [lia|exists " why"; reflexivity].
    - exists "one", ["two"; ""; " three"], [""], 2. split.
      { repeat (apply Forall2_cons || apply Forall2_nil); first [left; reflexivity|right; split; [reflexivity|exists 0; split; [lia|reflexivity]]]. }
      split; [eexists _, _; split; [reflexivity|cbv; lia]|]. split; [repeat constructor|]. split; [discriminate|]. split; [left; split; [right; discriminate|reflexivity]|reflexivity].
    - right. exists 0, "b"%char, ": |+". eexists. split; [reflexivity|]. split; [lia|cbv; lia].
    - apply (tk_text E0 quiet 6 0 false "b" " |+" false All 2 ["  x"; ""] _ ["last key: # end"]); [exact K2| | |exact Q2|cbv; lia| |].
      + exists 0, "". split; [reflexivity|]. exists 0, "". auto.
      + exists "x", [], [""], 2. split.
        { repeat (apply Forall2_cons || apply Forall2_nil); first [left; reflexivity|right; split; [reflexivity|exists 0; split; [lia|reflexivity]]]. }
        split; [eexists _, _; split; [reflexivity|cbv; lia]|]. split; [repeat constructor|]. split; [discriminate|]. split; [left; split; [right; discriminate|reflexivity]|reflexivity].
      + right. exists 0, "l"%char, "ast key: # end". eexists. split; [reflexivity|]. split; [lia|cbv; lia].
      + apply (tk_key E0 quiet 9 0 false "last key" " # end" []); [exact K3|right; exists "# end"; reflexivity|exact H3|constructor]. }
  assert (La : forall E0, Lasting ones E0 quiet folded_lines folded_value).
  { intros E0. split; [apply printable_lines; vm_compute; reflexivity|]. eexists. split; [apply cs_bare, T|]. split; [apply cs_bare, T|].
    apply (co_map ones 0); [discriminate| |repeat constructor; cbn; intuition discriminate]. apply en_text, en_text. apply en_null; [|constructor]. exists 1, "# end". split; [reflexivity|]. right. split; [lia|exists " end"; reflexivity]. }
  split; [exact Ls|]. split; [apply La|]. apply (C99_copy_partial ones "a.yaml" (One Side) (join nl folded_lines) (Yaml "a.yaml" folded_lines [Side]) folded_lines folded_value).
  - vm_compute. reflexivity.
  - exact Ls.
  - apply La.
  - apply no_quotes_free. vm_compute. reflexivity.
  - exists "  x". split; [do 7 right; now left|now left].
  - apply undocumentedb_spec. vm_compute. reflexivity.
Qed.

(** Sequences in a sequence, under a key with a comment, in a file that begins with "---". *)
Definition rows_lines : list string := ["# numbers"; "---"; "m: # rows"; "- - 1"; "  - 1"; "- - 1 # last"].
Definition rows_value : pyval :=
  let one := VInst ty_int in VMap MDict ty_dict [(KStr "m", VSeq KList ty_list [VSeq KList ty_list [one; one]; VSeq KList ty_list [one]])].
Example C99_rows_example : Lines (join nl rows_lines) rows_lines /\ Lasting ones (terminated (join nl rows_lines)) quiet rows_lines rows_value /\
  exists out, temporary_string (Yaml "a.yaml" rows_lines [Side]) = Val out /\ reads_with_comments ones [Side] (join nl rows_lines) rows_lines rows_value out.
Proof.
  assert (Ls : Lines (join nl rows_lines) rows_lines) by (replace rows_lines with (splitlines (join nl rows_lines)) at 2 by (vm_compute; reflexivity); apply lines_of).
  assert (K : key_name "m") by key_ok. assert (Nh : ~ header " # rows") by no_header.
  assert (Q : forall t, ~ In (char 58) (chars ("- - 1" ++ t)) -> quiet ("- - 1" ++ t)).
  { intros t N. exists 0, ("- - 1" ++ t). split; [reflexivity|]. right. right. exists "-"%char, (" 1" ++ t). split; [reflexivity|]. split; [exact not_dash_white|exact N]. }
  assert (Sg : forall t, ~ In (char 58) (chars ("1" ++ t)) -> single ("1" ++ t)).
  { intros t N. split; [|split; [|exact N]].
    - exists "1"%char, t. split; [reflexivity|]. split; [intros F; cbv in F; intuition discriminate|]. split; [cbv; lia|]. intros [F _]. cbv in F. lia.
    - intros (n & r & [E|E]); (destruct n as [|n]; discriminate E). }
  assert (N0 : ~ In (char 58) (chars "1")) by (intros F; cbv in F; intuition discriminate).
  assert (N1 : ~ In (char 58) (chars "1 # last")) by (intros F; cbv in F; intuition discriminate).
  assert (T : forall E0, Contents E0 quiet rows_lines [TKey 2 0 "m" " # rows"; TDash 0; TItem 2 "1"; TItem 2 "1"; TDash 0; TItem 2 "1 # last"]).
  { intros E0. apply (cs_marked E0 quiet ["# numbers"]); [constructor; [exists 0, "# numbers"; split; [reflexivity|right; eexists; reflexivity]|constructor]|].
    apply (tk_key E0 quiet 2 0 false "m" " # rows"); [exact K|right; eexists; reflexivity|exact Nh|].
    apply (tk_nested E0 quiet 3 0 "1"); [apply (Q ""); intros F; cbv in F; intuition discriminate|]. apply (tk_item E0 quiet 3 2 "1"); [exact (Sg "" N0)|].
    apply (tk_item E0 quiet 4 2 "1"); [exact (Sg "" N0)|].
    apply (tk_nested E0 quiet 5 0 "1 # last"); [apply (Q " # last"); intros F; cbv in F; intuition discriminate|]. apply (tk_item E0 quiet 5 2 "1 # last"); [exact (Sg " # last" N1)|constructor]. }
  assert (O : forall t, ones ("1" ++ t) (VInst ty_int)) by (intros t; split; [exists 0, t; reflexivity|reflexivity]).
  assert (La : forall E0, Lasting ones E0 quiet rows_lines rows_value).
  { intros E0. split; [apply printable_lines; vm_compute; reflexivity|]. eexists. split; [apply T|]. split; [apply T|].
    apply (co_map ones 0); [discriminate| |repeat constructor; intros []].
    apply (en_block ones 0 2 "m" " # rows" [TDash 0; TItem 2 "1"; TItem 2 "1"; TDash 0; TItem 2 "1 # last"] _ []); [exists 1, "# rows"; split; [reflexivity|]; right; split; [lia|exists " rows"; reflexivity]| | |constructor].
    - constructor; [right; reflexivity|]. constructor; [left; cbv; lia|]. constructor; [left; cbv; lia|]. constructor; [right; reflexivity|]. constructor; [left; cbv; lia|constructor].
    - apply (co_seq ones 0); [discriminate|]. apply (it_map ones 0 [TItem 2 "1"; TItem 2 "1"] _ [TDash 0; TItem 2 "1 # last"]); [repeat constructor| |].
      + apply (co_seq ones 2); [discriminate|]. apply it_inline; [exact (O "")|]. apply it_inline; [exact (O "")|constructor].
      + apply (it_map ones 0 [TItem 2 "1 # last"] _ []); [repeat constructor| |constructor]. apply (co_seq ones 2); [discriminate|]. apply it_inline; [exact (O " # last")|constructor]. }
  split; [exact Ls|]. split; [apply La|]. apply (C99_copy_partial ones "a.yaml" (One Side) (join nl rows_lines) (Yaml "a.yaml" rows_lines [Side]) rows_lines rows_value).
  - vm_compute. reflexivity.
  - exact Ls.
  - apply La.
  - apply no_quotes_free. vm_compute. reflexivity.
  - exists "  - 1". split; [do 4 right; now left|now left].
  - apply undocumentedb_spec. vm_compute. reflexivity.
Qed.

(** Full claim false, first: in a literal text the tool takes what looks like a key for one, and the copy means another text. *)
Theorem C99_copy_refuted : exists text lines y v out lines' w, yaml_init "a.yaml" (One Side) text = Val y /\ Lines text lines /\ (forall inline, Lasting inline (terminated text) any lines v) /\
  Forall triple_free lines /\ (exists l, In l lines /\ In (char 32) (chars l)) /\ undocumented v /\
  temporary_string y = Val out /\ Lines out lines' /\ (forall inline, Document inline (terminated out) any lines' w) /\ ~ strips w v.
Proof.
  set (lines := ["a: |"; "  b: 1 # c"; "e:"]). set (lines' := ["a: |"; "  ___docstring_hidden_key_b: |"; "   c."; "  b: 1 # c"; "e:"]).
  set (v := VMap MDict ty_dict [(KStr "a", VStr ("b: 1 # c" ++ lf)); (KStr "e", VInst ty_none)]).
  set (w := VMap MDict ty_dict [(KStr "a", VStr ("___docstring_hidden_key_b: |" ++ lf ++ " c." ++ lf ++ "b: 1 # c" ++ lf)); (KStr "e", VInst ty_none)]).
  assert (K : key_name "a") by key_ok. assert (K2 : key_name "e") by key_ok.
  assert (C : forall (inline : string -> pyval -> Prop) i j t, Collection inline [TText i 0 "a" t; TKey j 0 "e" ""] (VMap MDict ty_dict [(KStr "a", VStr t); (KStr "e", VInst ty_none)])).
  { intros inline i j t. apply (co_map inline 0); [discriminate| |repeat constructor; cbn; intuition discriminate]. apply en_text. apply en_null; [exists 0, ""; auto|constructor]. }
  assert (D : dedented 2 ["e:"]) by (right; exists 0, "e"%char, ":", []; split; [reflexivity|]; split; [lia|cbv; lia]).
  assert (Z : forall (E : Prop) i, Tokens E any i ["e:"] [TKey i 0 "e" ""]) by (intros E0 i; apply (tk_key E0 any i 0 false "e" "" [] []); [exact K2|left; reflexivity|no_header|constructor]).
  exists (join nl lines), lines, (Yaml "a.yaml" lines [Side]), v, (join nl lines'), lines', w.
  split; [vm_compute; reflexivity|]. split; [replace lines with (splitlines (join nl lines)) at 2 by (vm_compute; reflexivity); apply lines_of|].
  split; [intros inline|].
  { assert (T : forall E, Tokens E any 0 lines [TText 0 0 "a" ("b: 1 # c" ++ lf); TKey 2 0 "e" ""]).
    { intros E. apply (tk_text E any 0 0 false "a" " |" false Single 2 ["  b: 1 # c"] _ ["e:"] [TKey 2 0 "e" ""]); auto; [exact header_plain| |repeat constructor].
      exists "b: 1 # c", [], [], 1. split; [repeat constructor|]. split; [eexists _, _; split; [reflexivity|cbv; lia]|]. split; [constructor|]. split; [discriminate|]. split; [left; split; [right; discriminate|reflexivity]|reflexivity]. }
    split; [apply printable_lines; vm_compute; reflexivity|]. eexists. split; [apply cs_bare, T|]. split; [apply cs_bare, T|apply C]. }
  split; [apply no_quotes_free; vm_compute; reflexivity|]. split; [exists "a: |"; split; [now left|]; cbv; auto|].
  split; [apply undocumentedb_spec; vm_compute; reflexivity|]. split; [vm_compute; reflexivity|].
  split; [replace lines' with (splitlines (join nl lines')) at 2 by (vm_compute; reflexivity); apply lines_of|]. split; [intros inline|].
  { split; [apply printable_lines; vm_compute; reflexivity|]. eexists [TText 0 0 "a" _; TKey 4 0 "e" ""]. split; [apply cs_bare|apply C].
    apply (tk_text _ any 0 0 false "a" " |" false Single 2 ["  ___docstring_hidden_key_b: |"; "   c."; "  b: 1 # c"] _ ["e:"] [TKey 4 0 "e" ""]); auto; [exact header_plain| |repeat constructor].
    exists "___docstring_hidden_key_b: |", [" c."; "b: 1 # c"], [], 1. split; [repeat constructor|]. split; [eexists _, _; split; [reflexivity|cbv; lia]|]. split; [constructor|]. split; [discriminate|].
    split; [left; split; [right; discriminate|reflexivity]|reflexivity]. }
  intros H. inversion H; subst. match goal with X : strips_entries _ _ |- _ => inversion X; subst end.
  - match goal with X : strips (VStr _) _ |- _ => inversion X end.
  - match goal with X : doc_key _ |- _ => destruct X as (? & X); discriminate X end.
Qed.
Print Assumptions C99_copy_refuted.

(** Second: the copy has no end of the last line, so that a text at the end of the file loses its line feed. *)
Theorem C99_last_line_refuted : exists text lines y v out lines' w, yaml_init "a.yaml" (One Side) text = Val y /\ Lines text lines /\
  (forall inline, Document inline (terminated text) quiet lines v) /\ Forall triple_free lines /\ (exists l, In l lines /\ In (char 32) (chars l)) /\ undocumented v /\
  temporary_string y = Val out /\ Lines out lines' /\ (forall inline, Document inline (terminated out) quiet lines' w) /\ ~ strips w v.
Proof.
  set (lines := ["a: |"; "  x"]). set (v := VMap MDict ty_dict [(KStr "a", VStr ("x" ++ lf))]). set (w := VMap MDict ty_dict [(KStr "a", VStr "x")]).
  assert (K : key_name "a") by key_ok.
  assert (C : forall (inline : string -> pyval -> Prop) i t, Collection inline [TText i 0 "a" t] (VMap MDict ty_dict [(KStr "a", VStr t)])).
  { intros inline i t. apply (co_map inline 0); [discriminate| |repeat constructor; intros []]. apply en_text. constructor. }
  assert (Q : quiet "  x").
  { exists 2, "x". split; [reflexivity|]. right. left. exists "x"%char, "". split; [reflexivity|]. split; [intros F; cbv in F; intuition discriminate|]. split; [cbv; lia|]. right. cbv. intuition discriminate. }
  assert (Pr : Forall (fun l => Forall printable (chars l)) lines) by (apply printable_lines; vm_compute; reflexivity).
  assert (L : forall (E : Prop) n, breaks E [] [] n -> forall t, t = "x" ++ ending Single n -> forall inline, Document inline E quiet lines (VMap MDict ty_dict [(KStr "a", VStr t)])).
  { intros E n B t -> inline. split; [exact Pr|]. eexists [TText 0 0 "a" _]. split; [apply cs_bare|apply C].
    apply (tk_text E quiet 0 0 false "a" " |" false Single 2 ["  x"] _ [] []); auto; [exact header_plain| |left; reflexivity|constructor].
    exists "x", [], [], n. split; [repeat constructor|]. split; [eexists _, _; split; [reflexivity|cbv; lia]|]. split; [constructor|]. split; [discriminate|]. split; [exact B|reflexivity]. }
  assert (Ls : splitlines (join nl lines) = lines) by (vm_compute; reflexivity). assert (Ls' : splitlines (join nl lines ++ nl) = lines) by (vm_compute; reflexivity).
  exists (join nl lines ++ nl), lines, (Yaml "a.yaml" lines [Side]), v, (join nl lines), lines, w.
  split; [vm_compute; reflexivity|]. split; [rewrite <- Ls' at 2; apply lines_of|].
  split; [apply (L _ 1); [left; split; [left; exists (join nl lines), (ascii_of_nat 10); split; [reflexivity|now left]|reflexivity]|reflexivity]|].
  split; [apply no_quotes_free; vm_compute; reflexivity|]. split; [exists "a: |"; split; [now left|]; cbv; auto|].
  split; [apply undocumentedb_spec; vm_compute; reflexivity|]. split; [vm_compute; reflexivity|]. split; [rewrite <- Ls at 2; apply lines_of|].
  split; [apply (L _ 0); [right; split; [|auto]; apply copy_unterminated; [repeat constructor|right; discriminate]|reflexivity]|].
  intros H. inversion H; subst. match goal with X : strips_entries _ _ |- _ => inversion X; subst end.
  - match goal with X : strips (VStr _) _ |- _ => inversion X end.
  - match goal with X : doc_key _ |- _ => destruct X as (? & X); discriminate X end.
Qed.
Print Assumptions C99_last_line_refuted.

(** Third: a sequence in a sequence.  The comment takes the place of the inner dash, and the outer sequence gets lost: [[{a: 1}]] becomes
    two mappings in one sequence, the first with a documentation entry for the key "- a". *)
Theorem C99_nested_refuted : exists text lines y v out lines' w, yaml_init "a.yaml" (One Side) text = Val y /\ Lines text lines /\
  Lasting ones (terminated text) any lines v /\ Forall triple_free lines /\ (exists l, In l lines /\ In (char 32) (chars l)) /\ undocumented v /\
  temporary_string y = Val out /\ Lines out lines' /\ Document ones (terminated out) any lines' w /\ ~ strips w v.
Proof.
  set (lines := ["- - a: 1 # c"]). set (lines' := ["  - ___docstring_hidden_key_- a: |"; "     c."; "  - a: 1 # c"]).
  set (m := VMap MDict ty_dict [(KStr "a", VInst ty_int)]). set (v := VSeq KList ty_list [VSeq KList ty_list [m]]).
  set (w := VSeq KList ty_list [VMap MDict ty_dict [(KStr "___docstring_hidden_key_- a", VStr ("c." ++ lf))]; m]).
  assert (K : key_name "a") by key_ok. assert (K2 : key_name "___docstring_hidden_key_- a") by key_ok.
  assert (Nh : ~ header " 1 # c") by no_header. assert (Sp : spaced " 1 # c") by (right; eexists; reflexivity).
  assert (O : ones " 1 # c" (VInst ty_int)) by (split; [exists 1, " # c"; reflexivity|reflexivity]).
  assert (C : forall i, Collection ones [TKey i 4 "a" " 1 # c"] m).
  { intros i. apply (co_map ones 4); [discriminate|apply en_inline; [exact O|constructor]|repeat constructor; intros []]. }
  assert (T : forall (E0 : Prop) i, Tokens E0 any i ["  - a: 1 # c"] [TDash 2; TKey i 4 "a" " 1 # c"]).
  { intros E0 i. apply (tk_key E0 any i 2 true "a" " 1 # c" [] []); [exact K|exact Sp|exact Nh|constructor]. }
  exists (join nl lines), lines, (Yaml "a.yaml" lines [Side]), v, (join nl lines'), lines', w.
  split; [vm_compute; reflexivity|]. split; [replace lines with (splitlines (join nl lines)) at 2 by (vm_compute; reflexivity); apply lines_of|]. split.
  { assert (T2 : forall E0, Tokens E0 any 0 lines [TDash 0; TDash 2; TKey 0 4 "a" " 1 # c"]) by (intros E0; apply (tk_nested E0 any 0 0 "a: 1 # c"); [exact I|apply T]).
    split; [apply printable_lines; vm_compute; reflexivity|]. eexists. split; [apply cs_bare, T2|]. split; [apply cs_bare, T2|].
    apply (co_seq ones 0); [discriminate|]. apply (it_map ones 0 [TDash 2; TKey 0 4 "a" " 1 # c"] _ []); [repeat constructor| |constructor].
    apply (co_seq ones 2); [discriminate|]. apply (it_map ones 2 [TKey 0 4 "a" " 1 # c"] _ []); [repeat constructor|apply C|constructor]. }
  split; [apply no_quotes_free; vm_compute; reflexivity|]. split; [exists "- - a: 1 # c"; split; [now left|]; right; now left|].
  split; [apply undocumentedb_spec; vm_compute; reflexivity|]. split; [vm_compute; reflexivity|].
  split; [replace lines' with (splitlines (join nl lines')) at 2 by (vm_compute; reflexivity); apply lines_of|]. split.
  { split; [apply printable_lines; vm_compute; reflexivity|]. exists [TDash 2; TText 0 4 "___docstring_hidden_key_- a" ("c." ++ lf); TDash 2; TKey 2 4 "a" " 1 # c"]. split.
    - apply cs_bare. apply (tk_text _ any 0 2 true "___docstring_hidden_key_- a" " |" false Single 5 ["     c."] _ ["  - a: 1 # c"]); [exact K2|exact header_plain| |repeat constructor|cbv; lia| |apply T].
      + exists "c.", [], [], 1. split; [repeat constructor|]. split; [eexists _, _; split; [reflexivity|cbv; lia]|]. split; [constructor|]. split; [discriminate|]. split; [left; split; [right; discriminate|reflexivity]|reflexivity].
      + right. exists 2, "-"%char, " a: 1 # c". eexists. split; [reflexivity|]. split; [lia|cbv; lia].
    - apply (co_seq ones 2); [discriminate|]. apply (it_map ones 2 [TText 0 4 "___docstring_hidden_key_- a" ("c." ++ lf)]); [repeat constructor| |].
      + apply (co_map ones 4); [discriminate|apply en_text; constructor|repeat constructor; intros []].
      + apply (it_map ones 2 [TKey 2 4 "a" " 1 # c"] _ []); [repeat constructor|apply C|constructor]. }
  intros H. inversion H; subst. match goal with X : strips_all _ _ |- _ => inversion X; subst end. match goal with X : strips_all _ [] |- _ => inversion X end.
Qed.
Print Assumptions C99_nested_refuted.

(** Fourth: in a file without any space the comments are not found. *)
Theorem C99_no_space_refuted : exists text lines y v, yaml_init "a.yaml" (One Above) text = Val y /\ Lines text lines /\ (forall inline, Lasting inline (terminated text) quiet lines v) /\
  Forall triple_free lines /\ undocumented v /\ (exists t, written lines [Above] 1 "a" (Some t)) /\ temporary_string y = Val text.
Proof.
  set (lines := ["#c"; "a:"]). exists (join nl lines), lines, (Yaml "a.yaml" lines [Above]), (VMap MDict ty_dict [(KStr "a", VInst ty_none)]).
  split; [vm_compute; reflexivity|]. split; [replace lines with (splitlines (join nl lines)) at 2 by (vm_compute; reflexivity); apply lines_of|].
  split; [intros inline|].
  { split; [apply printable_lines; vm_compute; reflexivity|]. exists [TKey 1 0 "a" ""]. apply and_assoc. split.
    - assert (T : forall E0, Tokens E0 quiet 0 lines [TKey 1 0 "a" ""]); [intros E0|split; apply cs_bare, T]. apply tk_idle; [exists 0, "#c"; split; [reflexivity|right; eexists; reflexivity]|]. key_line 0 false "a" "". constructor.
    - apply (co_map inline 0); [discriminate| |repeat constructor; intros []]. apply en_null; [exists 0, ""; auto|constructor]. }
  split; [apply no_quotes_free; vm_compute; reflexivity|]. split; [apply undocumentedb_spec; vm_compute; reflexivity|]. split; [|vm_compute; reflexivity].
  exists ("C." ++ lf). exists "a:". split; [reflexivity|]. right. split; [intros (n & r & E); destruct n as [|n]; discriminate|]. exists ["C."]. split; [|right; split; [discriminate|reflexivity]]. constructor; [|constructor].
  apply comment_found; [reflexivity|]. vm_compute. reflexivity.
Qed.
Print Assumptions C99_no_space_refuted.
