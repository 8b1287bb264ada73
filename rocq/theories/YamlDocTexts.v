(** The texts of comments: printable characters and line feeds, no blank at the beginning and a dot at the end. *)
From Coq Require Import Ascii String List Bool Arith ZArith Lia Sorted.
From Verif Require Import PyStr PyStrFacts Exc Yaml SpecNames SpecText SpecImports NamesFacts DocstringFacts SpecYaml
  YamlFacts YamlLines YamlComments YamlWords YamlMore YamlEntries SpecLive LiveText SpecYamlDoc.
Import ListNotations.
Local Open Scope string_scope.
Local Open Scope nat_scope.

Definition printb (c : ascii) : bool := (Nat.leb 32 (code c) && Nat.leb (code c) 126) || Nat.leb 160 (code c).
Definition docb (c : ascii) : bool := printb c || Nat.eqb (code c) 10.
Lemma printb_spec c : printb c = true <-> printable c.
Proof. unfold printb, printable. rewrite orb_true_iff, andb_true_iff, !Nat.leb_le. tauto. Qed.
Lemma printb_forall s : str_forall printb s = true <-> Forall printable (chars s).
Proof.
  split.
  - induction s as [|c s IH]; cbn [str_forall chars]; intros H; constructor; apply andb_true_iff in H as [H1 H2]; [now apply printb_spec|auto].
  - induction s as [|c s IH]; cbn [str_forall chars]; intros H; [auto|]. inversion H; subst. apply andb_true_iff. split; [now apply printb_spec|auto].
Qed.
Lemma printb_docb s : str_forall printb s = true -> str_forall docb s = true.
Proof. apply str_forall_impl. intros c H. unfold docb. now rewrite H. Qed.
Lemma printb_one_line s : str_forall printb s = true -> SpecLive.one_line s = true.
Proof. apply str_forall_impl. intros c. revert c. assert (G : forall c, implb (printb c) (negb (is_linebreak c)) = true) by (intros c; by_chars c). intros c H. specialize (G c). rewrite H in G. exact G. Qed.

Section Kept.
  Variable p : ascii -> bool.
  Notation all s := (str_forall p s = true).
  Lemma all_app a b : all (a ++ b) <-> all a /\ all b.
  Proof. rewrite str_forall_app, andb_true_iff. tauto. Qed.
  Lemma all_drop n : forall s, all s -> all (drop n s).
  Proof. induction n as [|n IH]; intros [|c s] H; auto. cbn [drop]. apply IH. cbn [str_forall] in H. now apply andb_true_iff in H. Qed.
  Lemma all_strip s : all s -> all (strip s).
  Proof. destruct (strip_by_spec is_space s) as (a & b & E & _). fold (strip s) in E. intros H. rewrite E in H. now apply all_app in H as [_ (H & _)%all_app]. Qed.
  Lemma all_rstrip s : all s -> all (rstrip s).
  Proof. destruct (rstrip_by_app is_space s) as (b & E & _). fold (rstrip s) in E. intros H. rewrite E in H. now apply all_app in H. Qed.
End Kept.

Lemma upper_docb c : docb c = true -> str_forall docb (upper_char c) = true.
Proof. assert (G : implb (docb c) (str_forall docb (upper_char c)) = true) by by_chars c. intros H. now rewrite H in G. Qed.
Lemma cap_docb s : str_forall docb s = true -> str_forall docb (capitalize_first s) = true.
Proof. destruct s as [|c s]; [auto|]. cbn [str_forall capitalize_first]. intros (H1 & H2)%andb_true_iff. apply all_app. split; [now apply upper_docb|auto]. Qed.
Lemma step_docb first result l : str_forall docb result = true -> str_forall docb l = true -> str_forall docb (join_step first result l) = true.
Proof.
  intros R L. assert (T := all_strip docb l L). assert (C := cap_docb _ T). unfold join_step.
  destruct (is_empty l); [apply all_app; split; auto|]. destruct first; [now apply all_app|].
  destruct (starts_upper l), (ends_dot result); try destruct (ends_nl result); rewrite !all_app; repeat split; auto.
Qed.
Lemma joined_docb ls : forall first result, str_forall docb result = true -> Forall (fun l => str_forall docb l = true) ls -> str_forall docb (joined first result ls) = true.
Proof. induction ls as [|l ls IH]; intros first result R F; [exact R|]. inversion F; subst. cbn [joined]. apply IH; auto. now apply step_docb. Qed.
Lemma drop_empty_incl l : forall x, In x (drop_empty l) -> In x l.
Proof. induction l as [|y l IH]; intros x H; [auto|]. destruct y; [right; now apply IH|exact H]. Qed.
Lemma join_comments_docb ls : Forall (fun l => str_forall docb l = true) ls -> str_forall docb (join_comments ls) = true.
Proof.
  intros F. unfold join_comments. set (m := rev (drop_empty (rev (drop_empty ls)))).
  assert (G : Forall (fun l => str_forall docb l = true) m).
  { apply Forall_forall. intros x Hx. rewrite Forall_forall in F. apply F. unfold m in Hx. apply in_rev, drop_empty_incl, in_rev, drop_empty_incl in Hx. exact Hx. }
  destruct m as [|x m]; [reflexivity|]. pose proof (joined_docb (x :: m) true "" eq_refl G) as J. cbv zeta.
  destruct (is_empty _); [exact J|]. destruct (ends_dot _); [exact J|]. apply all_app. split; auto.
Qed.

(** A text as it stands in the copy. *)
Definition good_doc (s : string) : Prop :=
  (exists c r, s = String c r /\ is_space c = false) /\ (exists u, s = u ++ ".") /\ str_forall docb s = true.

Lemma triple_free_part a s b : triple_free (a ++ s ++ b) -> triple_free s.
Proof. intros H q x z Q E. apply (H q (a ++ x) (z ++ b) Q). rewrite E. now rewrite !app_assoc_s. Qed.
Lemma drop_split n : forall s, exists a, s = a ++ drop n s.
Proof. induction n as [|n IH]; intros s; [exists ""; reflexivity|]. destruct s as [|c s]; [exists ""; reflexivity|]. destruct (IH s) as (a & E). exists (String c a). cbn [append drop]. now rewrite E at 1. Qed.
Lemma text_at_ok lines col l : In l lines -> Forall triple_free lines -> Forall (fun l => str_forall printb l = true) lines ->
  trimmed (text_at col l) /\ triple_free (text_at col l) /\ str_forall docb (text_at col l) = true.
Proof.
  intros Hl T P. rewrite Forall_forall in T, P. specialize (T l Hl). specialize (P l Hl). split; [apply strip_trimmed|]. split.
  - unfold text_at. destruct (drop_split (col + 1) l) as (a & E). destruct (strip_by_spec is_space (drop (col + 1) l)) as (x & z & E2 & _). fold (strip (drop (col + 1) l)) in E2.
    rewrite E, E2 in T. apply (triple_free_part (a ++ x) _ z). now rewrite app_assoc_s.
  - apply all_strip, all_drop, printb_docb, P.
Qed.

Lemma block_lines_ok lines col step : forall fuel i ls, block_lines fuel lines col i step = Some ls -> Forall (fun t => exists l, In l lines /\ t = text_at col l) ls.
Proof.
  induction fuel as [|fuel IH]; intros i ls; cbn [block_lines]; [discriminate|].
  destruct (py_nth lines i) as [l|] eqn:E; [|intros H; injection H as <-; constructor].
  assert (Hl : In l lines).
  { unfold py_nth in E. destruct (py_index (List.length lines) i); [|discriminate]. eapply nth_error_In; eauto. }
  destruct (str_nth l col) as [c|]; [|intros H; injection H as <-; constructor].
  destruct (Ascii.eqb c hash_c); [|intros H; injection H as <-; constructor].
  destruct (block_lines fuel lines col (i + step)%Z step) as [r|] eqn:Er; [|discriminate]. intros H. injection H as <-.
  constructor; [exists l; auto|]. eapply IH; eauto.
Qed.

Lemma good_doc_cap s : good_doc s -> good_doc (capitalize_first s).
Proof.
  intros [(c & r & -> & Sc) [(u & E) D]]. destruct (upper_char_non_space c Sc) as [N1 N2]. cbn [capitalize_first]. split; [|split].
  - destruct (upper_char c) as [|x t]; [congruence|]. cbn [append]. exists x, (t ++ r). split; auto. unfold non_space in N2. cbn [str_forall] in N2. apply andb_true_iff in N2 as [N2 _]. now apply negb_true_iff in N2.
  - destruct u as [|d u]; injection E as -> ->; [exists ""; reflexivity|exists (upper_char d ++ u)]. now rewrite app_assoc_s.
  - now apply (cap_docb (String c r)).
Qed.

(** Every comment that is found is such a text. *)
Lemma comment_good lines idx line p s : Forall triple_free lines -> Forall (fun l => str_forall printb l = true) lines -> In line lines ->
  comment_at lines idx line p = Val s -> s = "" \/ good_doc s.
Proof.
  intros T P Hl H.
  assert (B : forall above t, block_comment lines idx above = Val t -> t = "" \/ good_doc t).
  { clear H. intros above t H. unfold block_comment in H. destruct (nth_error lines idx); [|injection H as <-; auto].
    destruct (truthy_index _); [|injection H as <-; auto]. destruct (strip (remove_char dash_c (strip s0))) as [|c r]; [discriminate|]. cbv zeta in H.
    destruct (block_lines _ _ _ _ _) as [ls|] eqn:E; [|discriminate]. apply block_lines_ok in E.
    assert (F : forall ls', (forall x, In x ls' -> In x ls) -> Forall trimmed ls' /\ Forall triple_free ls' /\ Forall (fun l => str_forall docb l = true) ls').
    { intros ls' I. rewrite Forall_forall in E. split; [|split]; apply Forall_forall; intros x Hx; destruct (E x (I x Hx)) as (l & Hi & ->); now apply (text_at_ok lines). }
    assert (G : forall ls', (forall x, In x ls' -> In x ls) -> docstring_of ls' = "" \/ good_doc (docstring_of ls')).
    { intros ls' I. destruct (F ls' I) as (F1 & F2 & F3). rewrite (docstring_words ls' F1 F2).
      destruct (join_comments_head ls' F1) as [->|(d & x & Ed & Sd)]; [auto|]. right. split; [eauto|]. split; [|now apply join_comments_docb].
      destruct (docstring_dot ls' F1) as [Z|Z]; rewrite (docstring_words ls' F1 F2) in Z; [rewrite Z in Ed; discriminate|exact Z]. }
    destruct ls as [|x ls]; [injection H as <-; auto|]. injection H as <-. destruct above; apply G; auto. intros z Hz. now apply in_rev. }
  destruct p; cbn [comment_at] in H.
  1,2: apply andthen_Val in H as (t & Ht & H); injection H as <-; destruct (B _ _ Ht) as [->|G]; [auto|right; now apply good_doc_cap].
  injection H as <-. unfold side_comment. destruct (truthy_index _) as [i|]; [|auto]. destruct (str_nth line (i - 1)) as [c|]; [|auto]. destruct (Ascii.eqb c space_c); [|auto]. cbv zeta.
  set (t := rstrip (strip (drop (i + 1) line))).
  assert (Dt : str_forall docb t = true).
  { apply all_rstrip, all_strip, all_drop, printb_docb. rewrite Forall_forall in P. auto. }
  assert (Tt : t = "" \/ exists d r, t = String d r /\ is_space d = false).
  { destruct (strip_trimmed (drop (i + 1) line)) as [E|[(d & r & E & Sd) (r' & d' & E' & Sd')]].
    - left. unfold t. rewrite E. reflexivity.
    - right. unfold t, rstrip. rewrite E', rstrip_id by auto. rewrite <- E'. eauto. }
  destruct Tt as [->|(d & r & Et & Sd)]; [auto|]. right. rewrite Et in *. cbn [is_empty negb andb].
  destruct (ends_dot (String d r)) eqn:Ed; cbn [negb].
  - split; [eauto|]. split; [now apply ends_dot_spec|auto].
  - split; [cbn [append]; eauto|]. split; [eauto|]. apply all_app. split; auto.
Qed.
