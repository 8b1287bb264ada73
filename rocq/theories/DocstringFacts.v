(** Facts about the docstring formatter. *)
From Coq Require Import Ascii String List Bool Arith Lia.
From Verif Require Import PyStr PyStrFacts Docstring SpecNames SpecText NamesFacts.
Import ListNotations.
Local Open Scope string_scope.

Definition non_space (s : string) : bool := str_forall (fun c => negb (is_space c)) s.
Definition is_word (w : string) : Prop := w <> "" /\ non_space w = true.

Lemma split_ws_aux_app w s acc :
  non_space w = true -> split_ws_aux (w ++ s) acc = split_ws_aux s (acc ++ w).
Proof.
  unfold non_space. revert acc; induction w as [|c w IH]; intros acc; simpl.
  - now rewrite app_nil_r_s.
  - rewrite andb_true_iff, negb_true_iff. intros [-> H]. rewrite (IH _ H).
    now rewrite app_assoc_s.
Qed.
Lemma split_ws_aux_sep a c b acc :
  is_space c = true -> split_ws_aux (a ++ String c b) acc = (split_ws_aux a acc ++ split_ws b)%list.
Proof.
  intros Hc. revert acc; induction a as [|d a IH]; intros acc; simpl.
  - rewrite Hc. destruct acc; auto.
  - destruct (is_space d); [|apply IH]. destruct acc; [apply IH|]. simpl. f_equal. apply IH.
Qed.
Lemma split_ws_sep a c b : is_space c = true -> split_ws (a ++ String c b) = (split_ws a ++ split_ws b)%list.
Proof. apply split_ws_aux_sep. Qed.
Lemma split_ws_word w : is_word w -> split_ws w = [w].
Proof.
  intros [H1 H2]. unfold split_ws. rewrite <- (app_nil_r_s w) at 1. rewrite split_ws_aux_app by auto.
  simpl. destruct w; [congruence | auto].
Qed.
Lemma split_ws_blank_l ind s : str_forall is_space ind = true -> split_ws (ind ++ s) = split_ws s.
Proof.
  unfold split_ws. induction ind as [|c ind IH]; simpl; auto. rewrite andb_true_iff. intros [-> H]. auto.
Qed.
Lemma split_ws_aux_words s acc :
  non_space acc = true -> Forall is_word (split_ws_aux s acc).
Proof.
  revert acc; induction s as [|c s IH]; intros acc H; simpl.
  - destruct acc eqn:E; constructor; [|constructor]. split; [discriminate | auto].
  - destruct (is_space c) eqn:E.
    + destruct acc eqn:E2; [now apply IH|]. constructor; [split; [discriminate | auto]|]. now apply IH.
    + apply IH. unfold non_space in *. rewrite str_forall_app, H. simpl. now rewrite E.
Qed.
Lemma split_ws_words s : Forall is_word (split_ws s).
Proof. now apply split_ws_aux_words. Qed.

(** ** Correspondence with the independent notion of words *)
Lemma is_space_white c : is_space c = true <-> white c.
Proof.
  assert (H : Bool.eqb (is_space c) (existsb (Nat.eqb (code c)) [9; 10; 11; 12; 13; 28; 29; 30; 31; 32; 133; 160]) = true)
    by by_chars c.
  apply eqb_prop in H. rewrite H. unfold white. rewrite existsb_exists. split.
  - intros (x & Hx & E). apply Nat.eqb_eq in E. now subst.
  - intros Hx. exists (code c). now rewrite Nat.eqb_refl.
Qed.
Lemma blank_spec s : str_forall is_space s = true <-> blank s.
Proof.
  rewrite Forall_chars. unfold blank. rewrite !Forall_forall. split; intros H c Hc; apply is_space_white; auto.
Qed.
Lemma word_spec w : is_word w <-> word w.
Proof.
  unfold is_word, word, non_space. rewrite Forall_chars, !Forall_forall. split; intros [H1 H2]; split; auto;
    intros c Hc; specialize (H2 c Hc).
  - apply negb_true_iff in H2. rewrite <- is_space_white. congruence.
  - apply negb_true_iff. apply not_true_iff_false. now rewrite is_space_white.
Qed.
Lemma Words_functional s ws : Words s ws -> ws = split_ws s.
Proof.
  induction 1 as [s H|b w e Hb Hw He|b w c s ws Hb Hw Hc H IH].
  - apply blank_spec in H. rewrite <- (app_nil_r_s s), split_ws_blank_l by auto. reflexivity.
  - apply blank_spec in Hb, He. apply word_spec in Hw. rewrite split_ws_blank_l by auto.
    destruct e as [|c e].
    + rewrite app_nil_r_s. symmetry. now apply split_ws_word.
    + simpl in He. apply andb_true_iff in He as [Hc He]. rewrite split_ws_sep, split_ws_word by auto.
      rewrite <- (app_nil_r_s e), split_ws_blank_l by auto. reflexivity.
  - apply blank_spec in Hb. apply word_spec in Hw. apply is_space_white in Hc.
    rewrite split_ws_blank_l, split_ws_sep, split_ws_word by auto. simpl. now rewrite IH.
Qed.

Lemma split_word_prefix s :
  exists b w e, s = b ++ w ++ e /\ str_forall is_space b = true /\ non_space w = true /\
    (e = "" \/ exists c e', e = String c e' /\ is_space c = true) /\ (w = "" -> e = "").
Proof.
  induction s as [|c s (b & w & e & -> & Hb & Hw & He & Hwe)].
  - exists "", "", "". repeat split; auto.
  - destruct (is_space c) eqn:E.
    + exists (String c b), w, e. simpl. rewrite E. repeat split; auto.
    + destruct b as [|d b].
      * exists "", (String c w), e. unfold non_space in *. simpl. rewrite E. repeat split; auto. discriminate.
      * exists "", (String c ""), (String d b ++ w ++ e). unfold non_space. simpl. rewrite E.
        repeat split; auto; [|discriminate]. right. simpl in Hb. apply andb_true_iff in Hb as [Hd _].
        exists d, (b ++ w ++ e). auto.
Qed.
Lemma Words_split_ws_len n s : String.length s <= n -> Words s (split_ws s).
Proof.
  revert s; induction n as [|n IH]; intros s Hn.
  - apply Nat.le_0_r, length_nil_s in Hn. subst. apply Words_nil. constructor.
  - destruct (split_word_prefix s) as (b & w & e & -> & Hb & Hw & He & Hwe).
    destruct w as [|wc wr].
    + rewrite (Hwe eq_refl) in *. simpl. rewrite split_ws_blank_l by auto. apply Words_nil.
      simpl. rewrite app_nil_r_s. now apply blank_spec.
    + remember (String wc wr) as w.
      assert (Hwd : is_word w) by (split; [subst; discriminate | auto]).
      rewrite split_ws_blank_l by auto. destruct He as [->|(c & e' & -> & Hc)].
      * rewrite app_nil_r_s, split_ws_word by auto. rewrite <- (app_nil_r_s w) at 1.
        apply Words_last; [now apply blank_spec | now apply word_spec | constructor].
      * rewrite split_ws_sep, split_ws_word by auto. apply Words_cons;
          [now apply blank_spec | now apply word_spec | now apply is_space_white |].
        apply IH. rewrite !length_app_s in Hn. simpl in Hn. subst w. simpl in Hn. lia.
Qed.
Lemma Words_split_ws s : Words s (split_ws s).
Proof. now apply Words_split_ws_len with (String.length s). Qed.

(** ** The formatter keeps the words *)
Lemma wrap_words max cur ws :
  Forall is_word ws -> flat_map split_ws (wrap max cur ws) = (split_ws cur ++ ws)%list.
Proof.
  intros H; revert cur; induction H as [|w ws Hw Hws IH]; intros cur; cbn [wrap].
  - destruct cur as [|c r]; auto.
  - destruct (Nat.leb _ max).
    + rewrite IH. destruct cur as [|c r] eqn:E.
      * rewrite (split_ws_word w) by auto. reflexivity.
      * rewrite <- E. clear E. change (" " ++ w) with (String (chr 32) w). rewrite split_ws_sep by reflexivity.
        rewrite (split_ws_word w) by auto. now rewrite <- app_assoc.
    + destruct cur as [|c r] eqn:E.
      * rewrite IH, (split_ws_word w) by auto. reflexivity.
      * rewrite <- E. cbn [flat_map]. rewrite IH, (split_ws_word w) by auto. reflexivity.
Qed.
Lemma split_line_words max line : flat_map split_ws (split_line max line) = split_ws line.
Proof.
  unfold split_line. rewrite flat_map_app, wrap_words by apply split_ws_words.
  destruct line; reflexivity.
Qed.
Lemma split_ws_join_nl l : split_ws (join nl l) = flat_map split_ws l.
Proof.
  induction l as [|x l IH]; auto. destruct l as [|y l].
  - simpl. now rewrite app_nil_r.
  - rewrite join_cons by discriminate. unfold nl at 1. cbn [String.append]. rewrite split_ws_sep by reflexivity.
    rewrite IH. reflexivity.
Qed.
Lemma split_string_words max s : flat_map split_ws (split_string max s) = split_ws s.
Proof.
  unfold split_string. rewrite <- (join_split (chr 10) s) at 2.
  fold nl. rewrite split_ws_join_nl. generalize (split_char (chr 10) s) as l.
  induction l as [|x l IH]; auto. simpl. now rewrite flat_map_app, IH, split_line_words.
Qed.
Lemma map_indent_words ind l :
  str_forall is_space ind = true -> flat_map split_ws (map (fun x => ind ++ x) l) = flat_map split_ws l.
Proof. intros H; induction l; simpl; auto. now rewrite IHl, split_ws_blank_l. Qed.

Lemma split_ws_nl a b : split_ws (a ++ nl ++ b) = (split_ws a ++ split_ws b)%list.
Proof. unfold nl. cbn [String.append]. now apply split_ws_sep. Qed.
Lemma format_docstring_words max ind s :
  str_forall is_space ind = true ->
  exists body, format_docstring max ind s = ind ++ tq ++ body ++ tq /\ split_ws body = split_ws (with_period s).
Proof.
  intros Hind. unfold format_docstring.
  destruct (_ && _); [exists (with_period s); auto|].
  destruct (_ && _); [exists (with_period s); auto|].
  exists (nl ++ join nl (map (fun x => ind ++ x) (split_string max (with_period s))) ++ nl ++ ind). split.
  - now rewrite !app_assoc_s.
  - match goal with |- split_ws (nl ++ ?x) = _ => change (nl ++ x) with ("" ++ nl ++ x) end.
    rewrite !split_ws_nl.
    replace (split_ws ind) with (@nil string)
      by (rewrite <- (app_nil_r_s ind), split_ws_blank_l by auto; reflexivity).
    rewrite app_nil_r. change (split_ws "") with (@nil string). cbn [List.app].
    rewrite split_ws_join_nl, map_indent_words by auto. apply split_string_words.
Qed.

Lemma rstrip_by_spec p s :
  exists t, s = rstrip_by p s ++ t /\ str_forall p t = true.
Proof.
  induction s as [|c s (t & H1 & H2)]; simpl; [exists ""; auto|].
  destruct (rstrip_by p s) as [|d r] eqn:E.
  - destruct (p c) eqn:Ep.
    + exists (String c t). simpl in *. rewrite Ep. subst t. auto.
    + exists t. simpl in *. subst t. auto.
  - exists t. rewrite H1. auto.
Qed.
Lemma with_period_spec s :
  exists t e, s = t ++ e /\ Forall (fun c => code c = 10) (chars e) /\
    ((endswith "." t = true /\ with_period s = t) \/ (endswith "." t = false /\ with_period s = t ++ ".")).
Proof.
  destruct (rstrip_by_spec is_nl s) as (e & H1 & H2). exists (rstrip_by is_nl s), e. split; auto. split.
  - apply Forall_chars in H2. eapply Forall_impl; [|exact H2]. intros c Hc. now apply Nat.eqb_eq.
  - unfold with_period. destruct (endswith "." (rstrip_by is_nl s)); auto.
Qed.

(** ** Width *)
Definition fits (max : nat) (x : string) : Prop := String.length x <= max \/ non_space x = true.
Lemma wrap_fits max cur ws :
  Forall is_word ws -> fits max cur -> Forall (fits max) (wrap max cur ws).
Proof.
  intros H; revert cur; induction H as [|w ws Hw Hws IH]; intros cur Hc; simpl.
  - destruct cur; auto.
  - destruct (Nat.leb_spec (String.length cur + String.length w + 1) max).
    + apply IH. left. destruct cur as [|c r] eqn:E; [simpl in *; lia|].
      rewrite <- E in *. rewrite !length_app_s. simpl. lia.
    + destruct cur as [|c r] eqn:E; [apply IH; right; apply Hw|].
      constructor; auto. apply IH. right; apply Hw.
Qed.
Lemma split_string_fits max s : Forall (fits max) (split_string max s).
Proof.
  unfold split_string. apply Forall_flat_map. apply Forall_forall. intros x _.
  unfold split_line. apply Forall_app. split.
  - destruct x; constructor; [left; simpl; lia | constructor].
  - apply wrap_fits; [apply split_ws_words | left; simpl; lia].
Qed.
Lemma contains_nl_no s : contains nl s = false -> no_char (chr 10) s.
Proof.
  unfold nl. rewrite contains_char. intros H. unfold no_char. rewrite str_forall_exists, H. reflexivity.
Qed.
Lemma non_nl_split_string max s : Forall (no_char (chr 10)) (split_string max s).
Proof.
  unfold split_string. apply Forall_flat_map.
  eapply Forall_impl; [|apply (split_char_no (chr 10))]. intros x Hx.
  assert (Hw : forall ws cur, Forall is_word ws -> no_char (chr 10) cur -> Forall (no_char (chr 10)) (wrap max cur ws)).
  { assert (NW : forall w, is_word w -> no_char (chr 10) w).
    { intros w [_ Hw]. unfold no_char, non_space in *. eapply str_forall_impl; [|exact Hw].
      intros c Hc. destruct (Ascii.eqb_spec (chr 10) c); auto. subst. discriminate. }
    induction ws as [|w ws IH]; intros cur H Hc; simpl.
    - destruct cur; auto.
    - inversion H; subst. destruct (Nat.leb _ max).
      + apply IH; auto. destruct cur as [|c r] eqn:E; auto. rewrite <- E in *.
        unfold no_char in *. rewrite !str_forall_app, Hc. simpl. now apply NW.
      + destruct cur as [|c r] eqn:E; [apply IH; auto|]. constructor; auto. }
  unfold split_line. apply Forall_app. split.
  - destruct x; repeat constructor.
  - apply Hw; [apply split_ws_words | reflexivity].
Qed.
