(** Facts about [is_compatible] and identifiers. *)
From Coq Require Import Ascii String List Bool Arith Lia.
From Verif Require Import PyStr PyStrFacts Utils SpecNames.
Import ListNotations.
Local Open Scope string_scope.

Definition id_startb (c : ascii) : bool :=
  let n := code c in
  between 65 90 n || between 97 122 n || Nat.eqb n 95 || Nat.eqb n 170 || Nat.eqb n 181 || Nat.eqb n 186
  || between 192 214 n || between 216 246 n || between 248 255 n.
Lemma between_spec a b n : between a b n = true <-> a <= n <= b.
Proof. unfold between. rewrite andb_true_iff, !Nat.leb_le. tauto. Qed.
Lemma id_startb_spec c : id_startb c = true <-> id_start c.
Proof.
  unfold id_startb, id_start, in_range. rewrite !orb_true_iff, !between_spec, !Nat.eqb_eq. tauto.
Qed.
Definition id_continueb (c : ascii) : bool := id_startb c || between 48 57 (code c) || Nat.eqb (code c) 183.
Lemma id_continueb_spec c : id_continueb c = true <-> id_continue c.
Proof.
  unfold id_continueb, id_continue, in_range. rewrite !orb_true_iff, id_startb_spec, between_spec, Nat.eqb_eq. tauto.
Qed.
Definition oddb (c : ascii) : bool := existsb (Nat.eqb (code c)) [178; 179; 185; 188; 189; 190; 183].
Lemma oddb_spec c : oddb c = true <-> odd_char c.
Proof.
  unfold oddb, odd_char. rewrite existsb_exists. split.
  - intros (x & H & E). apply Nat.eqb_eq in E. now subst.
  - intros H. exists (code c). rewrite Nat.eqb_refl. auto.
Qed.

Lemma chars_str_In c s : In c (chars s) <-> str_In c s.
Proof. induction s; simpl; [tauto|]. rewrite IHs. split; intros [H|H]; auto. Qed.
Lemma Forall_chars p s : str_forall p s = true <-> Forall (fun c => p c = true) (chars s).
Proof.
  rewrite Forall_forall, str_forall_In. split; intros H c; specialize (H c); rewrite chars_str_In in *; auto.
Qed.

(** The characters allowed by [is_compatible]. *)
Definition word_char (c : ascii) : bool := Ascii.eqb underscore c || is_alnum_char c.

Lemma is_compatible_iff s :
  is_compatible s = true <->
  (exists c r, s = String c r /\ is_numeric c = false) /\
  str_forall word_char s = true /\ str_forall (Ascii.eqb underscore) s = false.
Proof.
  unfold is_compatible. rewrite andb_true_iff. split.
  - intros [H1 H2]. destruct s as [|c r]; [discriminate|]. apply negb_true_iff in H2.
    split; [eauto|]. unfold isalnum in H1. remember (String c r) as s.
    destruct (remove_char underscore s) eqn:E; [discriminate|]. rewrite <- E in H1.
    rewrite str_forall_remove_char in H1. split; auto.
    apply not_true_iff_false. intros H. apply remove_char_nil in H. congruence.
  - intros ((c & r & -> & Hn) & H1 & H2). split; [|now rewrite Hn].
    unfold isalnum. destruct (remove_char underscore (String c r)) eqn:E.
    + apply remove_char_nil in E. congruence.
    + rewrite <- E, str_forall_remove_char. auto.
Qed.

Lemma start_not_numeric c : negb (id_startb c) || negb (is_numeric c) = true.
Proof. by_chars c. Qed.
Lemma continue_word c : oddb c || negb (id_continueb c) || word_char c = true.
Proof. by_chars c. Qed.
Lemma word_continue c : oddb c || negb (word_char c) || id_continueb c = true.
Proof. by_chars c. Qed.
Lemma word_start c : oddb c || negb (word_char c) || is_numeric c || id_startb c = true.
Proof. by_chars c. Qed.

Lemma is_compatible_identifier s :
  (forall c, In c (chars s) -> ~ odd_char c) ->
  (is_compatible s = true <-> identifier s /\ has_letter_or_digit s).
Proof.
  intros Hodd. rewrite is_compatible_iff. split.
  - intros ((c & r & -> & Hn) & H1 & H2). split.
    + simpl in H1. apply andb_true_iff in H1 as [H1 H3]. constructor.
      * apply id_startb_spec. pose proof (word_start c) as W.
        assert (oddb c = false) as E by (apply not_true_iff_false; rewrite oddb_spec; apply Hodd; now left).
        rewrite E, H1, Hn in W. exact W.
      * apply Forall_forall. intros d Hd. apply id_continueb_spec. pose proof (word_continue d) as W.
        assert (oddb d = false) as E by (apply not_true_iff_false; rewrite oddb_spec; apply Hodd; now right).
        rewrite str_forall_In in H3. rewrite E, H3 in W by (now apply chars_str_In). exact W.
    + assert (exists d, str_In d (String c r) /\ Ascii.eqb underscore d = false) as (d & Hd & Hu).
      { clear - H2. induction (String c r) as [|x s IH]; simpl in *; [discriminate|].
        apply andb_false_iff in H2 as [H2|H2]; [exists x; auto|]. destruct (IH H2) as (d & ? & ?). eauto. }
      exists d. rewrite chars_str_In. split; auto. split.
      * apply id_continueb_spec. pose proof (word_continue d) as W.
        assert (oddb d = false) as E
          by (apply not_true_iff_false; rewrite oddb_spec; apply Hodd; now apply chars_str_In).
        rewrite str_forall_In in H1. rewrite E, H1 in W by auto. exact W.
      * intros E. apply Ascii.eqb_neq in Hu. apply Hu. unfold code in E.
        rewrite <- (ascii_nat_embedding d), E. reflexivity.
  - intros [Hid (d & Hd & Hc & Hu)]. destruct Hid as [c r Hs Hr]. split; [|split].
    + exists c, r. split; auto. pose proof (start_not_numeric c) as W.
      apply id_startb_spec in Hs. rewrite Hs in W. now apply negb_true_iff in W.
    + apply str_forall_In. intros x Hx. apply chars_str_In in Hx.
      assert (Hxc : id_continue x).
      { destruct Hx as [<-|Hx]; [now left|]. rewrite Forall_forall in Hr. auto. }
      apply id_continueb_spec in Hxc. pose proof (continue_word x) as W.
      assert (oddb x = false) as E by (apply not_true_iff_false; rewrite oddb_spec; auto).
      rewrite E, Hxc in W. exact W.
    + apply not_true_iff_false. rewrite str_forall_In. intros H. apply chars_str_In in Hd.
      apply H in Hd. apply Ascii.eqb_eq in Hd. subst d. apply Hu. reflexivity.
Qed.

(** Closure under concatenation: how names of nested nodes are formed. *)
Lemma is_compatible_app a b :
  is_compatible a = true -> str_forall word_char b = true -> is_compatible (a ++ b) = true.
Proof.
  rewrite !is_compatible_iff. intros ((c & r & -> & Hn) & H1 & H2) Hb. split; [|split].
  - exists c, (r ++ b). auto.
  - now rewrite str_forall_app, H1.
  - now rewrite str_forall_app, H2.
Qed.
