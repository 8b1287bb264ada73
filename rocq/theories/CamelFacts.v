(** The model of [_to_camel_case] computes camel case. *)
From Coq Require Import Ascii String List Bool Arith Lia.
From Verif Require Import PyStr PyStrFacts Utils NamesFacts SpecNames SpecEmit EmitFacts Values Tree Build BuildFacts SpecCamel Frame.
Import ListNotations.
Local Open Scope string_scope.
Local Open Scope nat_scope.

Lemma alnum_iff c : is_alpha c || is_numeric c = true <-> alnum_char c.
Proof.
  pose proof (solid_spec (String c "")) as H. unfold solid in H. cbn [chars str_forall] in H. rewrite andb_true_r in H.
  unfold is_alnum_char in H. rewrite <- H. split; [intros G; now inversion G | intros G; constructor; [exact G | constructor]].
Qed.
Lemma not_alnum_iff c : is_alpha c || is_numeric c = false <-> ~ alnum_char c.
Proof. rewrite <- alnum_iff. destruct (_ || _); intuition congruence. Qed.
Lemma between_spec a b c : between a b (PyStr.ord c) = true <-> in_range a b c.
Proof. unfold between, in_range, PyStr.ord, code. rewrite andb_true_iff, !Nat.leb_le. tauto. Qed.
Lemma digit_iff c : is_decimal c = true <-> digit c.
Proof. apply between_spec. Qed.

Lemma code_inj c d : code c = code d -> c = d.
Proof. unfold code. intros H. rewrite <- (ascii_nat_embedding c), <- (ascii_nat_embedding d). now rewrite H. Qed.
Lemma capital_iff c u : capital c u <-> u = upper_char c.
Proof.
  assert (E : upper_char c = if Nat.eqb (code c) 223 then "SS" else if between 97 122 (PyStr.ord c) || between 224 246 (PyStr.ord c) || between 248 254 (PyStr.ord c)
    then String (chr (code c - 32)) "" else String c "") by reflexivity.
  assert (B : between 97 122 (PyStr.ord c) || between 224 246 (PyStr.ord c) || between 248 254 (PyStr.ord c) = true <-> in_range 97 122 c \/ in_range 224 246 c \/ in_range 248 254 c).
  { rewrite !orb_true_iff, !between_spec. tauto. }
  assert (L : code c < 256) by apply nat_ascii_bounded.
  assert (D : in_range 97 122 c \/ in_range 224 246 c \/ in_range 248 254 c -> code (chr (code c - 32)) = code c - 32 /\ 32 <= code c /\ code c <> 223).
  { intros R. unfold code at 1, chr. rewrite nat_ascii_embedding by lia. unfold in_range in R. lia. }
  rewrite E. split.
  - intros H. inversion H as [c' d R Q | c' Q | c' N]; subst c'.
    + destruct (D R) as (D1 & D2 & D3). apply Nat.eqb_neq in D3. rewrite D3, (proj2 B R). f_equal. apply code_inj. rewrite D1. lia.
    + now rewrite (proj2 (Nat.eqb_eq _ _) Q).
    + destruct (Nat.eqb_spec (code c) 223) as [Q|Q]; [exfalso; apply N; unfold in_range; lia|].
      destruct (_ || _) eqn:X; [exfalso; apply N; pose proof (proj1 B eq_refl); unfold in_range in *; lia | reflexivity].
  - intros ->. destruct (Nat.eqb_spec (code c) 223) as [Q|Q]; [now constructor|].
    destruct (_ || _) eqn:X.
    + pose proof (proj1 B eq_refl) as Y. destruct (D Y) as (D1 & D2 & D3). apply cap_letter; [exact Y | lia].
    + apply cap_other. intros R. assert (Y : in_range 97 122 c \/ in_range 224 246 c \/ in_range 248 254 c) by (unfold in_range in *; lia).
      apply B in Y. discriminate.
Qed.

Lemma concat_cons x xs : String.concat "" (x :: xs) = x ++ String.concat "" xs.
Proof. destruct xs; cbn; [now rewrite app_nil_r_s | reflexivity]. Qed.

Lemma loop_gap gap r : Forall (fun c => ~ alnum_char c) (chars gap) -> camel_loop true (gap ++ r) = camel_loop true r.
Proof.
  induction gap as [|c gap IH]; intros H; [reflexivity|]. cbn [chars] in H. inversion H; subst. cbn.
  rewrite (proj2 (not_alnum_iff c)) by assumption. auto.
Qed.
Lemma loop_word w r : Forall alnum_char (chars w) -> camel_loop false (w ++ r) = w ++ camel_loop false r.
Proof.
  induction w as [|c w IH]; intros H; [reflexivity|]. cbn [chars] in H. inversion H; subst. cbn.
  rewrite (proj2 (alnum_iff c)) by assumption. cbn. now rewrite IH.
Qed.
Lemma loop_rest r : ~ begins alnum_char r -> camel_loop false r = camel_loop true r.
Proof.
  destruct r as [|c r]; [reflexivity|]. intros H. cbn. destruct (is_alpha c || is_numeric c) eqn:E; [|reflexivity].
  exfalso. apply H. exists c, r. split; [reflexivity | now apply alnum_iff].
Qed.

Lemma loop_words s ws : words_of s ws -> forall xs, Forall2 capital_word ws xs -> camel_loop true s = String.concat "" xs.
Proof.
  induction 1 as [gap G | gap w rest ws G NE W NB H IH]; intros xs F.
  - inversion F. rewrite <- (app_nil_r_s gap), loop_gap by assumption. reflexivity.
  - inversion F as [|? x ? xs' C F']; subst. destruct C as [c r u Cu]. rewrite concat_cons, loop_gap by assumption.
    cbn [chars] in W. inversion W; subst. cbn. rewrite (proj2 (alnum_iff c)) by assumption. apply capital_iff in Cu. subst u.
    rewrite loop_word, loop_rest, (IH xs') by assumption. now rewrite app_assoc_s.
Qed.

Lemma words_exist s : exists ws, words_of s ws.
Proof.
  induction s as [|c r (ws & IH)]; [exists []; constructor; constructor|].
  destruct (is_alpha c || is_numeric c) eqn:E.
  - apply alnum_iff in E. inversion IH as [gap G Eg Ew | gap w rest ws' G NE W NB H Eg Ew]; subst.
    + exists [String c ""]. apply (one_word "" (String c "") r []); [apply Forall_nil | discriminate | apply Forall_cons; [assumption | apply Forall_nil] | | assumption].
      intros (d & r' & -> & Hd). cbn [chars] in G. inversion G; contradiction.
    + destruct gap as [|g gap].
      * exists (String c w :: ws'). apply (one_word "" (String c w) rest ws'); [apply Forall_nil | discriminate | now constructor | assumption | assumption].
      * exists (String c "" :: w :: ws'). apply (one_word "" (String c "") (String g gap ++ w ++ rest) (w :: ws')); [apply Forall_nil | discriminate | apply Forall_cons; [assumption | apply Forall_nil] | | assumption].
        intros (d & r' & X & Hd). injection X as <- _. cbn [chars] in G. inversion G; contradiction.
  - apply not_alnum_iff in E. exists ws. inversion IH as [gap G Eg Ew | gap w rest ws' G NE W NB H Eg Ew]; subst.
    + apply no_word. now constructor.
    + apply (one_word (String c gap) w rest ws'); auto. now constructor.
Qed.
Lemma words_ne s ws : words_of s ws -> exists xs, Forall2 capital_word ws xs.
Proof.
  induction 1 as [gap G | gap w rest ws G NE W NB H (xs & IH)]; [exists []; constructor|].
  destruct w as [|c r]; [congruence|]. exists ((upper_char c ++ r) :: xs). constructor; [|assumption]. constructor. now apply capital_iff.
Qed.

Lemma strip_digits ds rest : Forall digit (chars ds) -> ~ begins digit rest -> lstrip_by is_decimal (ds ++ rest) = rest.
Proof.
  induction ds as [|c ds IH]; cbn [chars]; intros H N.
  - destruct rest as [|c r]; [reflexivity|]. cbn. destruct (is_decimal c) eqn:E; [|reflexivity]. exfalso. apply N. exists c, r. split; [reflexivity | now apply digit_iff].
  - inversion H; subst. cbn. rewrite (proj2 (digit_iff c)) by assumption. auto.
Qed.
Lemma digits_exist s : exists ds, s = ds ++ lstrip_by is_decimal s /\ Forall digit (chars ds) /\ ~ begins digit (lstrip_by is_decimal s).
Proof.
  induction s as [|c r (ds & E & F & N)].
  - exists "". split; [reflexivity|]. split; [constructor|]. intros (? & ? & X & _). discriminate.
  - cbn [lstrip_by]. destruct (is_decimal c) eqn:D.
    + exists (String c ds). split; [cbn; congruence|]. split; [constructor; [now apply digit_iff | assumption] | assumption].
    + exists "". split; [reflexivity|]. split; [constructor|]. intros (? & ? & X & Y). injection X as <- <-. apply digit_iff in Y. congruence.
Qed.

(** Camel case is a function, which the model computes. *)
Lemma camel_iff s x : camel s x <-> x = to_camel_case s.
Proof.
  unfold to_camel_case, drop_digits. split.
  - intros (ds & rest & -> & F & N & H1 & H2). rewrite strip_digits by assumption.
    destruct rest as [|c r]; [now apply H1|]. destruct H2 as (ws & xs & W & C & ->); [discriminate|]. symmetry. now apply loop_words with ws.
  - intros ->. destruct (digits_exist s) as (ds & E & F & N). exists ds, (lstrip_by is_decimal s). split; [exact E|]. split; [exact F|]. split; [exact N|].
    destruct (lstrip_by is_decimal s) as [|c r] eqn:L; split; try discriminate; auto; [congruence|]. intros _.
    destruct (words_exist (String c r)) as (ws & W). destruct (words_ne _ _ W) as (xs & X). exists ws, xs. split; [exact W|]. split; [exact X|]. now apply loop_words with ws.
Qed.
Lemma column_word_iff l x : column_word (str_label l) x <-> x = column_suffix l.
Proof.
  unfold column_word, column_suffix. split.
  - intros (w & C & A & B). apply camel_iff in C. subst w. destruct (to_camel_case (str_label l)); [now apply B|now apply A].
  - intros ->. exists (to_camel_case (str_label l)). split; [now apply camel_iff|]. destruct (to_camel_case (str_label l)); split; congruence.
Qed.
