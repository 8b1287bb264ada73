(** C75 for all outputs of mypy. *)
From Coq Require Import Ascii String List Bool Arith Lia.
From Verif Require Import PyStr PyStrFacts Exc Live LiveText YamlLoad Frame Mypy SpecNames SpecFrame SpecMypy PropsMypy.
Import ListNotations.
Local Open Scope string_scope.
Local Open Scope nat_scope.

(** How a byte is written in a literal with the quote [q]. *)
Definition hex_digit (n : nat) (d : ascii) : Prop := n < 16 /\ String.get n "0123456789abcdef" = Some d.
Inductive Byte (q : ascii) : ascii -> string -> Prop :=
  | byte_backslash : Byte q "\" "\\"
  | byte_quote : q <> "\"%char -> Byte q q (String "\" (String q ""))
  | byte_tab : Byte q (ascii_of_nat 9) "\t"
  | byte_feed : Byte q (ascii_of_nat 10) "\n"
  | byte_return : Byte q (ascii_of_nat 13) "\r"
  | byte_plain : forall c, 32 <= code c <= 126 -> c <> "\"%char -> c <> q -> Byte q c (String c "")
  | byte_hex : forall c h l, (code c < 32 \/ 126 < code c) -> ~ In (code c) [9; 10; 13] -> hex_digit (code c / 16) h -> hex_digit (code c mod 16) l ->
      Byte q c (String "\" (String "x" (String h (String l "")))).
Inductive Bytes (q : ascii) : string -> string -> Prop :=
  | bytes_none : Bytes q "" ""
  | bytes_more : forall c t s u, Byte q c t -> Bytes q s u -> Bytes q (String c s) (t ++ u).
(** A bytes literal: in double quotes exactly if there are single ones and no double ones inside. *)
Inductive Literal (s : string) : string -> Prop :=
  | literal_double : forall u, occurs "'" s -> ~ occurs """" s -> Bytes """" s u -> Literal s ("b""" ++ u ++ """")
  | literal_single : forall u, ~ occurs "'" s \/ occurs """" s -> Bytes "'" s u -> Literal s ("b'" ++ u ++ "'").
(** The texts between the occurrences of [m]. *)
Inductive Pieces (m : string) : string -> list string -> Prop :=
  | pieces_last : forall s, ~ occurs m s -> Pieces m s [s]
  | pieces_more : forall a b l, ~ occurs m a -> Pieces m b l -> Pieces m (a ++ m ++ b) (a :: l).
(** A text up to its last closing bracket. *)
Inductive UpToBracket : string -> string -> Prop :=
  | up_to_none : forall s, ~ occurs "]" s -> UpToBracket s ""
  | up_to_last : forall a b, ~ occurs "]" b -> UpToBracket (a ++ "]" ++ b) (a ++ "]").

Lemma contains_occurs_not sub s : contains sub s = false <-> ~ occurs sub s.
Proof. rewrite occurs_iff. destruct (contains sub s); split; congruence. Qed.
Lemma first_piece n : forall s, String.length s <= n -> contains sep s = true -> exists a b, s = a ++ sep ++ b /\ contains sep a = false.
Proof.
  induction n as [|n IH]; intros s L C; [destruct s; cbn in L; [discriminate C|lia]|]. apply occurs_iff in C as (a & b & ->).
  destruct (contains sep a) eqn:Ea; [|eauto]. destruct (IH a) as (a' & b' & -> & Ca).
  - rewrite !length_app_s in L. cbn [sep String.length] in L. lia.
  - exact Ea.
  - exists a', (b' ++ sep ++ b). split; [now rewrite !app_assoc_s|exact Ca].
Qed.
Lemma split_pieces n : forall s, String.length s <= n -> Pieces sep s (split_str sep s 0).
Proof.
  induction n as [|n IH]; intros s L; (destruct (contains sep s) eqn:C; [|rewrite split_none by auto; apply pieces_last; now apply contains_occurs_not]).
  - destruct s; cbn in L; [discriminate C|lia].
  - destruct (first_piece (S n) s L C) as (a & b & -> & Ca). rewrite split_first by auto. apply pieces_more; [now apply contains_occurs_not|]. apply IH.
    rewrite !length_app_s in L. cbn [sep String.length] in L. lia.
Qed.
Lemma cut_bracket s : UpToBracket s (up_to_bracket s).
Proof.
  unfold up_to_bracket. destruct (contains "]" s) eqn:C.
  - assert (X : forall n s, String.length s <= n -> contains "]" s = true -> exists a b, s = a ++ "]" ++ b /\ contains "]" b = false).
    { clear. induction n as [|n IH]; intros s L C; [destruct s; cbn in L; [discriminate C|lia]|]. apply occurs_iff in C as (a & b & ->).
      destruct (contains "]" b) eqn:Eb; [|eauto]. destruct (IH b) as (a' & b' & -> & Cb).
      - rewrite !length_app_s in L. cbn [String.length] in L. lia.
      - exact Eb.
      - exists (a ++ "]" ++ a'), b'. split; [now rewrite !app_assoc_s|exact Cb]. }
    destruct (X _ s (le_n _) C) as (a & b & -> & Cb). change ("]" ++ b) with (String bracket b). rewrite (rfind_last a b Cb).
    replace (a ++ String bracket b) with ((a ++ "]") ++ b) by now rewrite app_assoc_s. rewrite (take_whole (a ++ "]") b).
    2:{ rewrite length_app_s. cbn. lia. }
    rewrite app_assoc_s. apply (up_to_last a b). now apply contains_occurs_not.
  - rewrite rfind_none by auto. apply up_to_none. now apply contains_occurs_not.
Qed.
Lemma hex_digit_spec n : n < 16 -> hex_digit n (chr (if Nat.ltb n 10 then 48 + n else 87 + n)).
Proof. intros H. split; auto. do 16 (destruct n as [|n]; [vm_compute; reflexivity|]). lia. Qed.
Lemma byte_spec q c : q = "'"%char \/ q = """"%char -> Byte q c (bytes_char q c).
Proof.
  intros Hq. unfold bytes_char. destruct (Ascii.eqb_spec c (chr 92)) as [->|N1]; [apply byte_backslash|].
  destruct (Ascii.eqb_spec c q) as [->|N2]; [apply byte_quote; destruct Hq; subst; discriminate|].
  destruct (Ascii.eqb_spec c (chr 9)) as [->|N3]; [apply byte_tab|].
  destruct (Ascii.eqb_spec c (chr 10)) as [->|N4]; [apply byte_feed|].
  destruct (Ascii.eqb_spec c (chr 13)) as [->|N5]; [apply byte_return|].
  assert (CC : forall n, c <> chr n -> code c <> n) by (intros n N E; apply N; unfold chr; rewrite <- E; unfold code; now rewrite ascii_nat_embedding).
  destruct (between 32 126 (ord c)) eqn:B; unfold between in B.
  - apply andb_true_iff in B as [B1 B2]. apply Nat.leb_le in B1, B2. apply byte_plain; auto.
  - unfold hex. cbn [String.append]. pose proof (nat_ascii_bounded c) as Bd. change (nat_of_ascii c) with (ord c) in Bd. apply byte_hex.
    + change (code c) with (ord c). apply andb_false_iff in B as [B|B]; apply Nat.leb_gt in B; lia.
    + intros [E|[E|[E|[]]]]; symmetry in E; revert E; apply CC; auto.
    + apply hex_digit_spec. apply Nat.div_lt_upper_bound; change (code c) with (ord c); lia.
    + apply hex_digit_spec. apply Nat.mod_upper_bound. lia.
Qed.
Lemma bytes_spec q s : q = "'"%char \/ q = """"%char -> Bytes q s (bytes_chars q s).
Proof. intros Hq. induction s as [|c s IH]; cbn [bytes_chars]; constructor; auto. now apply byte_spec. Qed.
Lemma literal_spec s : Literal s (bytes_str s).
Proof.
  unfold bytes_str. destruct (contains (String (chr 39) "") s) eqn:A; [destruct (contains (String (chr 34) "") s) eqn:B|]; cbn [andb negb].
  - apply (literal_single s (bytes_chars "'" s)); [right; now apply occurs_iff|apply bytes_spec; auto].
  - apply (literal_double s (bytes_chars """" s)); [now apply occurs_iff|now apply contains_occurs_not|apply bytes_spec; auto].
  - apply (literal_single s (bytes_chars "'" s)); [left; now apply contains_occurs_not|apply bytes_spec; auto].
Qed.

(** What a scan reports about any run of mypy: the literal of what it printed is taken apart at "error: ", every part is cut behind its
    last closing bracket, and parts that are then empty or mention a keyword are dropped. *)
Theorem C75_all_outputs : forall w text strict version ignore,
  match w (mypy_text_arguments strict version text) with
  | None => scan_string w text strict version ignore = Raise FileNotFound
  | Some (Outcome out err) =>
      (err <> "" -> exists e, scan_string w text strict version ignore = Val (Result false [e]) /\ Literal err e) /\
      (err = "" -> exists lit parts cut errors, Literal out lit /\ Pieces "error: " lit parts /\ Forall2 UpToBracket parts cut /\
         kept (fun e => e = "" \/ exists k, In k ignore /\ occurs k e) cut errors /\
         scan_string w text strict version ignore = Val (Result (match errors with [] => true | _ => false end) errors))
  end.
Proof.
  intros w text strict version ignore.
  assert (E : string_command strict version text = mypy_text_arguments strict version text) by (destruct strict; reflexivity).
  unfold scan_string. rewrite E. destruct (w (mypy_text_arguments strict version text)) as [[out err]|]; auto. cbn [o_stderr o_stdout]. split.
  - intros N. rewrite (proj2 (String.eqb_neq _ _) N). cbn [negb]. eexists. split; [reflexivity|apply literal_spec].
  - intros ->. cbn [String.eqb negb]. exists (bytes_str out), (split_str sep (bytes_str out) 0), (map up_to_bracket (split_str sep (bytes_str out) 0)). eexists.
    split; [apply literal_spec|]. split; [apply (split_pieces _ _ (le_n _))|]. split.
    { generalize (split_str sep (bytes_str out) 0). clear. induction l as [|x l IH]; constructor; auto. apply cut_bracket. }
    split; [|reflexivity]. apply kept_filter. intros x _. unfold kept_text. destruct (String.eqb_spec x "") as [->|N]; [split; auto|]. cbn [negb andb].
    destruct ignore as [|k ks]; [split; [discriminate|intros [X|(k & [] & _)]; contradiction]|]. split.
    + intros F. right. assert (G : existsb (fun k => contains k x) (k :: ks) = true).
      { destruct (existsb (fun k0 => contains k0 x) (k :: ks)) eqn:Ex; auto. exfalso. rewrite <- not_true_iff_false in F. apply F. apply forallb_forall. intros y Hy. apply negb_true_iff.
        destruct (contains y x) eqn:Ey; auto. rewrite <- not_true_iff_false in Ex. exfalso. apply Ex. apply existsb_exists. eauto. }
      apply existsb_exists in G as (y & Hy & G). exists y. split; auto. now apply occurs_iff.
    + intros [X|(y & Hy & Oy)]; [contradiction|]. apply occurs_iff in Oy. rewrite <- not_true_iff_false. intros F. rewrite forallb_forall in F. specialize (F y Hy). rewrite Oy in F. discriminate.
Qed.
Print Assumptions C75_all_outputs.

(** The specification leaves no choice. *)
Lemma hex_digit_one n a b : hex_digit n a -> hex_digit n b -> a = b.
Proof. intros [_ A] [_ B]. congruence. Qed.
Lemma Byte_one q c a b : q = "'"%char \/ q = """"%char -> Byte q c a -> Byte q c b -> a = b.
Proof.
  intros Hq A B.
  assert (Q : 32 <= code q <= 126) by (destruct Hq; subst; vm_compute; lia).
  inversion A; subst; inversion B; subst; auto; try congruence;
    try (exfalso; repeat match goal with H : context [code (ascii_of_nat ?n)] |- _ => change (code (ascii_of_nat n)) with n in H | H : context [code "\"] |- _ => change (code "\") with 92 in H end; cbn [In] in *; lia);
    try (destruct Hq; subst; discriminate).
  now rewrite (hex_digit_one _ _ _ H1 H5), (hex_digit_one _ _ _ H2 H6).
Qed.
Lemma Bytes_one q s a : q = "'"%char \/ q = """"%char -> Bytes q s a -> forall b, Bytes q s b -> a = b.
Proof. intros Hq. induction 1 as [|c t s u H1 H2 IH]; intros b B; inversion B; subst; auto. f_equal; [eapply Byte_one; eauto|auto]. Qed.
Lemma Literal_one s a b : Literal s a -> Literal s b -> a = b.
Proof. intros A B. inversion A; subst; inversion B; subst; try tauto; do 2 f_equal; try (eapply Bytes_one; [|eassumption|eassumption]; auto). Qed.
Lemma Pieces_split s l : Pieces sep s l -> l = split_str sep s 0.
Proof. induction 1 as [s N|a b l N H IH]; [rewrite split_none; auto; now apply contains_occurs_not|]. rewrite split_first, IH; auto. now apply contains_occurs_not. Qed.
Lemma UpToBracket_cut s t : UpToBracket s t -> t = up_to_bracket s.
Proof.
  intros H. inversion H; subst; unfold up_to_bracket.
  - rewrite rfind_none; auto. now apply contains_occurs_not.
  - change ("]" ++ b) with (String bracket b). rewrite rfind_last by now apply contains_occurs_not. replace (a ++ String bracket b) with ((a ++ "]") ++ b) by now rewrite app_assoc_s. rewrite (take_whole (a ++ "]") b); auto. rewrite length_app_s. cbn. lia.
Qed.
Theorem C75_determined : forall out lit lit' parts parts' cut cut',
  Literal out lit -> Literal out lit' -> Pieces "error: " lit parts -> Pieces "error: " lit' parts' -> Forall2 UpToBracket parts cut -> Forall2 UpToBracket parts' cut' ->
  lit = lit' /\ parts = parts' /\ cut = cut'.
Proof.
  intros out lit lit' parts parts' cut cut' A B P Q F G. assert (lit = lit') by (eapply Literal_one; eauto). subst lit'. split; auto.
  assert (parts = parts') by (rewrite (Pieces_split _ _ P), (Pieces_split _ _ Q); reflexivity). subst parts'. split; auto. clear - F G. revert cut' G. induction F; intros cut' G; inversion G; subst; auto.
  rewrite (UpToBracket_cut _ _ H), (UpToBracket_cut _ _ H2). f_equal. auto.
Qed.
Print Assumptions C75_determined.
Example C75_all_example : exists lit parts cut, Literal ("<string>:2: note: int[x]" ++ line_feed) lit /\ Pieces "error: " lit parts /\ Forall2 UpToBracket parts cut /\ cut = ["b'<string>:2: note: int[x]"].
Proof.
  eexists _, _, _. split; [apply literal_spec|]. split; [apply (split_pieces _ _ (le_n _))|]. split.
  - match goal with |- Forall2 _ ?l _ => let x := eval vm_compute in l in change l with x end. constructor; [|constructor]. apply (up_to_last "b'<string>:2: note: int[x" "\n'"). intros X. apply occurs_iff in X. vm_compute in X. discriminate.
  - reflexivity.
Qed.
