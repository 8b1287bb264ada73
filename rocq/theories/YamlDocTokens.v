(** The tokens of the temporary copy. *)
From Coq Require Import Ascii String List Bool Arith ZArith Lia Sorted.
From Verif Require Import PyStr PyStrFacts Exc Yaml SpecNames SpecText SpecImports NamesFacts DocstringFacts SpecYaml
  YamlFacts YamlLines YamlComments YamlWords YamlMore YamlEntries SpecLive LiveText SpecYamlDoc YamlDocLines YamlDocTexts.
Import ListNotations.
Local Open Scope string_scope.
Local Open Scope nat_scope.

Notation plainly l := (str_forall printb l = true).

(** ** The lines of a documentation text *)
Lemma good_join docs : docs <> [] -> Forall good_doc docs -> good_doc (join (lf ++ lf) docs).
Proof.
  induction docs as [|d docs IH]; intros N F; [congruence|]. inversion F as [|? ? G F']; subst. destruct docs as [|e docs]; [exact G|].
  specialize (IH ltac:(discriminate) F'). change (join (lf ++ lf) (d :: e :: docs)) with (d ++ (lf ++ lf) ++ join (lf ++ lf) (e :: docs)).
  set (j := join (lf ++ lf) (e :: docs)) in *. clearbody j. destruct G as [(c & r & -> & Sc) [_ D]]. destruct IH as [_ [(u & ->) D']]. split; [|split].
  - cbn [append]. eauto.
  - exists (String c r ++ (lf ++ lf) ++ u). now rewrite !app_assoc_s.
  - rewrite !all_app in *. repeat split; try reflexivity; try apply D; apply D'.
Qed.

Lemma docb_break c : docb c = true -> is_linebreak c = true -> c = "010"%char.
Proof. assert (G : implb (docb c && is_linebreak c) (Ascii.eqb c "010"%char) = true) by by_chars c. intros H1 H2. rewrite H1, H2 in G. now apply Ascii.eqb_eq. Qed.
Lemma docb_print c : docb c = true -> is_linebreak c = false -> printb c = true.
Proof. assert (G : implb (docb c && negb (is_linebreak c)) (printb c) = true) by by_chars c. intros H1 H2. rewrite H1, H2 in G. exact G. Qed.
Definition line_by_line (ls : list string) : string := String.concat "" (map (fun l => l ++ lf) ls).
Lemma line_by_line_cons x ls : line_by_line (x :: ls) = x ++ lf ++ line_by_line ls.
Proof. unfold line_by_line. cbn [map]. destruct ls; cbn [map String.concat append]; [rewrite !app_nil_r_s|rewrite app_assoc_s]; reflexivity. Qed.

Lemma line_by_line_concat x ls : line_by_line (x :: ls) = String.concat lf (x :: ls) ++ lf.
Proof.
  revert x. induction ls as [|z ls IH]; intros x; rewrite line_by_line_cons; [reflexivity|]. rewrite IH. change (String.concat lf (x :: z :: ls)) with (x ++ lf ++ String.concat lf (z :: ls)).
  now rewrite !app_assoc_s.
Qed.

Lemma doc_lines s : forall acc, str_forall docb s = true -> plainly acc ->
  (s = "" /\ acc <> "") \/ (exists u, s = u ++ ".") ->
  let ls := splitlines_aux s acc in
  ls <> [] /\ last ls "" <> "" /\ Forall (fun l => plainly l) ls /\ line_by_line ls = acc ++ s ++ lf.
Proof.
  induction s as [|c s IH]; intros acc D A E; cbv zeta.
  { destruct E as [[_ N]|(u & E)]; [|destruct u; discriminate]. cbn [splitlines_aux]. destruct acc as [|x acc]; [congruence|].
    split; [discriminate|]. split; [exact N|]. split; [constructor; auto|]. rewrite line_by_line_cons. reflexivity. }
  destruct E as [[E _]|(u & E)]; [discriminate|]. cbn [str_forall] in D. apply andb_true_iff in D as [Dc D].
  assert (Es : (s = "" /\ c = "."%char) \/ exists u', s = u' ++ ".") by (destruct u as [|d u]; injection E as -> ->; [left; auto|right; eauto]).
  assert (Q : is_linebreak c = true -> exists u', s = u' ++ ".") by (intros B; destruct Es as [[_ ->]|]; [discriminate|auto]).
  cbn [splitlines_aux]. destruct (is_linebreak c) eqn:B.
  - pose proof (docb_break c Dc B) as ->. specialize (Q eq_refl). destruct s as [|d s]; [destruct Q as ([|] & ?); discriminate|].
    change (Nat.eqb (ord "010"%char) 13) with false. cbn [andb]. destruct (IH "" D eq_refl (or_intror Q)) as (I1 & I2 & I3 & I4).
    set (ls := splitlines_aux (String d s) "") in *. split; [discriminate|]. split; [destruct ls; [congruence|exact I2]|]. split; [constructor; auto|].
    rewrite line_by_line_cons, I4. reflexivity.
  - assert (G : plainly (acc ++ String c "")) by (apply all_app; split; [auto|cbn [str_forall]; now rewrite (docb_print c Dc B)]).
    destruct (IH (acc ++ String c "") D G) as (I1 & I2 & I3 & I4).
    { destruct Es as [[-> ->]|Es]; [left; split; [auto|destruct acc; discriminate]|auto]. }
    split; [auto|]. split; [auto|]. split; [auto|]. rewrite I4, !app_assoc_s. reflexivity.
Qed.
Lemma first_line s : forall acc x, (exists r, acc = String x r) -> exists r ls, splitlines_aux s acc = String x r :: ls.
Proof.
  induction s as [|d s IH]; intros acc x (r & ->); cbn [splitlines_aux]; [eauto|]. destruct (is_linebreak d); [|apply IH; cbn [append]; eauto].
  destruct s as [|e s]; [eauto|]. destruct (Nat.eqb (ord d) 13 && Nat.eqb (ord e) 10); eauto.
Qed.
Lemma space_break c : is_space c = false -> is_linebreak c = false.
Proof. assert (G : implb (negb (is_space c)) (negb (is_linebreak c)) = true) by by_chars c. intros H. rewrite H in G. now apply negb_true_iff in G. Qed.

Lemma doc_literal E0 m s ls0 : good_doc s -> ls0 <> [] -> block_text E0 false Single m (map (fun t => pad m ++ t) (splitlines s)) ls0 (s ++ lf) /\ Forall (fun l => plainly l) (splitlines s).
Proof.
  intros [(c & r & E & Sc) [U D]] N0. destruct (doc_lines s "" D eq_refl (or_intror U)) as (I1 & I2 & I3 & I4). fold (splitlines s) in *. split; [|auto].
  assert (F : exists t ls, splitlines s = String c t :: ls).
  { unfold splitlines. rewrite E. cbn [splitlines_aux]. rewrite (space_break c Sc). apply first_line. cbn [append]. eauto. }
  destruct F as (t & ls & F). exists (String c t), ls, [], 1. rewrite app_nil_r, <- F. split; [|split; [|split; [constructor|split; [auto|split; [left; auto|]]]]].
  - clear. induction (splitlines s) as [|x l IH]; constructor; auto. now left.
  - exists c, t. split; auto. intros Z. assert (G : implb (Nat.eqb (code c) 32) (is_space c) = true) by by_chars c. rewrite Z, Sc in G. discriminate.
  - unfold body_text, ending. rewrite <- line_by_line_concat, <- F, I4. reflexivity.
Qed.

(** ** Lines that are left alone *)
Lemma pad_spaces n : pad n = spaces n.
Proof. induction n as [|n IH]; [reflexivity|]. cbn [pad]. rewrite IH. reflexivity. Qed.
Lemma plain_no_tabs l : plainly l -> ~ In (char 9) (chars l).
Proof. intros H I. apply printb_forall in H. rewrite Forall_forall in H. specialize (H _ I). unfold printable in H. change (code (char 9)) with 9 in H. lia. Qed.
Lemma rs_pad n c r : plainly (pad n ++ String c r) -> is_space c = false -> remove_spacing (pad n ++ String c r) = String c r.
Proof. intros P Sc. rewrite remove_spacing_no_tab by now apply plain_no_tabs. rewrite pad_spaces. now apply lstrip_spaces. Qed.
Lemma rs_empty n : remove_spacing (pad n ++ "") = "".
Proof.
  rewrite app_nil_r_s. rewrite remove_spacing_no_tab.
  - induction n as [|n IH]; [reflexivity|]. exact IH.
  - intros I. rewrite pad_spaces in I. assert (G := spaces_forall (fun d => negb (Ascii.eqb d (char 9))) n eq_refl). apply Forall_chars in G. rewrite Forall_forall in G. specialize (G _ I). discriminate.
Qed.
Lemma not_space c : ~ white c -> is_space c = false.
Proof. intros H. destruct (is_space c) eqn:E; auto. exfalso. apply H. now apply is_space_white. Qed.

Lemma silent_other y i n c r : plainly (pad n ++ String c r) -> is_space c = false -> is_alpha c = false -> Ascii.eqb c dash_c = false ->
  comments_of_line y Spaces i (pad n ++ String c r) = Val [].
Proof. intros P Sc A D. unfold comments_of_line. rewrite rs_pad by auto. now rewrite A, D. Qed.
Lemma silent_empty y i n : comments_of_line y Spaces i (pad n ++ "") = Val [].
Proof. unfold comments_of_line. now rewrite rs_empty. Qed.
Lemma find_none c : forall s q i, ~ In c (chars s) -> find_unquoted_aux c q i s = None.
Proof.
  induction s as [|d s IH]; intros q i H; [reflexivity|]. cbn [find_unquoted_aux]. cbn [chars In] in H. destruct (is_quote d); [apply IH; tauto|].
  destruct (Ascii.eqb d c) eqn:E; [apply Ascii.eqb_eq in E; tauto|]. apply IH. tauto.
Qed.
Lemma silent_no_colon y i n c r : plainly (pad n ++ String c r) -> is_space c = false -> ~ In (char 58) (chars (String c r)) ->
  (Ascii.eqb c dash_c = true -> exists d t, r = String " " (String d t) /\ is_space d = false) ->
  comments_of_line y Spaces i (pad n ++ String c r) = Val [].
Proof.
  intros P Sc N Dd. unfold comments_of_line. rewrite rs_pad by auto. destruct (is_alpha c || Ascii.eqb c dash_c); [|reflexivity]. cbn [count_indent].
  unfold key_of_line. rewrite rs_pad by auto. set (line := if Ascii.eqb c dash_c then _ else _).
  assert (B : strip line <> "").
  { intros Z. apply strip_by_all in Z. unfold line in Z. destruct (Ascii.eqb c dash_c).
    - destruct (Dd eq_refl) as (d & t & -> & Sd). cbn [str_forall] in Z. rewrite Sd, !andb_false_r in Z. discriminate.
    - cbn [str_forall] in Z. rewrite Sc in Z. discriminate. }
  assert (Q : find_unquoted colon_c line = None).
  { apply find_none. intros I. apply N. unfold line in I. destruct (Ascii.eqb c dash_c); auto. cbn [chars In] in *. destruct I as [I|I]; [discriminate|auto]. }
  destruct (strip line) as [|f fr]; [congruence|]. rewrite Q. reflexivity.
Qed.

Lemma idle_silent y i l : plainly l -> idle l -> comments_of_line y Spaces i l = Val [].
Proof. intros P (n & r & -> & [->|(t & ->)]); [apply silent_empty|]. now apply silent_other. Qed.
Lemma ascii_alpha c : code c < 128 -> ~ ascii_letter c -> is_alpha c = false.
Proof.
  intros L N. assert (G : implb (Nat.ltb (code c) 128 && is_alpha c) ((Nat.leb 65 (code c) && Nat.leb (code c) 90) || (Nat.leb 97 (code c) && Nat.leb (code c) 122)) = true) by by_chars c.
  destruct (is_alpha c); [|reflexivity]. exfalso. rewrite (proj2 (Nat.ltb_lt _ _) L) in G. cbn [andb implb] in G. apply N. unfold ascii_letter. rewrite orb_true_iff, !andb_true_iff, !Nat.leb_le in G. exact G.
Qed.
Lemma quiet_silent y i l : plainly l -> quiet l -> comments_of_line y Spaces i l = Val [].
Proof.
  intros P (n & r & -> & [->|[(c & t & -> & W & D & H)|(c & t & -> & W & H)]]); [apply silent_empty| |].
  2:{ apply silent_no_colon; auto; [intros I; apply H; rewrite chars_app, in_app_iff; auto|]. intros _. exists c, t. split; auto using not_space. }
  assert (Dd : Ascii.eqb c dash_c = false) by (apply not_true_iff_false; intros E; apply Ascii.eqb_eq in E; subst c; now apply D).
  destruct H as [[L N]|H].
  - apply silent_other; auto using not_space, ascii_alpha.
  - apply silent_no_colon; auto using not_space; [|congruence]. intros I. apply H. rewrite chars_app, in_app_iff. auto.
Qed.
Lemma item_silent y i n rest : plainly (pad n ++ "- " ++ rest) -> single rest -> comments_of_line y Spaces i (pad n ++ "- " ++ rest) = Val [].
Proof.
  intros P [(c & r & -> & W & _) [_ N]]. cbn [append] in *. apply silent_no_colon; auto.
  - intros [I|[I|I]]; [discriminate|discriminate|exact (N I)].
  - intros _. exists c, r. split; auto using not_space.
Qed.
Lemma under_silent y i n key rest : plainly (key_at n false key rest) -> (exists c r, key = String c r /\ code c = 95) ->
  comments_of_line y Spaces i (key_at n false key rest) = Val [].
Proof.
  intros P (c & r & -> & U). unfold key_at in *. cbn [bullet append] in *.
  assert (G : implb (Nat.eqb (code c) 95) (negb (is_space c) && negb (is_alpha c) && negb (Ascii.eqb c dash_c)) = true) by by_chars c.
  rewrite U in G. cbn in G. rewrite !andb_true_iff, !negb_true_iff in G. now apply silent_other.
Qed.

(** ** The copy *)
(** Lines with a key that begins with an underscore and without a dash. *)
Definition skipped (line : string) : Prop := exists n r, line = pad n ++ "_" ++ r.
(** The documentation of the key in a line: the comments found at the positions that are not empty, one after the other. *)
Definition docs_of (y : yaml) (i : nat) (key : string) (o : option string) : Prop :=
  exists line, nth_error (y_lines y) i = Some line /\
    ((skipped line /\ o = None) \/
     (~ skipped line /\ exists texts, Forall2 (fun p s => comment_at (y_lines y) i line p = Val s) (y_positions y) texts /\
       let docs := filter (fun s => negb (is_empty s)) texts in
       (docs = [] /\ o = None) \/ (docs <> [] /\ o = Some (join (lf ++ lf) docs ++ lf)))).

Definition any (_ : string) : Prop := True.
Inductive Blocks (y : yaml) : nat -> list string -> list (list string) -> Prop :=
  | bl_nil : forall i, Blocks y i [] []
  | bl_cons : forall i l ls b bs, line_block y i l b -> Blocks y (S i) ls bs -> Blocks y i (l :: ls) (b :: bs).
Lemma Blocks_make y : forall ls i bs, List.length bs = List.length ls ->
  (forall k line, nth_error ls k = Some line -> exists block, nth_error bs k = Some block /\ line_block y (i + k) line block) -> Blocks y i ls bs.
Proof.
  induction ls as [|l ls IH]; intros i [|b bs] L H; try discriminate; constructor.
  - destruct (H 0 l eq_refl) as (b' & E & Hb). injection E as <-. now rewrite Nat.add_0_r in Hb.
  - apply IH; [now injection L|]. intros k line N. destruct (H (S k) line N) as (b' & E & Hb). exists b'. split; [exact E|]. now rewrite <- plus_n_Sm in Hb.
Qed.
Lemma Blocks_app y : forall a i b bs, Blocks y i (a ++ b)%list bs -> exists x z, bs = (x ++ z)%list /\ Blocks y i a x /\ Blocks y (i + List.length a) b z.
Proof.
  induction a as [|l a IH]; intros i b bs H; [exists [], bs; split; [auto|]; split; [constructor|]; now rewrite Nat.add_0_r|].
  cbn [app] in H. inversion H as [|? ? ? bl bs' Hl Hr]; subst. destruct (IH _ _ _ Hr) as (x & z & -> & X & Z). exists (bl :: x), z. split; [auto|]. split; [now constructor|]. cbn [List.length]. now rewrite <- plus_n_Sm.
Qed.
Lemma quiet_blocks y : forall body i bs, Blocks y i body bs -> Forall quiet body -> Forall (fun l => plainly l) body -> List.concat bs = body.
Proof.
  induction body as [|l body IH]; intros i bs H Q P; inversion H as [|? ? ? b bs' Hl Hr]; subst; [reflexivity|]. inversion Q; subst. inversion P; subst.
  cbn [List.concat]. rewrite (IH _ _ Hr) by auto. destruct Hl as [Hl _]. rewrite Hl by now apply quiet_silent. reflexivity.
Qed.

Lemma pad_first : forall k n c r c' r', pad k ++ String c r = pad n ++ String c' r' -> code c <> 32 -> code c' <> 32 -> k = n.
Proof.
  induction k as [|k IH]; intros [|n] c r c' r' E N N'; auto; cbn [pad append] in E.
  - injection E as -> _. now elim N.
  - injection E as <- _. now elim N'.
  - injection E as E. f_equal. eapply IH; eauto.
Qed.
Lemma pad_no k n c r : code c <> 32 -> pad k <> pad n ++ String c r.
Proof. intros N. revert n. induction k as [|k IH]; intros [|n] E; try discriminate; cbn [pad append] in E; injection E; intros; [subst; now apply N|eapply IH; eauto]. Qed.
Lemma key_starts key : key_name key -> exists c r, key = String c r /\ code c <> 32 /\ (ascii_letter c \/ code c = 95).
Proof. intros [(c & r & -> & H) _]. exists c, r. split; [auto|]. split; [|auto]. unfold ascii_letter in H. lia. Qed.
Lemma key_at_first n dash key rest : key_name key -> exists c r, key_at n dash key rest = pad n ++ String c r /\ code c <> 32.
Proof.
  intros K. destruct (key_starts key K) as (c & r & -> & N & _). unfold key_at. destruct dash; cbn [bullet append]; eexists _, _; (split; [reflexivity|]); [cbv; discriminate|exact N].
Qed.
Lemma dedented_key m n dash key rest ls : key_name key -> (dedented m (key_at n dash key rest :: ls) <-> n < m).
Proof.
  intros K. destruct (key_at_first n dash key rest K) as (c & r & -> & N). split.
  - intros [H|(k & c' & r' & ls' & E & L & N')]; [discriminate|]. injection E as E _. apply pad_first in E; auto. now subst.
  - intros L. right. exists n, c, r, ls. auto.
Qed.
Lemma dedented_head m l ls ls' : dedented m (l :: ls) -> dedented m (l :: ls').
Proof. intros [H|(k & c & r & q & E & H)]; [discriminate|]. injection E as -> _. right. exists k, c, r, ls'. auto. Qed.

Lemma prefix_no_blank p k a x b : ~ In " "%char (chars p) -> p ++ k = a ++ String " " (x ++ b) -> exists a', k = a' ++ String " " (x ++ b).
Proof.
  revert a. induction p as [|c p IH]; intros a N E; [exists a; exact E|]. cbn [chars In] in N. destruct a as [|d a]; cbn [append] in E; injection E as Ec E; [exfalso; apply N; now left|]. apply (IH a); [intros I; apply N; now right|exact E].
Qed.
Lemma doc_name_key key : key_name key -> key_name (doc_name key).
Proof.
  intros (_ & F & A & B). unfold doc_name. set (p := "___docstring_hidden_key_").
  assert (N : ~ In " "%char (chars p)) by (vm_compute; intuition discriminate).
  split; [exists "_"%char, ("__docstring_hidden_key_" ++ key); split; [reflexivity|right; reflexivity]|]. split; [|split].
  - rewrite chars_app. apply Forall_app. split; [|exact F]. assert (G : str_forall (fun c => negb (is_space c) && negb (is_quote c) && negb (Nat.eqb (code c) 58)) p = true) by reflexivity.
    apply Forall_chars in G. eapply Forall_impl; [|exact G]. intros c H. cbn beta in H. rewrite !andb_true_iff, !negb_true_iff in H. destruct H as [[H1 H2] H3]. split; [right; now apply not_white|]. split.
    + intros Q. apply is_quote_spec in Q. congruence.
    + now apply Nat.eqb_neq.
  - intros a E. destruct (prefix_no_blank p key a "" "" N E) as (a' & E'). exact (A a' E').
  - intros a b E. destruct (prefix_no_blank p key a "#" b N E) as (a' & E'). exact (B a' b E').
Qed.
Lemma column_pad n dash : spaces n ++ no_item dash = pad (column n dash).
Proof.
  rewrite pad_spaces. unfold column, spaces. destruct dash; cbn [no_item]; [now rewrite repeat_add|apply app_nil_r_s].
Qed.
Lemma column_pad1 n dash t : spaces n ++ no_item dash ++ " " ++ t = pad (S (column n dash)) ++ t.
Proof.
  rewrite <- !app_assoc_s, column_pad. rewrite !pad_spaces. unfold spaces. replace (S (column n dash)) with (column n dash + 1) by lia. now rewrite repeat_add.
Qed.

(** The lines of an entry and of its key. *)
Lemma entry_lines_shape n dash key rest docs : docs <> [] -> entry_lines n dash key rest docs =
  key_at n dash (doc_name key) " |" :: app (map (fun t => pad (S (column n dash)) ++ t) (splitlines (join (lf ++ lf) docs))) [key_at (column n dash) false key rest].
Proof.
  intros N. destruct docs as [|d docs]; [congruence|]. unfold entry_lines. f_equal.
  - unfold key_at, doc_name. rewrite pad_spaces. change (bullet dash) with (item dash). rewrite !app_assoc_s. reflexivity.
  - f_equal.
    + apply map_ext. intros t. apply column_pad1.
    + unfold key_at. cbn [bullet append]. rewrite <- column_pad, !app_assoc_s. reflexivity.
Qed.
Lemma header_plain : text_header false Single " |".
Proof. exists 0, "". split; [reflexivity|]. exists 0, "". auto. Qed.
Lemma entry_tokens E0 n dash key rest docs flat (R : list token -> Prop) : key_name key -> docs <> [] -> Forall good_doc docs ->
  (forall j, exists ts, Tokens E0 any j (key_at (column n dash) false key rest :: flat) ts /\ R ts) ->
  forall j, exists ts, Tokens E0 any j (entry_lines n dash key rest docs ++ flat)%list (app (bullets n dash) (TText j (column n dash) (doc_name key) (join (lf ++ lf) docs ++ lf) :: ts)) /\ R ts.
Proof.
  intros K N G H j. rewrite entry_lines_shape by auto. cbn [app]. rewrite <- app_assoc. cbn [app].
  set (body := map _ _). destruct (H (S (j + List.length body))) as (ts & Ht & Hr). exists ts. split; [|exact Hr].
  apply tk_text with (folded := false) (ch := Single) (m := S (column n dash)).
  - now apply doc_name_key.
  - exact header_plain.
  - apply doc_literal; [now apply good_join|discriminate].
  - apply Forall_forall. intros x _. exact I.
  - lia.
  - apply dedented_key; [auto|lia].
  - exact Ht.
Qed.

Lemma key_name_doc key : key_name key -> doc_key_name key.
Proof.
  intros [(c & r & E & H) [F _]]. split; [exists c, r; split; auto|]. eapply Forall_impl; [|exact F]. intros d (W & Q & N).
  split; [intros ->; destruct W as [W|W]; [discriminate W|apply W; now left]|]. split; [auto|]. intros ->. now apply N.
Qed.
Lemma looked_or_skipped n dash key rest : key_name key ->
  (looked_at dash key /\ ~ skipped (key_at n dash key rest)) \/ (dash = false /\ (exists c r, key = String c r /\ code c = 95) /\ skipped (key_at n dash key rest)).
Proof.
  intros K. destruct (key_starts key K) as (c & r & E & N & H).
  assert (A : forall d t, code d <> 32 -> code d <> 95 -> ~ skipped (pad n ++ String d t)).
  { intros d t D U (k & x & Z). change ("_" ++ x) with (String "_" x) in Z. assert (k = n) by (symmetry; eapply pad_first; eauto; cbv; discriminate). subst k.
    apply app_inj_l in Z. injection Z as -> _. now elim U. }
  destruct dash; [left; split; [now left|]; unfold key_at; cbn [bullet append]; apply A; cbv; discriminate|].
  destruct H as [H|H].
  - left. split; [right; exists c, r; auto|]. rewrite E. unfold key_at. cbn [bullet append]. apply A; auto. unfold ascii_letter in H. lia.
  - right. split; [auto|]. split; [eauto|]. exists n, (r ++ ":" ++ rest). rewrite E. unfold key_at. cbn [bullet append].
    assert (Ec : c = "_"%char) by (rewrite <- (ascii_nat_embedding c); unfold code in H; now rewrite H). now rewrite Ec.
Qed.
Lemma key_at_plain n dash key rest : key_at n dash key rest = plain_line n dash key rest.
Proof. unfold key_at, plain_line. now rewrite pad_spaces. Qed.

Lemma plain_pad n : plainly (pad n).
Proof. rewrite pad_spaces. apply spaces_forall. reflexivity. Qed.
Lemma entry_plain n dash key rest docs : plainly (key_at n dash key rest) -> Forall good_doc docs -> Forall (fun l => plainly l) (entry_lines n dash key rest docs).
Proof.
  intros P G. destruct docs as [|d docs]; [constructor; [rewrite <- key_at_plain; exact P|constructor]|]. rewrite entry_lines_shape by discriminate.
  assert (Q : plainly key /\ plainly rest) by (unfold key_at in P; rewrite !all_app in P; tauto).
  constructor; [|apply Forall_app; split].
  - unfold key_at. rewrite !all_app. repeat split; auto using plain_pad; try reflexivity; [destruct dash; reflexivity|]. unfold doc_name. apply all_app. split; [reflexivity|tauto].
  - apply Forall_map. destruct (doc_literal False 0 (join (lf ++ lf) (d :: docs)) [""]) as [_ F]; [apply good_join; auto; discriminate|discriminate|].
    eapply Forall_impl; [|exact F]. intros l Hl. apply all_app. split; auto using plain_pad.
  - constructor; [|constructor]. unfold key_at. rewrite !all_app. repeat split; auto using plain_pad; tauto.
Qed.

Section Copy.
  Variable y : yaml.
  Hypothesis T : Forall triple_free (y_lines y).
  Hypothesis P : Forall (fun l => plainly l) (y_lines y).

  Lemma docs_good i line texts : In line (y_lines y) -> Forall2 (fun p s => comment_at (y_lines y) i line p = Val s) (y_positions y) texts ->
    Forall good_doc (filter (fun s => negb (is_empty s)) texts).
  Proof.
    intros Hl F. apply Forall_forall. intros s Hs. apply filter_In in Hs as [Hs Ns]. destruct (Forall2_In_r _ _ _ _ F Hs) as (p & _ & Hp).
    destruct (comment_good (y_lines y) i line p s T P Hl Hp) as [->|G]; [discriminate|exact G].
  Qed.

  (** What is known of the copy [bs] of the lines [ls]. *)
  Variable E0 : Prop.
  Definition copied (ls : list string) (ts : list token) (bs : list (list string)) : Prop :=
    exists flat, unl (List.concat bs) = unl flat /\ (List.concat bs = [] <-> flat = []) /\ (ls = [] <-> flat = []) /\ Forall (fun l => plainly l) flat /\
      (forall m, dedented m ls -> dedented m flat) /\
      forall j, exists ts', Tokens E0 any j flat ts' /\ Annotated (docs_of y) ts ts'.

  Lemma copied_line l ls ts b bs (tok : list token) : plainly l -> b = [l] ->
    copied ls ts bs ->
    (forall flat, (forall j, exists ts', Tokens E0 any j flat ts' /\ Annotated (docs_of y) ts ts') -> forall j, exists ts', Tokens E0 any j (l :: flat) ts' /\ Annotated (docs_of y) (tok ++ ts)%list ts') ->
    copied (l :: ls) (tok ++ ts)%list (b :: bs).
  Proof.
    intros Pl -> (flat & E1 & E2 & E6 & E3 & E4 & E5) H. exists (l :: flat). cbn [List.concat app unl]. split; [now rewrite E1|]. split; [split; discriminate|]. split; [split; discriminate|].
    split; [now constructor|]. split; [intros m; apply dedented_head|]. now apply H.
  Qed.

  Lemma annotated_bullets n dash ts ts' : Annotated (docs_of y) ts ts' -> Annotated (docs_of y) (bullets n dash ++ ts)%list (bullets n dash ++ ts')%list.
  Proof. destruct dash; cbn [bullets app]; [apply an_dash|auto]. Qed.

  (** The tokens of a line without keys. *)
  Definition mark (t : token) : Prop := exists c, t = TDash c \/ exists r, t = TItem c r.
  Lemma annotated_marks d ts ts' : Forall mark d -> Annotated (docs_of y) ts ts' -> Annotated (docs_of y) (d ++ ts)%list (d ++ ts')%list.
  Proof. induction 1 as [|t d (c & [->|(r & ->)]) F IH]; intros A; cbn [app]; [auto|apply an_dash; auto|apply an_item; auto]. Qed.
  Lemma nested_tail E1 Q i ll tt : Tokens E1 Q i ll tt -> forall n rest ls, ll = (pad n ++ "- " ++ rest) :: ls -> ~ In (char 58) (chars rest) ->
    exists d ts, tt = (d ++ ts)%list /\ Tokens E1 Q (S i) ls ts /\ Forall mark d /\
      forall E2 j ls' ts', Tokens E2 any (S j) ls' ts' -> Tokens E2 any j ((pad n ++ "- " ++ rest) :: ls') (d ++ ts')%list.
  Proof.
    induction 1 as [i|i l ls ts I H IH|i n dash key rest ls ts K Sp NH H IH|i n dash key rest folded ch m body text ls ts K Hh L Qb C D H IH|i n rest ls ts Hp H IH|i n rest ls ts Sg H IH]; intros n0 r0 ls0 E N.
    - discriminate.
    - exfalso. injection E as E _. destruct I as (k & r & -> & [->|(t & ->)]); cbn [append] in E.
      + rewrite app_nil_r_s in E. revert E. apply pad_no. cbv; discriminate.
      + apply pad_first in E as En; [|cbv; discriminate|cbv; discriminate]. subst k. apply app_inj_l in E. discriminate.
    - exfalso. injection E as E _. apply N. assert (J : In (char 58) (chars (key_at n dash key rest))) by (unfold key_at; rewrite !chars_app, !in_app_iff; right; right; right; left; left; reflexivity).
      rewrite E, chars_app, in_app_iff in J. destruct J as [J|[J|[J|J]]]; [exfalso|discriminate|discriminate|exact J]. clear -J. induction n0 as [|n0 IH]; [contradiction|]. destruct J as [J|J]; [discriminate|auto].
    - exfalso. injection E as E _. apply N. assert (J : In (char 58) (chars (key_at n dash key rest))) by (unfold key_at; rewrite !chars_app, !in_app_iff; right; right; right; left; left; reflexivity).
      rewrite E, chars_app, in_app_iff in J. destruct J as [J|[J|[J|J]]]; [exfalso|discriminate|discriminate|exact J]. clear -J. induction n0 as [|n0 IH]; [contradiction|]. destruct J as [J|J]; [discriminate|auto].
    - injection E as E <-. cbn [append] in E. apply pad_first in E as En; [|cbv; discriminate|cbv; discriminate]. subst n0. apply app_inj_l in E. injection E as <-.
      destruct (IH (n + 2) rest ls eq_refl) as (d & ts' & -> & A1 & A2 & A3); [intros J; apply N; right; right; exact J|].
      exists (TDash n :: d), ts'. split; [reflexivity|]. split; [exact A1|]. split; [constructor; [exists n; auto|exact A2]|]. intros E2 j ls' ts'' T2. cbn [app]. apply (tk_nested E2 any j n rest); [exact I|auto].
    - injection E as E <-. cbn [append] in E. apply pad_first in E as En; [|cbv; discriminate|cbv; discriminate]. subst n0. apply app_inj_l in E. injection E as <-.
      exists [TItem n rest], ts. split; [reflexivity|]. split; [exact H|]. split; [constructor; [exists n; right; eexists; reflexivity|constructor]|]. intros E2 j ls' ts'' T2. cbn [app]. now apply tk_item.
  Qed.

  (** A line with a key; [tok i c]: its token; [more]: the lines of a literal text below it. *)
  Lemma copied_key i n dash key rest more ls ts b bm bs (tok : nat -> nat -> token) :
    key_name key -> nth_error (y_lines y) i = Some (key_at n dash key rest) -> line_block y i (key_at n dash key rest) b ->
    Forall (fun l => plainly l) more -> List.concat bm = more ->
    (forall n' dash' flat, column n' dash' = column n dash -> (ls = [] <-> flat = []) -> (forall m, dedented m ls -> dedented m flat) -> (forall j, exists ts', Tokens E0 any j flat ts' /\ Annotated (docs_of y) ts ts') ->
      forall j, exists ts'', Tokens E0 any j (key_at n' dash' key rest :: (more ++ flat))%list (bullets n' dash' ++ tok j (column n dash) :: ts'')%list /\ Annotated (docs_of y) ts ts'') ->
    (forall i' ts ts', docs_of y i key None -> Annotated (docs_of y) ts ts' -> Annotated (docs_of y) (tok i (column n dash) :: ts) (tok i' (column n dash) :: ts')) ->
    (forall i' j t ts ts', docs_of y i key (Some t) -> Annotated (docs_of y) ts ts' -> Annotated (docs_of y) (tok i (column n dash) :: ts) (TText j (column n dash) (doc_name key) t :: tok i' (column n dash) :: ts')) ->
    copied ls ts bs ->
    copied (key_at n dash key rest :: (more ++ ls))%list (bullets n dash ++ tok i (column n dash) :: ts)%list (b :: (bm ++ bs))%list.
  Proof.
    intros K N B Pm Em Htok An Ad (flat & E1 & E2 & E6 & E3 & E4 & E5).
    assert (Pl : plainly (key_at n dash key rest)) by (rewrite Forall_forall in P; apply P; eapply nth_error_In; eauto).
    destruct B as [B1 B2].
    assert (Alone : b = [key_at n dash key rest] -> docs_of y i key None -> copied (key_at n dash key rest :: (more ++ ls))%list (bullets n dash ++ tok i (column n dash) :: ts)%list (b :: (bm ++ bs))%list).
    { intros -> Dn. exists (key_at n dash key rest :: (more ++ flat))%list. cbn [List.concat app unl]. rewrite concat_app, !unl_app, Em, E1.
      split; [reflexivity|]. split; [split; discriminate|]. split; [split; discriminate|]. split; [constructor; auto; apply Forall_app; auto|]. split; [intros m; apply dedented_head|].
      intros j. destruct (Htok n dash flat eq_refl E6 E4 E5 j) as (ts'' & A1 & A2). eexists. split; [exact A1|]. apply annotated_bullets. now apply An. }
    destruct (looked_or_skipped n dash key rest K) as [[L NS]|(-> & U & Sk)].
    2:{ apply Alone; [apply B1; now apply under_silent|]. exists (key_at n false key rest). split; [auto|]. left. auto. }
    destruct (B2 n dash key rest (key_name_doc key K) L (key_at_plain n dash key rest)) as (texts & F & Eb).
    assert (G := docs_good i _ texts (nth_error_In _ _ N) F). set (docs := filter _ texts) in *.
    destruct docs as [|d docs'] eqn:Ed.
    { apply Alone; [rewrite Eb; cbn [with_entry]; now rewrite key_at_plain|]. exists (key_at n dash key rest). split; [auto|]. right. split; [auto|]. exists texts. split; [auto|]. left. auto. }
    exists (entry_lines n dash key rest (d :: docs') ++ more ++ flat)%list. cbn [List.concat]. rewrite Eb, concat_app, !unl_app, Em, E1, unl_entry.
    split; [reflexivity|]. split; [split; discriminate|]. split; [split; discriminate|]. split; [apply Forall_app; split; [now apply entry_plain|apply Forall_app; auto]|]. split.
    { intros m Hm. apply dedented_key in Hm; auto. rewrite entry_lines_shape by discriminate. cbn [app]. apply dedented_key; [now apply doc_name_key|auto]. }
    assert (H : forall j, exists tk, Tokens E0 any j (key_at (column n dash) false key rest :: (more ++ flat))%list tk /\ exists j' ts'', tk = tok j' (column n dash) :: ts'' /\ Annotated (docs_of y) ts ts'').
    { intros j'. destruct (Htok (column n dash) false flat eq_refl E6 E4 E5 j') as (ts'' & A1 & A2). eexists. split; [exact A1|]. cbn [bullets app]. eauto. }
    intros j. destruct (entry_tokens E0 n dash key rest (d :: docs') (more ++ flat)%list _ K ltac:(discriminate) G H j) as (tk & A1 & j' & ts'' & -> & A2).
    eexists. split; [exact A1|]. apply annotated_bullets. apply Ad; [|exact A2].
    exists (key_at n dash key rest). split; [auto|]. right. split; [auto|]. exists texts. split; [auto|]. right. fold docs. rewrite Ed. split; [discriminate|reflexivity].
  Qed.

  Lemma copied_most : forall most i ls ts, List.length ls <= most -> Tokens E0 quiet i ls ts -> forall pre bs, y_lines y = (pre ++ ls)%list -> List.length pre = i -> Blocks y i ls bs -> copied ls ts bs.
  Proof.
    induction most as [|most IHm]; intros i0 ls0 ts0 Lm.
    { intros T2 pre bs E Lp B. destruct ls0; [|cbn in Lm; lia]. inversion T2; subst. inversion B; subst. exists []. repeat split; auto. intros j. exists []. split; constructor. }
    destruct 1 as [i|i l ls ts I H|i n dash key rest ls ts K Sp NH H|i n dash key rest folded ch m body text ls ts K Hh L Q C D H|i n rest ls ts Hp H|i n rest ls ts Sg H]; intros pre bs E Lp B;
      try (assert (IH := fun Z => IHm _ _ _ Z H); specialize (IH ltac:(cbn [List.length] in Lm; rewrite ?app_length in Lm; lia))).
    - inversion B; subst. exists []. repeat split; auto. intros j. exists []. split; constructor.
    - inversion B as [|? ? ? b bs' Hl Hr]; subst. assert (Pl : plainly l) by (rewrite Forall_forall in P; apply P; rewrite E, in_app_iff; right; now left).
      apply (copied_line l ls ts b bs' []); auto.
      + apply Hl. now apply idle_silent.
      + apply (IH (pre ++ [l])%list); auto; [now rewrite <- app_assoc|rewrite app_length; cbn; lia].
      + intros flat F j. destruct (F (S j)) as (ts' & A1 & A2). exists ts'. split; auto. now apply tk_idle.
    - inversion B as [|? ? ? b bs' Hl Hr]; subst.
      apply (copied_key (List.length pre) n dash key rest [] ls ts b [] bs' (fun k c => TKey k c key rest)); auto.
      + rewrite E, nth_error_app2, Nat.sub_diag by lia. reflexivity.
      + intros n' dash' flat Ec _ _ F j. destruct (F (S j)) as (ts' & A1 & A2). exists ts'. split; auto. rewrite <- Ec. now apply tk_key.
      + intros. now apply an_key.
      + intros. now apply an_key_doc.
      + apply (IH (pre ++ [key_at n dash key rest])%list); auto; [now rewrite <- app_assoc|rewrite app_length; cbn; lia].
    - inversion B as [|? ? ? b bs' Hl Hr]; subst. destruct (Blocks_app _ _ _ _ _ Hr) as (bm & bs & -> & Bm & Br).
      assert (Pb : Forall (fun l => plainly l) body).
      { rewrite E in P. apply Forall_app in P as [_ P']. inversion P' as [|? ? _ P'']; subst. now apply Forall_app in P'' as [P'' _]. }
      apply (copied_key (List.length pre) n dash key rest body ls ts b bm bs (fun k c => TText k c key text)); auto.
      + rewrite E, nth_error_app2, Nat.sub_diag by lia. reflexivity.
      + now apply (quiet_blocks y body (S (List.length pre)) bm).
      + intros n' dash' flat Ec Em De F j. destruct (F (S (j + List.length body))) as (ts' & A1 & A2). exists ts'. split; auto. rewrite <- Ec. apply tk_text with (folded := folded) (ch := ch) (m := m); auto.
        * destruct L as (first & more & empty & nn & L1 & L2 & L3 & L4 & L5 & L6). exists first, more, empty, nn. repeat (split; [assumption|]). split; [|assumption].
          destruct L5 as [[L5 ->]|(L5 & Z & ->)]; [left; split; [destruct L5; [auto|right; tauto]|auto]|right; tauto].
        * apply Forall_forall. intros x _. exact I.
        * now rewrite Ec.
      + intros. now apply an_text.
      + intros. now apply an_text_doc.
      + apply (IH (pre ++ key_at n dash key rest :: body)%list); auto; [rewrite <- app_assoc; exact E|rewrite app_length; cbn; lia].
    - assert (N : ~ In (char 58) (chars rest)).
      { destruct Hp as (k & r & E' & [->|[(c & t & -> & W & Nd & _)|(c & t & -> & W & N)]]).
        - exfalso. cbn [append] in E'. rewrite app_nil_r_s in E'. symmetry in E'. revert E'. apply pad_no. cbv; discriminate.
        - exfalso. cbn [append] in E'. apply pad_first in E' as En; [|cbv; discriminate|intros Z; apply W; unfold white; rewrite Z; cbn; tauto]. subst k. apply app_inj_l in E'. injection E' as <- _. now apply Nd.
        - intros J. apply N. rewrite !chars_app, !in_app_iff. auto. }
      assert (Pl : plainly (pad n ++ "- - " ++ rest)) by (rewrite Forall_forall in P; apply P; rewrite E, in_app_iff; right; now left).
      destruct (nested_tail _ _ _ _ _ H (n + 2) rest ls eq_refl N) as (d & ts' & -> & H' & F & R).
      inversion B as [|? ? ? b bs' Hl Hr]; subst.
      apply (copied_line (pad n ++ "- - " ++ rest) ls ts' b bs' (TDash n :: d)); auto.
      + apply Hl. now apply quiet_silent.
      + apply (IHm (S (List.length pre)) ls ts' ltac:(cbn [List.length] in Lm; lia) H' (app pre [pad n ++ "- - " ++ rest])); auto; [now rewrite <- app_assoc|rewrite app_length; cbn; lia].
      + intros flat G j. destruct (G (S j)) as (ts'' & A1 & A2). exists (TDash n :: (d ++ ts''))%list. split; [apply tk_nested; [exact I|now apply R]|]. cbn [app]. apply an_dash. now apply annotated_marks.
    - inversion B as [|? ? ? b bs' Hl Hr]; subst. assert (Pl : plainly (pad n ++ "- " ++ rest)) by (rewrite Forall_forall in P; apply P; rewrite E, in_app_iff; right; now left).
      apply (copied_line (pad n ++ "- " ++ rest) ls ts b bs' [TItem n rest]); auto.
      + apply Hl. now apply item_silent.
      + apply (IH (app pre [pad n ++ "- " ++ rest])); auto; [now rewrite <- app_assoc|rewrite app_length; cbn; lia].
      + intros flat F j. destruct (F (S j)) as (ts' & A1 & A2). exists (TItem n rest :: ts'). split; [now apply tk_item|now apply an_item].
  Qed.
  Lemma copied_all : forall i ls ts, Tokens E0 quiet i ls ts -> forall pre bs, y_lines y = (pre ++ ls)%list -> List.length pre = i -> Blocks y i ls bs -> copied ls ts bs.
  Proof. intros i ls ts H. exact (copied_most _ i ls ts (le_n _) H). Qed.
End Copy.

(** The line "---" is left alone. *)
Lemma marker_silent y i : comments_of_line y Spaces i marker = Val [].
Proof. reflexivity. Qed.
Lemma silent_blocks y : forall body i bs, Blocks y i body bs -> Forall (fun l => forall j, comments_of_line y Spaces j l = Val []) body -> List.concat bs = body.
Proof.
  induction body as [|l body IH]; intros i bs H Q; inversion H as [|? ? ? b bs' Hl Hr]; subst; [reflexivity|]. inversion Q; subst.
  cbn [List.concat]. rewrite (IH _ _ Hr) by auto. destruct Hl as [Hl _]. rewrite Hl by auto. reflexivity.
Qed.
Definition copied_file (y : yaml) (E0 : Prop) (ls : list string) (ts : list token) (bs : list (list string)) : Prop :=
  exists flat ts', unl (List.concat bs) = unl flat /\ (List.concat bs = [] <-> flat = []) /\ Forall (fun l => plainly l) flat /\ Contents E0 any flat ts' /\ Annotated (docs_of y) ts ts'.
Lemma copied_contents y E0 ls ts bs : Forall triple_free (y_lines y) -> Forall (fun l => plainly l) (y_lines y) -> y_lines y = ls ->
  Contents E0 quiet ls ts -> Blocks y 0 ls bs -> copied_file y E0 ls ts bs.
Proof.
  intros Tf P El C B. destruct C as [ls ts T|pre ls ts Ip T].
  - destruct (copied_all y Tf P E0 0 ls ts T [] bs El eq_refl B) as (flat & E1 & E2 & _ & E3 & _ & E5). destruct (E5 0) as (ts' & A1 & A2).
    exists flat, ts'. repeat (split; [assumption|]). split; [now apply cs_bare|exact A2].
  - change (marker :: ls) with ([marker] ++ ls)%list in El, B. rewrite app_assoc in El, B. destruct (Blocks_app _ _ _ _ _ B) as (x & z & -> & Bx & Bz).
    assert (Pp : Forall (fun l => plainly l) (pre ++ [marker])%list) by (rewrite El in P; now apply Forall_app in P).
    assert (Ex : List.concat x = (pre ++ [marker])%list).
    { eapply silent_blocks; [exact Bx|]. apply Forall_app in Pp as [Pp _]. apply Forall_app. split; [|constructor; [intros j; apply marker_silent|constructor]].
      rewrite Forall_forall in *. intros l Hl j. apply idle_silent; auto. }
    assert (Ll : List.length (pre ++ [marker])%list = S (List.length pre)) by (rewrite app_length; cbn; lia). rewrite Ll in Bz.
    destruct (copied_all y Tf P E0 _ ls ts T (pre ++ [marker])%list z El Ll Bz) as (flat & E1 & E2 & _ & E3 & _ & E5). destruct (E5 (S (List.length pre))) as (ts' & A1 & A2).
    exists (pre ++ marker :: flat)%list, ts'. rewrite concat_app, Ex. change (marker :: flat) with ([marker] ++ flat)%list. rewrite app_assoc, !unl_app, E1. split; [reflexivity|].
    split; [split; intros Z; destruct pre; discriminate Z|]. split; [apply Forall_app; auto|]. split; [rewrite <- app_assoc; now apply cs_marked|exact A2].
Qed.

(** ** A last empty line *)
Lemma snoc_inv {A} (l l' : list A) x z : (l ++ [x])%list = (l' ++ [z])%list -> l = l' /\ x = z.
Proof. apply app_inj_tail. Qed.
Lemma drop_last_tokens Q0 i ls ts : Tokens False Q0 i ls ts -> forall ls', ls = (ls' ++ [""])%list -> Tokens True Q0 i ls' ts.
Proof.
  induction 1 as [i|i l ls ts I H IH|i n dash key rest ls ts K Sp NH H IH|i n dash key rest folded ch m body text ls ts K Hh L Q C D H IH|i n rest ls ts Hp H IH|i n rest ls ts Sg H IH]; intros ls' E.
  - destruct ls'; discriminate.
  - destruct ls' as [|x ls']; [injection E as -> ->; inversion H; subst; constructor|]. injection E as -> E. apply tk_idle; auto.
  - destruct ls' as [|x ls'].
    { injection E as E _. destruct (key_at_first n dash key rest K) as (c & r & E' & _). rewrite E' in E. destruct n; discriminate. }
    injection E as <- E. apply tk_key; auto.
  - destruct ls' as [|x ls'].
    { injection E as E _. destruct (key_at_first n dash key rest K) as (c & r & E' & _). rewrite E' in E. destruct n; discriminate. }
    injection E as <- E. destruct ls as [|z ls] using rev_ind.
    + rewrite app_nil_r in E. subst body. inversion H; subst. rewrite <- (app_nil_r ls'). apply tk_text with (folded := folded) (ch := ch) (m := m); auto.
      * destruct L as (first & more & empty & nn & F & Hf & He & Hl & Hb & Ht). destruct empty as [|e empty] using rev_ind.
        { exfalso. rewrite app_nil_r in F. apply Hl. clear -F.
          assert (G : forall a (b : list string), Forall2 (content m) a b -> forall u, a = (u ++ [""])%list -> last b "" = "").
          { intros a b F'. induction F' as [|l c a b X F' IH]; intros u E; [destruct u; discriminate|]. destruct u as [|x u].
            - injection E as -> ->. inversion F'; subst. cbn. destruct X as [X|[X _]]; [|exact X]. destruct c; auto. destruct m; discriminate.
            - injection E as -> E. specialize (IH u E). destruct b; [inversion F'; subst; destruct u; discriminate|exact IH]. }
          exact (G _ _ F ls' eq_refl). }
        clear IHempty. apply Forall_app in He as [He _]. exists first, more, empty, nn. rewrite app_assoc in F. apply Forall2_app_inv_r in F as (b1 & b2 & F1 & F2 & E).
        inversion F2 as [|? ? b3 ? F3 F4]; subst. inversion F4; subst. apply snoc_inv in E as [-> _]. repeat (split; [assumption|]). split; [|first [assumption|reflexivity]].
        left. split; [left; exact I|]. destruct Hb as [[[[]|Z] _]|(_ & _ & ->)]; [congruence|]. rewrite app_length. cbn [List.length]. lia.
      * now apply Forall_app in Q as [Q _].
      * constructor.
    + rewrite app_assoc in E. apply snoc_inv in E as [<- ->]. apply tk_text with (folded := folded) (ch := ch) (m := m); auto.
      { destruct L as (first & more & empty & nn & L1 & L2 & L3 & L4 & L5 & L6). exists first, more, empty, nn. repeat (split; [assumption|]). split; [|assumption].
        left. split; [left; exact I|]. destruct L5 as [[_ ->]|(_ & Z & _)]; [reflexivity|destruct ls; discriminate]. }
      destruct ls as [|u ls]; [left; reflexivity|]. right. destruct D as [D|(k & c & r & l' & D & X)]; [discriminate|]. injection D as -> _. exists k, c, r, ls. auto.
  - destruct ls' as [|x ls'].
    { injection E as E _. destruct n; discriminate. }
    injection E as <- E. apply tk_nested; [exact Hp|]. apply (IH ((pad (n + 2) ++ "- " ++ rest) :: ls')). now rewrite E.
  - destruct ls' as [|x ls'].
    { injection E as E _. destruct n; discriminate. }
    injection E as <- E. apply tk_item; auto.
Qed.
Lemma drop_last_contents Q0 ls ts : Contents False Q0 ls ts -> forall ls', ls = (ls' ++ [""])%list -> Contents True Q0 ls' ts.
Proof.
  intros [l t T|pre l t I T] ls' E; [apply cs_bare; eapply drop_last_tokens; eauto|]. destruct l as [|z l] using rev_ind.
  - apply snoc_inv in E as [_ E]. discriminate E.
  - clear IHl. change (marker :: l ++ [z])%list with ((marker :: l) ++ [z])%list in E. rewrite app_assoc in E. apply snoc_inv in E as [<- ->]. apply cs_marked; [exact I|]. eapply drop_last_tokens; eauto.
Qed.
