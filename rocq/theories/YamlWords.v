(** The words of a block comment. *)
From Coq Require Import Ascii String List Bool Arith ZArith Lia.
From Verif Require Import PyStr PyStrFacts Exc Yaml SpecNames SpecText SpecImports NamesFacts DocstringFacts SpecYaml
  YamlFacts YamlLines YamlComments.
Import ListNotations.
Local Open Scope string_scope.
Local Open Scope nat_scope.

(** ** Words and concatenation *)
Lemma split_ws_blank_r s b : str_forall is_space b = true -> split_ws (s ++ b) = split_ws s.
Proof.
  destruct b as [|c b]; intros H; [now rewrite app_nil_r_s|]. simpl in H. apply andb_true_iff in H as [Hc Hb].
  rewrite split_ws_sep by auto. rewrite <- (app_nil_r_s b), split_ws_blank_l by auto.
  change (split_ws "") with (@nil string). now rewrite app_nil_r.
Qed.
Lemma split_ws_strip s : split_ws (strip s) = split_ws s.
Proof.
  destruct (strip_by_spec is_space s) as (a & b & E & Ha & Hb). fold (strip s) in E. rewrite E at 2.
  now rewrite split_ws_blank_l, split_ws_blank_r.
Qed.
Lemma last_word_aux u c : forall acc, non_space acc = true -> is_space c = false ->
  exists ws w0, forall x, non_space x = true ->
    split_ws_aux (u ++ String c x) acc = app ws [w0 ++ String c x].
Proof.
  induction u as [|d u IH]; intros acc Ha Hc.
  - exists [], acc. intros x Hx. cbn [String.append].
    rewrite <- (app_nil_r_s (String c x)) at 1. rewrite split_ws_aux_app.
    + simpl. destruct (acc ++ String c x) eqn:E; [|reflexivity]. destruct acc; discriminate.
    + unfold non_space in *. simpl. now rewrite Hc, Hx.
  - cbn [String.append split_ws_aux]. destruct (is_space d) eqn:Ed.
    + destruct (IH "" eq_refl Hc) as (ws & w0 & H). destruct acc as [|y acc].
      * exists ws, w0. exact H.
      * exists (String y acc :: ws), w0. intros x Hx. rewrite (H x Hx). reflexivity.
    + apply IH; [|auto]. unfold non_space in *. rewrite str_forall_app, Ha. simpl. now rewrite Ed.
Qed.
Lemma last_word u c : is_space c = false ->
  exists ws w0, split_ws (u ++ String c "") = app ws [w0 ++ String c ""] /\
                split_ws (u ++ String c ".") = app ws [w0 ++ String c "."].
Proof.
  intros Hc. destruct (last_word_aux u c "" eq_refl Hc) as (ws & w0 & H). exists ws, w0. split; now apply H.
Qed.
Lemma first_word_aux r : exists w ws, forall acc, acc <> "" -> split_ws_aux r acc = (acc ++ w) :: ws.
Proof.
  induction r as [|c r IH]; simpl.
  - exists "", []. intros [|a acc] H; [congruence|]. now rewrite app_nil_r_s.
  - destruct (is_space c).
    + exists "", (split_ws_aux r ""). intros [|a acc] H; [congruence|]. now rewrite app_nil_r_s.
    + destruct IH as (w & ws & H). exists (String c w), ws. intros acc Ha. rewrite H.
      * now rewrite app_assoc_s.
      * destruct acc; discriminate.
Qed.
Lemma first_word r : exists w ws, forall h, h <> "" -> non_space h = true -> split_ws (h ++ r) = (h ++ w) :: ws.
Proof.
  destruct (first_word_aux r) as (w & ws & H). exists w, ws. intros h H1 H2. unfold split_ws.
  rewrite split_ws_aux_app by auto. apply (H h H1).
Qed.

(** ** Capitalising *)
Definition upper_ofb (c : ascii) (u : string) : bool :=
  String.eqb u (String c "")
  || (match u with String d "" => Nat.eqb (ord d + 32) (ord c) | _ => false end)
  || (Nat.eqb (ord c) 223 && String.eqb u "SS").
Lemma upper_ofb_spec c u : upper_ofb c u = true -> upper_of c u.
Proof.
  unfold upper_ofb, upper_of. rewrite !orb_true_iff. intros [[H|H]|H].
  - left. now apply String.eqb_eq.
  - right. left. destruct u as [|d [|? ?]]; try discriminate. exists d. split; [auto|]. now apply Nat.eqb_eq.
  - right. right. apply andb_true_iff in H as [H1 H2]. split; [now apply Nat.eqb_eq|now apply String.eqb_eq].
Qed.
Lemma upper_char_of c : upper_of c (upper_char c).
Proof.
  apply upper_ofb_spec.
  assert (H : upper_ofb c (upper_char c) = true) by by_chars c. exact H.
Qed.
Lemma upper_char_non_space c : is_space c = false -> upper_char c <> "" /\ non_space (upper_char c) = true.
Proof.
  intros H.
  assert (G : (is_space c || (negb (String.eqb (upper_char c) "") && non_space (upper_char c))) = true) by by_chars c.
  rewrite H in G. simpl in G. apply andb_true_iff in G as [G1 G2]. split; [|auto].
  intros E. rewrite E in G1. discriminate.
Qed.
(** Words that were only capitalised (no period yet). *)
Inductive capped : string -> string -> Prop :=
  | capped_same : forall w, capped w w
  | capped_upper : forall c t, capped (String c t) (upper_char c ++ t).
Definition dotted (w w' : string) : Prop := exists v, capped w v /\ (w' = v \/ w' = v ++ ".").

Lemma capped_kept w v d : w <> "" -> capped w v -> d = "" \/ d = "." -> kept w (v ++ d).
Proof.
  intros Hw H Hd. destruct H as [w|c t].
  - destruct w as [|c t]; [congruence|]. change (String c t ++ d) with (String c "" ++ t ++ d).
    constructor; [left; reflexivity|auto].
  - rewrite app_assoc_s. constructor; [apply upper_char_of|auto].
Qed.
Lemma capped_nonnil w v : capped w v -> w <> "" -> v <> "".
Proof.
  intros [u|c t]; [auto|]. intros _ E. apply app_eq_nil_s in E as [E _].
  assert (G : negb (String.eqb (upper_char c) "") = true) by by_chars c. rewrite E in G. discriminate.
Qed.

Lemma split_ws_cap s : (exists c r, s = String c r /\ is_space c = false) ->
  Forall2 capped (split_ws s) (split_ws (capitalize_first s)).
Proof.
  intros (c & r & -> & Hc). simpl. destruct (first_word r) as (w & ws & H).
  change (String c r) with (String c "" ++ r).
  destruct (upper_char_non_space c Hc) as [U1 U2].
  rewrite (H _ U1 U2). rewrite (H (String c "")); [|discriminate|unfold non_space; simpl; now rewrite Hc].
  clear H. constructor; [apply (capped_upper c w)|]. induction ws; constructor; auto using capped_same.
Qed.

(** ** Joining *)
Definition trimmed (l : string) : Prop :=
  l = "" \/ ((exists c r, l = String c r /\ is_space c = false) /\ exists r c, l = r ++ String c "" /\ is_space c = false).

Lemma rstrip_id p r c : p c = false -> rstrip_by p (r ++ String c "") = r ++ String c "".
Proof.
  intros H. induction r as [|d r IH]; simpl; [now rewrite H|]. rewrite IH. destruct (r ++ String c "") eqn:E; [|auto].
  destruct r; discriminate.
Qed.
Lemma trimmed_strip l : trimmed l -> strip l = l.
Proof.
  intros [->|[(c & r & -> & Hc) (r' & c' & E & Hc')]]; [reflexivity|]. unfold strip, strip_by. simpl. rewrite Hc.
  change (rstrip_by is_space (String c r) = String c r). rewrite E. now apply rstrip_id.
Qed.
Lemma strip_trimmed s : trimmed (strip s).
Proof.
  destruct (strip_Trimmed s) as (_ & _ & _ & _ & _ & [H|(c & r & H & Hc)] & [H'|(r' & c' & H' & Hc')]); try (left; assumption).
  right. split; [exists c, r|exists r', c']; (split; [assumption|]); apply not_true_iff_false; rewrite is_space_white; auto.
Qed.

Lemma ends_dot_spec s : ends_dot s = true <-> exists u, s = u ++ ".".
Proof. apply endswith_spec. Qed.
Lemma ends_nl_spec s : ends_nl s = true <-> exists u, s = u ++ nl.
Proof. apply endswith_spec. Qed.

Definition last_char (p : ascii -> Prop) (s : string) : Prop := exists u c, s = u ++ String c "" /\ p c.

(** State of the loop after at least one non-empty line. *)
Definition state_ok (ws : list string) (result : string) : Prop :=
  Forall2 dotted ws (split_ws result) /\
  (last_char (fun c => is_space c = false) result \/ ends_nl result = true).

Lemma capped_dotted l l' : Forall2 capped l l' -> Forall2 dotted l l'.
Proof. induction 1; constructor; auto. exists y. auto. Qed.
Lemma capped_refl l : Forall2 capped l l.
Proof. induction l; constructor; auto using capped_same. Qed.

Lemma Forall2_snoc_inv {A B} (R : A -> B -> Prop) l l' b : Forall2 R l (l' ++ [b])%list ->
  exists l0 a, l = (l0 ++ [a])%list /\ Forall2 R l0 l' /\ R a b.
Proof.
  intros H. apply Forall2_app_inv_r in H as (l0 & l1 & H1 & H2 & ->). inversion H2 as [|a ? ? ? H3 H4]; subst.
  inversion H4; subst. eauto.
Qed.

Lemma add_dot ws result : Forall2 dotted ws (split_ws result) ->
  last_char (fun c => is_space c = false) result -> ends_dot result = false ->
  Forall2 dotted ws (split_ws (result ++ ".")).
Proof.
  intros H (u & c & -> & Hc) D. destruct (last_word u c Hc) as (ws2 & w0 & E1 & E2).
  rewrite app_assoc_s. change (String c "" ++ ".") with (String c "."). rewrite E2. rewrite E1 in H.
  apply Forall2_snoc_inv in H as (l0 & a & -> & H1 & (v & Hv & [E|E])).
  - apply Forall2_app; [auto|]. constructor; [|constructor]. exists v. split; [auto|]. right.
    rewrite <- E, app_assoc_s. reflexivity.
  - exfalso. apply not_true_iff_false in D. apply D. apply ends_dot_spec. exists u.
    assert (X : c = "."%char).
    { pose proof (f_equal String.length E) as L. rewrite !length_app_s in L. simpl in L.
      destruct (app_inj_len w0 v (String c "") ".") as [_ X]; [lia|auto|]. now injection X. }
    now rewrite X.
Qed.

Lemma ends_nl_split result x : ends_nl result = true -> split_ws (result ++ x) = (split_ws result ++ split_ws x)%list.
Proof.
  intros H. apply ends_nl_spec in H as (u & ->). rewrite app_assoc_s.
  change (nl ++ x) with (String (chr 10) x). rewrite split_ws_sep by reflexivity.
  unfold nl. rewrite split_ws_sep by reflexivity. change (split_ws "") with (@nil string). now rewrite app_nil_r.
Qed.
Lemma space_split result x : split_ws (result ++ " " ++ x) = (split_ws result ++ split_ws x)%list.
Proof. apply split_ws_sep. reflexivity. Qed.
Lemma dot_space_split result x : split_ws (result ++ ". " ++ x) = (split_ws (result ++ ".") ++ split_ws x)%list.
Proof.
  rewrite <- space_split. rewrite app_assoc_s. reflexivity.
Qed.

Lemma last_char_app p a b : last_char p b -> last_char p (a ++ b).
Proof. intros (u & c & -> & H). exists (a ++ u), c. now rewrite app_assoc_s. Qed.
Lemma last_char_cap l : (exists c r, l = String c r /\ is_space c = false) ->
  last_char (fun c => is_space c = false) l -> last_char (fun c => is_space c = false) (capitalize_first l).
Proof.
  intros (c & r & -> & Hc) (u & d & E & Hd). simpl. destruct r as [|y r].
  - rewrite app_nil_r_s. assert (G : (is_space c || match rev (chars (upper_char c)) with x :: _ => negb (is_space x) | [] => false end) = true) by by_chars c.
    rewrite Hc in G. simpl in G. destruct (rev (chars (upper_char c))) as [|x l] eqn:R; [discriminate|].
    assert (S : forall s x l, rev (chars s) = x :: l -> exists u, s = u ++ String x "").
    { clear. intros s. induction s as [|a s IH]; intros x l H; [discriminate|]. simpl in H.
      destruct (rev (chars s)) as [|b m] eqn:E.
      - simpl in H. injection H as -> _. destruct s; [exists ""; reflexivity|].
        apply (f_equal (@List.length ascii)) in E. rewrite rev_length in E. discriminate.
      - simpl in H. injection H as -> _. destruct (IH _ _ eq_refl) as (v & ->). exists (String a v). reflexivity. }
    destruct (S _ _ _ R) as (v & ->). exists v, x. split; [auto|]. now apply negb_true_iff.
  - apply last_char_app. destruct u as [|z u]; simpl in E; injection E as <- E; [discriminate|].
    exists u, d. auto.
Qed.

Lemma join_step_ok ws result l : trimmed l -> state_ok ws result ->
  state_ok (ws ++ split_ws l)%list (join_step false result l).
Proof.
  intros T [H S]. unfold join_step. destruct l as [|c l]; cbn [is_empty].
  - change (split_ws "") with (@nil string). rewrite app_nil_r. split.
    + assert (E : split_ws (result ++ nl ++ nl) = split_ws result); [|now rewrite E].
      apply split_ws_blank_r. reflexivity.
    + right. apply ends_nl_spec. exists (result ++ nl). now rewrite app_assoc_s.
  - rewrite (trimmed_strip _ T). destruct T as [T|[T1 T2]]; [discriminate|].
    set (x := String c l) in *.
    assert (Lx : last_char (fun c => is_space c = false) x) by (destruct T2 as (r & d & E & Hd); exists r, d; auto).
    assert (P : forall piece, piece = x \/ piece = capitalize_first x ->
              Forall2 dotted (split_ws x) (split_ws piece) /\ last_char (fun c => is_space c = false) piece).
    { intros piece [->| ->].
      - split; [apply capped_dotted, capped_refl|auto].
      - split; [apply capped_dotted, split_ws_cap; auto|now apply last_char_cap]. }
    assert (Sp : forall piece, piece = x \/ piece = capitalize_first x -> state_ok (ws ++ split_ws x)%list (result ++ " " ++ piece)).
    { intros piece Hp. destruct (P _ Hp) as [P1 P2]. split; [rewrite space_split; now apply Forall2_app|].
      left. apply last_char_app, last_char_app. exact P2. }
    assert (Nl : forall piece, ends_nl result = true -> piece = x \/ piece = capitalize_first x -> state_ok (ws ++ split_ws x)%list (result ++ piece)).
    { intros piece E Hp. destruct (P _ Hp) as [P1 P2]. split; [rewrite ends_nl_split by auto; now apply Forall2_app|].
      left. now apply last_char_app. }
    destruct (starts_upper x); destruct (ends_dot result) eqn:D; auto; destruct (ends_nl result) eqn:N; auto.
    destruct S as [S|S]; [|congruence]. split.
    + rewrite dot_space_split. apply Forall2_app; [|apply P; auto]. now apply add_dot.
    + left. apply last_char_app, last_char_app. exact Lx.
Qed.
Lemma joined_ok ls : forall ws result, Forall trimmed ls -> state_ok ws result ->
  state_ok (ws ++ flat_map split_ws ls)%list (joined false result ls).
Proof.
  induction ls as [|l ls IH]; intros ws result F H; simpl; [now rewrite app_nil_r|].
  inversion F; subst. rewrite app_assoc. apply IH; [auto|]. now apply join_step_ok.
Qed.
Lemma joined_last ls l result : l <> "" -> trimmed l -> last_char (fun c => is_space c = false) (joined false result (ls ++ [l])%list).
Proof.
  revert result; induction ls as [|x ls IH]; intros result N T; simpl; [|auto].
  unfold join_step. destruct l as [|c l]; [congruence|]. cbn [is_empty]. rewrite (trimmed_strip _ T).
  destruct T as [T|[T1 T2]]; [discriminate|].
  assert (Lx : last_char (fun c => is_space c = false) (String c l)) by (destruct T2 as (r & d & E & Hd); exists r, d; auto).
  pose proof (last_char_cap _ T1 Lx) as Lc.
  destruct (starts_upper (String c l)); destruct (ends_dot result); try destruct (ends_nl result);
    repeat (first [assumption | apply last_char_app]).
Qed.

Lemma drop_empty_spec l : exists n, l = (repeat "" n ++ drop_empty l)%list /\
  (drop_empty l = [] \/ exists x r, drop_empty l = x :: r /\ x <> "").
Proof.
  induction l as [|x l IH]; simpl; [exists 0; auto|]. destruct x as [|c x].
  - destruct IH as (n & E & H). exists (S n). simpl. split; [congruence|auto].
  - exists 0. simpl. split; [auto|]. right. exists (String c x), l. split; [auto|discriminate].
Qed.
Lemma flat_map_empties n : flat_map split_ws (repeat "" n) = [].
Proof. induction n; auto. Qed.
Lemma trim_lines_spec l : let m := rev (drop_empty (rev (drop_empty l))) in
  flat_map split_ws m = flat_map split_ws l /\ (forall x, In x m -> In x l) /\
  (m = [] \/ (exists x r, m = x :: r /\ x <> "") /\ exists r x, m = (r ++ [x])%list /\ x <> "").
Proof.
  cbv zeta. destruct (drop_empty_spec l) as (n & E & H).
  destruct (drop_empty_spec (rev (drop_empty l))) as (k & E2 & H2).
  set (d := drop_empty l) in *. set (m := drop_empty (rev d)) in *. clearbody m. 
  assert (E3 : d = (rev m ++ repeat "" k)%list).
  { rewrite <- (rev_involutive d), E2, rev_app_distr. f_equal.
    clear. induction k; simpl; auto. rewrite IHk. clear. induction k; simpl; congruence. }
  split; [|split].
  - rewrite E, E3, !flat_map_app, !flat_map_empties, app_nil_r. reflexivity.
  - intros x Hx. rewrite E, E3, !in_app_iff. auto.
  - destruct H2 as [->|(x & r & -> & Hx)]; [auto|]. right. split.
    + destruct H as [H|(y & t & H & Hy)].
      * rewrite H in E2. simpl in E2. destruct k; discriminate.
      * simpl. rewrite H in E3. simpl in E3. destruct (rev r) as [|z rr] eqn:R; simpl in *.
        -- exists x, []. auto.
        -- exists z, (rr ++ [x])%list. split; [auto|]. injection E3 as -> _. auto.
    + simpl. exists (rev r), x. auto.
Qed.

Lemma join_comments_words ls : Forall trimmed ls ->
  Forall2 dotted (flat_map split_ws ls) (split_ws (join_comments ls)) /\
  (join_comments ls = "" \/ exists u, join_comments ls = u ++ ".").
Proof.
  intros F. unfold join_comments. destruct (trim_lines_spec ls) as (E & I & C).
  set (m := rev (drop_empty (rev (drop_empty ls)))) in *. clearbody m. rewrite <- E.
  destruct C as [->|[(x & r & -> & Hx) (r' & x' & E' & Hx')]]; [split; [constructor|auto]|].
  assert (Fm : Forall trimmed (x :: r)).
  { rewrite Forall_forall in *. intros y Hy. apply F, I, Hy. }
  assert (S : state_ok (flat_map split_ws (x :: r)) (joined true "" (x :: r)) /\
              last_char (fun c => is_space c = false) (joined true "" (x :: r))).
  { cbn [joined flat_map]. inversion Fm as [|? ? Tx Fr]; subst.
    assert (J : join_step true "" x = x).
    { unfold join_step. destruct x; [congruence|]. cbn [is_empty]. rewrite (trimmed_strip _ Tx). reflexivity. }
    rewrite J.
    assert (Lx : last_char (fun c => is_space c = false) x).
    { destruct Tx as [Tx|[_ (u & d & Eu & Hd)]]; [congruence|]. exists u, d. auto. }
    split.
    - apply joined_ok; [auto|]. split; [apply capped_dotted, capped_refl|auto].
    - destruct r' as [|y r'].
      + injection E' as -> ->. exact Lx.
      + injection E' as -> ->. apply joined_last; [auto|]. rewrite Forall_forall in Fr. apply Fr. rewrite in_app_iff. simpl; auto. }
  destruct S as [[S1 _] S2]. set (res := joined true "" (x :: r)) in *. clearbody res. cbv zeta.
  assert (Ne : is_empty res = false).
  { destruct S2 as (u & c & -> & _). destruct u; reflexivity. }
  rewrite Ne. destruct (ends_dot res) eqn:D.
  - split; [auto|]. right. now apply ends_dot_spec.
  - split; [now apply add_dot|]. right. eauto.
Qed.

(** ** Removing triple quotes *)
Definition triple (q : ascii) : string := String q (String q (String q "")).
Lemma replace_id old new n s : contains old s = false -> replace_fuel n old new s = s.
Proof.
  revert s; induction n as [|n IH]; intros s H; [reflexivity|]. destruct s as [|c s]; [reflexivity|].
  cbn [replace_fuel contains] in *. apply orb_false_iff in H as [-> H]. now rewrite IH.
Qed.
Lemma replace_ends_dot q n : q <> "."%char -> forall s, String.length s <= n ->
  (exists u, s = u ++ ".") -> exists u, replace_fuel n (triple q) "" s = u ++ ".".
Proof.
  intros Hq. induction n as [|n IH]; intros s L (u & ->); [destruct u; simpl in L; lia|].
  destruct u as [|c u].
  - exists "". cbn. destruct (Ascii.eqb q ".") eqn:E; [apply Ascii.eqb_eq in E; contradiction|]. cbn. destruct n; reflexivity.
  - cbn [String.append replace_fuel]. destruct (startswith (triple q) (String c (u ++ "."))) eqn:E.
    + apply startswith_spec in E as (r & E). cbn [triple String.append] in E. injection E as -> E.
      destruct u as [|c1 u]; [simpl in E; injection E as E _; congruence|]. simpl in E. injection E as -> E.
      destruct u as [|c2 u]; [simpl in E; injection E as E _; congruence|]. simpl in E. injection E as -> E.
      cbn [triple String.append String.length drop]. apply IH; [simpl in L; rewrite E, <- E; lia|]. exists u. reflexivity.
    + destruct (IH (u ++ ".")) as (v & ->); [simpl in L; lia|eauto|]. exists (String c v). reflexivity.
Qed.
Lemma docstring_dot texts : Forall trimmed texts -> docstring_of texts = "" \/ exists u, docstring_of texts = u ++ ".".
Proof.
  intros F. unfold docstring_of. destruct (join_comments_words texts F) as [_ [->|H]]; [left; reflexivity|]. right.
  unfold replace. apply (replace_ends_dot dquote); [discriminate|reflexivity|].
  apply (replace_ends_dot squote_c); [discriminate|reflexivity|auto].
Qed.

Lemma startswith_sep sub x c y : str_forall (fun d => negb (Ascii.eqb c d)) sub = true ->
  startswith sub (x ++ String c y) = true -> startswith sub x = true.
Proof.
  revert x; induction sub as [|d sub IH]; intros x H S; [destruct x; reflexivity|].
  simpl in H. apply andb_true_iff in H as [H1 H2]. destruct x as [|e x]; cbn in *.
  - apply andb_true_iff in S as [S1 S2]. rewrite Ascii.eqb_sym, S1 in H1. discriminate.
  - apply andb_true_iff in S as [-> S2]. cbn. auto.
Qed.
Lemma contains_sep sub x c y : sub <> "" -> str_forall (fun d => negb (Ascii.eqb c d)) sub = true ->
  contains sub (x ++ String c y) = true -> contains sub x = true \/ contains sub y = true.
Proof.
  intros N H. induction x as [|d x IH]; cbn [String.append contains]; intros S; apply orb_true_iff in S as [S|S].
  - exfalso. pose proof (startswith_sep sub "" c y H S). destruct sub; [congruence|discriminate].
  - auto.
  - left. apply orb_true_iff. left. apply (startswith_sep sub (String d x) c y H S).
  - destruct (IH S) as [->|?]; [left; apply orb_true_r|auto].
Qed.
Lemma contains_word_aux sub s : sub <> "" -> str_forall (fun d => negb (is_space d)) sub = true -> forall acc,
  contains sub (acc ++ s) = true -> exists w, In w (split_ws_aux s acc) /\ contains sub w = true.
Proof.
  intros N H. induction s as [|c s IH]; intros acc C; simpl.
  - rewrite app_nil_r_s in C. destruct acc; [destruct sub; [congruence|discriminate]|]. eexists. split; [left; reflexivity|auto].
  - destruct (is_space c) eqn:E.
    + assert (Hc : str_forall (fun d => negb (Ascii.eqb c d)) sub = true).
      { eapply str_forall_impl; [|exact H]. intros d Hd. apply negb_true_iff in Hd. apply negb_true_iff, Ascii.eqb_neq. congruence. }
      apply (contains_sep sub acc c s N Hc) in C as [C|C].
      * destruct acc; [destruct sub; [congruence|discriminate]|]. eexists. split; [left; reflexivity|auto].
      * destruct (IH "" C) as (w & Hw & Cw). exists w. split; [|auto]. destruct acc; [auto|right; auto].
    + apply IH. rewrite app_assoc_s. exact C.
Qed.
Lemma split_ws_sub_aux s : forall acc w, In w (split_ws_aux s acc) -> exists a b, acc ++ s = a ++ w ++ b.
Proof.
  induction s as [|c s IH]; intros acc w; simpl.
  - destruct acc as [|x acc]; [intros []|]. intros [<-|[]]. exists "", "". now rewrite !app_nil_r_s.
  - destruct (is_space c).
    + assert (G : In w (split_ws_aux s "") -> exists a b, acc ++ String c s = a ++ w ++ b).
      { intros H. destruct (IH _ _ H) as (a & b & E). simpl in E. exists (acc ++ String c a), b. rewrite E.
        now rewrite app_assoc_s. }
      destruct acc as [|x acc]; [auto|]. intros [<-|H]; [|auto]. exists "", (String c s). reflexivity.
    + intros H. destruct (IH _ _ H) as (a & b & E). exists a, b. rewrite <- E, app_assoc_s. reflexivity.
Qed.

Lemma triple_free_contains q s : quote q -> triple_free s -> contains (triple q) s = false.
Proof.
  intros Q H. apply not_true_iff_false. rewrite contains_spec. intros (a & b & E). exact (H q a b Q E).
Qed.
Lemma capped_triple q w v : q <> "."%char -> is_quote q = true -> capped w v -> contains (triple q) w = false -> contains (triple q) v = false.
Proof.
  intros Hd Hq [u|c t]; [auto|]. intros H. cbn [contains] in H. apply orb_false_iff in H as [H1 H2].
  assert (G : (String.eqb (upper_char c) (String c "") || str_forall (fun d => negb (is_quote d)) (upper_char c)) = true) by by_chars c.
  apply orb_true_iff in G as [G|G].
  - apply String.eqb_eq in G. rewrite G. cbn [String.append contains]. now rewrite H1, H2.
  - apply not_true_iff_false. intros C. assert (C2 : contains (triple q) t = true); [|congruence].
    clear H1 H2. revert C G. generalize (upper_char c). intros u0. induction u0 as [|d u IH]; intros C G; [exact C|].
    cbn [String.append contains] in C.
    simpl in G. apply andb_true_iff in G as [G1 G2]. apply IH; [|auto].
    apply orb_true_iff in C as [C|C]; [|auto]. exfalso. cbn in C. apply andb_true_iff in C as [C _].
    apply Ascii.eqb_eq in C. subst d. rewrite Hq in G1. discriminate.
Qed.
Lemma dotted_triple q w v : is_quote q = true -> dotted w v -> contains (triple q) w = false -> contains (triple q) v = false.
Proof.
  intros Hq (u & Hu & E) H. assert (Hd : q <> "."%char) by (intros ->; discriminate).
  pose proof (capped_triple q w u Hd Hq Hu H) as C. destruct E as [->| ->]; [auto|].
  apply not_true_iff_false. intros T. apply contains_sep in T; [|discriminate|].
  - destruct T as [T|T]; [congruence|discriminate].
  - unfold triple. cbn [str_forall]. destruct (Ascii.eqb "." q) eqn:E; [apply Ascii.eqb_eq in E; congruence|]. reflexivity.
Qed.
Lemma Forall2_In_r {A B} (R : A -> B -> Prop) l l' b : Forall2 R l l' -> In b l' -> exists a, In a l /\ R a b.
Proof.
  induction 1; intros H2; [destruct H2|]. destruct H2 as [<-|H2]; [exists x; simpl; auto|].
  destruct (IHForall2 H2) as (a & ? & ?). exists a. simpl. auto.
Qed.
Lemma join_triple_free q texts : is_quote q = true -> Forall trimmed texts -> Forall triple_free texts ->
  contains (triple q) (join_comments texts) = false.
Proof.
  intros Hq F T. apply not_true_iff_false. intros C. destruct (join_comments_words texts F) as [W _].
  assert (S : str_forall (fun d => negb (is_space d)) (triple q) = true).
  { assert (G : (negb (is_quote q) || negb (is_space q)) = true) by by_chars q. rewrite Hq in G. cbn in G.
    apply negb_true_iff in G. simpl. rewrite G. reflexivity. }
  destruct (contains_word_aux (triple q) _ ltac:(discriminate) S "" C) as (w' & Hw & Cw).
  destruct (Forall2_In_r _ _ _ _ W Hw) as (w & Hin & D).
  assert (Cf : contains (triple q) w = false); [|rewrite (dotted_triple q w w' Hq D Cf) in Cw; discriminate].
  apply in_flat_map in Hin as (t & Ht & Hwt). rewrite Forall_forall in T. specialize (T t Ht).
  apply split_ws_sub_aux in Hwt as (a & b & E). simpl in E.
  apply not_true_iff_false. rewrite contains_spec. intros (x & y & Ew). apply is_quote_spec in Hq.
  apply (T q (a ++ x) (y ++ b) Hq). rewrite E, Ew. unfold triple. now rewrite !app_assoc_s.
Qed.
Lemma docstring_words texts : Forall trimmed texts -> Forall triple_free texts ->
  docstring_of texts = join_comments texts.
Proof.
  intros F T. unfold docstring_of, replace.
  rewrite (replace_id sq3); [|apply (join_triple_free squote_c); auto].
  apply replace_id. apply (join_triple_free dquote); auto.
Qed.

(** ** The final docstring *)
Lemma capped_trans w v u : capped w v -> capped v u -> capped w u.
Proof.
  intros [x|c t] H; [exact H|].
  assert (G : match upper_char c with String d _ => String.eqb (upper_char d) (String d "") | _ => false end = true) by by_chars c.
  destruct (upper_char c) as [|d r] eqn:E; [discriminate|]. apply String.eqb_eq in G.
  inversion H as [x Ex|c' t' E1 E2]; subst.
  - rewrite <- E. constructor.
  - rewrite G. change (String d "" ++ r ++ t) with (String d r ++ t). rewrite <- E. constructor.
Qed.
Lemma capped_dot v u : v <> "" -> capped (v ++ ".") u -> exists v', capped v v' /\ u = v' ++ ".".
Proof.
  intros N H. inversion H as [x Ex|c t E1 E2]; subst.
  - exists v. split; [constructor|auto].
  - destruct v as [|d v]; [congruence|]. simpl in E1. injection E1 as -> ->. exists (upper_char d ++ v).
    split; [constructor|]. now rewrite app_assoc_s.
Qed.
Lemma dotted_capped_kept w v u : w <> "" -> dotted w v -> capped v u -> kept w u.
Proof.
  intros N (x & Hx & [->| ->]) H.
  - rewrite <- (app_nil_r_s u). apply capped_kept; auto. eapply capped_trans; eauto.
  - destruct (capped_dot x u) as (v' & H1 & ->); auto.
    + eapply capped_nonnil; eauto.
    + apply capped_kept; auto. eapply capped_trans; eauto.
Qed.
Lemma Forall2_compose l m n : Forall (fun w => w <> "") l -> Forall2 dotted l m -> Forall2 capped m n -> Forall2 kept l n.
Proof.
  intros F H. revert F n. induction H; intros F n H2; inversion H2; subst; inversion F; subst; constructor; eauto using dotted_capped_kept.
Qed.

Lemma join_comments_head texts : Forall trimmed texts -> join_comments texts = "" \/
  exists c r, join_comments texts = String c r /\ is_space c = false.
Proof.
  intros F. unfold join_comments. destruct (trim_lines_spec texts) as (E & I & C).
  set (m := rev (drop_empty (rev (drop_empty texts)))) in *. clearbody m.
  destruct C as [->|[(x & r & -> & Hx) _]]; [auto|]. right.
  assert (Tx : trimmed x) by (rewrite Forall_forall in F; apply F, I; simpl; auto).
  assert (J : exists c t, joined true "" (x :: r) = String c t /\ is_space c = false).
  { cbn [joined]. assert (J : join_step true "" x = x).
    { unfold join_step. destruct x; [congruence|]. cbn [is_empty]. rewrite (trimmed_strip _ Tx). reflexivity. }
    rewrite J. clear J. destruct Tx as [Tx|[(c & t & -> & Hc) _]]; [congruence|].
    clear -Hc. revert t. induction r as [|y r IH]; intros t; simpl joined; [eauto|].
    assert (P : exists t', join_step false (String c t) y = String c t').
    { unfold join_step. destruct (is_empty y); [simpl; eauto|].
      destruct (starts_upper y); destruct (ends_dot (String c t)); try destruct (ends_nl (String c t)); simpl; eauto. }
    destruct P as (t' & ->). apply IH. }
  destruct J as (c & t & J & Hc). rewrite J. cbv zeta. cbn [is_empty].
  destruct (ends_dot (String c t)); simpl; eauto.
Qed.

Lemma docstring_Doc texts : Forall trimmed texts -> Doc texts (capitalize_first (docstring_of texts)).
Proof.
  intros F. split.
  - destruct (docstring_dot texts F) as [->|(u & ->)]; [auto|]. right. destruct u as [|c u]; [exists ""; reflexivity|].
    exists (upper_char c ++ u). simpl. now rewrite app_assoc_s.
  - intros T. exists (map split_ws texts), (split_ws (capitalize_first (docstring_of texts))).
    split; [|split].
    + clear. induction texts; constructor; auto using Words_split_ws.
    + apply Words_split_ws.
    + rewrite <- flat_map_concat_map, docstring_words by auto.
      destruct (join_comments_words texts F) as [W _].
      eapply Forall2_compose; [|exact W|].
      * apply Forall_forall. intros w Hw. apply in_flat_map in Hw as (t & _ & Hw).
        pose proof (split_ws_words t) as P. rewrite Forall_forall in P. apply P, Hw.
      * destruct (join_comments_head texts F) as [->|H]; [constructor|]. now apply split_ws_cap.
Qed.
Lemma text_at_trimmed col l : Forall trimmed (map (text_at col) l).
Proof. apply Forall_forall. intros x Hx. apply in_map_iff in Hx as (y & <- & _). apply strip_trimmed. Qed.

(** ** Comments attached to a key *)
Theorem comment_below lines idx line col s :
  nth_error lines idx = Some line -> has_colon line -> key_column line col ->
  comment_at lines idx line Below = Val s ->
  exists block texts, block_below lines idx col block texts /\ Doc texts s.
Proof.
  intros N C K H. apply andthen_Val in H as (t & H & E). injection E as <-.
  rewrite (block_comment_below _ _ _ _ _ N C K H).
  eexists _, _. split; [apply below_block|]. apply docstring_Doc, text_at_trimmed.
Qed.
Theorem comment_above lines idx line col s :
  nth_error lines idx = Some line -> has_colon line -> key_column line col ->
  (exists l, In l (firstn idx lines) /\ forall t, ~ hash_at col l t) \/
  (forall l t, nth_error lines (List.length lines - 1) = Some l -> ~ hash_at col l t) ->
  comment_at lines idx line Above = Val s ->
  exists block texts, block_above lines idx col block texts /\ Doc texts s.
Proof.
  intros N C K W H. apply andthen_Val in H as (t & H & E). injection E as <-.
  rewrite (block_comment_above _ _ _ _ _ N C K H).
  eexists _, _. split; [apply above_block; exact W|]. apply docstring_Doc. apply Forall_rev, text_at_trimmed.
Qed.
