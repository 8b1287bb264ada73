(** Every recognised comment gets its entry, directly above the key's line. *)
From Coq Require Import Ascii String List Bool Arith ZArith Lia Sorted.
From Verif Require Import PyStr PyStrFacts Exc Yaml SpecNames SpecText SpecImports NamesFacts DocstringFacts SpecYaml
  YamlFacts YamlLines YamlComments YamlWords YamlMore.
Import ListNotations.
Local Open Scope string_scope.
Local Open Scope nat_scope.

(** What becomes of one line, given the comments of the file. *)
Definition line_out (cs : list comment) (idx : nat) (line : string) (block : list string) : Prop :=
  (block = [line] /\ forall c, In c cs -> key_line c <> idx) \/
  exists c e, In c cs /\ key_line c = idx /\ doc_entry c = Val e /\
    block = [e; if replaces_dash c then replace_first dash_c " " line else line].

Lemma nth_error_singletons {A} (l : list A) k : nth_error (map (fun x => [x]) l) k = option_map (fun x => [x]) (nth_error l k).
Proof. revert k; induction l; intros [|k]; simpl; auto. Qed.
Lemma concat_singletons {A} (l : list A) : List.concat (map (fun x => [x]) l) = l.
Proof. induction l; simpl; congruence. Qed.

Lemma insert_comments_blocks cs : forall lines out,
  StronglySorted lt (lines_of cs) -> (forall c, In c cs -> key_line c < List.length lines) ->
  insert_comments (rev cs) lines = Val out ->
  exists blocks, out = List.concat blocks /\ List.length blocks = List.length lines /\
    forall idx line, nth_error lines idx = Some line ->
      exists block, nth_error blocks idx = Some block /\ line_out cs idx line block.
Proof.
  induction cs as [|c cs IH] using rev_ind; intros lines out S I H.
  - injection H as <-. exists (map (fun x => [x]) lines). rewrite concat_singletons, map_length.
    split; [auto|]. split; [auto|]. intros idx line N. exists [line]. rewrite nth_error_singletons, N.
    split; [auto|]. left. simpl. tauto.
  - rewrite rev_app_distr in H. simpl in H. apply andthen_Val in H as (mid & H1 & H2).
    unfold lines_of in S. rewrite map_app in S. simpl in S. apply sorted_lt_snoc_inv in S as [S1 S2].
    assert (Lc : key_line c < List.length lines) by (apply I; rewrite in_app_iff; simpl; auto).
    destruct (nth_error lines (key_line c)) as [line|] eqn:N; [|apply nth_error_None in N; lia].
    destruct (nth_error_split_at _ _ _ N) as (a & b & E & L). subst lines.
    destruct (insert_comment_at c a line b mid (eq_sym L) H1) as (e & He & ->).
    assert (F : forall d, In d cs -> key_line d < List.length a).
    { intros d Hd. rewrite Forall_forall in S2. rewrite L. apply S2. now apply in_map. }
    assert (Fr : Forall (fun d => key_line d < List.length a) (rev cs)).
    { apply Forall_forall. intros d Hd. apply in_rev in Hd. auto. }
    rewrite insert_comments_app in H2 by auto. apply andthen_Val in H2 as (a' & H2 & H3). injection H3 as <-.
    destruct (IH a a' S1 F H2) as (bl & -> & Ln & Hb).
    exists (bl ++ [e; if replaces_dash c then replace_first dash_c " " line else line] :: map (fun x => [x]) b)%list.
    split; [rewrite concat_app; cbn [List.concat]; rewrite concat_singletons; reflexivity|].
    split; [rewrite !app_length; simpl; rewrite map_length; lia|].
    intros idx ln Hn. destruct (Nat.lt_trichotomy idx (List.length a)) as [T|[T|T]].
    + rewrite nth_error_app1 in Hn by lia. destruct (Hb _ _ Hn) as (block & B1 & B2). exists block.
      rewrite nth_error_app1 by lia. split; [auto|]. destruct B2 as [[-> B2]|(d & e' & D1 & D2)].
      * left. split; [auto|]. intros d Hd. apply in_app_iff in Hd as [Hd|[<-|[]]]; [auto|lia].
      * right. exists d, e'. rewrite in_app_iff. auto.
    + subst idx. rewrite nth_error_app2, Nat.sub_diag in Hn by lia. injection Hn as <-.
      eexists. rewrite nth_error_app2, Ln, Nat.sub_diag by lia. split; [reflexivity|]. right. exists c, e.
      rewrite in_app_iff. simpl. auto.
    + rewrite nth_error_app2 in Hn by lia. destruct (idx - List.length a) as [|k] eqn:K; [lia|]. simpl in Hn.
      exists [ln]. rewrite nth_error_app2 by lia. rewrite Ln, K. simpl. rewrite nth_error_singletons, Hn.
      split; [auto|]. left. split; [auto|]. intros d Hd. apply in_app_iff in Hd as [Hd|[<-|[]]]; [apply F in Hd; lia|lia].
Qed.

(** ** The comments of one line are merged into one *)
Lemma group_add_last k l c gs : ~ In k (map fst gs) -> key_line c = k ->
  group_add c (gs ++ [(k, l)])%list = (gs ++ [(k, (l ++ [c])%list)])%list.
Proof.
  intros N E. induction gs as [|[k' l'] gs IH]; simpl.
  - now rewrite E, Nat.eqb_refl.
  - destruct (Nat.eqb k' (key_line c)) eqn:K.
    + apply Nat.eqb_eq in K. exfalso. apply N. simpl. left. congruence.
    + rewrite IH; [auto|]. intros H. apply N. now right.
Qed.
Lemma group_add_new c gs : ~ In (key_line c) (map fst gs) -> group_add c gs = (gs ++ [(key_line c, [c])])%list.
Proof.
  intros N. induction gs as [|[k' l'] gs IH]; simpl; [auto|]. destruct (Nat.eqb k' (key_line c)) eqn:K.
  - apply Nat.eqb_eq in K. exfalso. apply N. simpl. auto.
  - rewrite IH; [auto|]. intros H. apply N. now right.
Qed.
Lemma group_line k cl gs : ~ In k (map fst gs) -> (forall c, In c cl -> key_line c = k) -> cl <> [] ->
  fold_left (fun gs c => group_add c gs) cl gs = (gs ++ [(k, cl)])%list.
Proof.
  intros N H. induction cl as [|c cl IH] using rev_ind; intros NE; [congruence|].
  rewrite fold_left_app. simpl. destruct cl as [|d cl].
  - simpl. rewrite group_add_new; [|rewrite H; simpl; auto]. rewrite H; simpl; auto.
  - rewrite IH; [|intros x Hx; apply H; rewrite in_app_iff; auto|discriminate].
    apply group_add_last; [auto|]. apply H. rewrite in_app_iff. simpl. auto.
Qed.

Lemma group_from y ind rest : forall idx cs gs, comments_from y ind idx rest = Val cs ->
  Forall (fun k => k < idx) (map fst gs) ->
  exists gs', fold_left (fun gs c => group_add c gs) cs gs = (gs ++ gs')%list /\
    forall k line, nth_error rest k = Some line ->
      exists cl, comments_of_line y ind (idx + k) line = Val cl /\ (cl <> [] -> In (idx + k, cl) gs').
Proof.
  induction rest as [|ln rest IH]; intros idx cs gs H F; cbn [comments_from] in H.
  - injection H as <-. exists []. rewrite app_nil_r. split; [auto|]. intros [|k]; discriminate.
  - apply andthen_Val in H as (cl & H1 & H). apply andthen_Val in H as (cs' & H2 & H). injection H as <-.
    rewrite fold_left_app.
    assert (Hk : forall c, In c cl -> key_line c = idx) by (intros c Hc; now apply (comments_of_line_In _ _ _ _ _ _ H1)).
    assert (N : ~ In idx (map fst gs)) by (rewrite Forall_forall in F; intros Hi; apply F in Hi; lia).
    destruct cl as [|c cl].
    + simpl. destruct (IH (S idx) cs' gs H2) as (gs' & E & G).
      { eapply Forall_impl; [|exact F]. simpl; lia. }
      exists gs'. split; [auto|]. intros [|k] line Hn.
      * simpl in Hn. injection Hn as <-. exists []. rewrite Nat.add_0_r. split; [auto|congruence].
      * simpl in Hn. rewrite <- plus_n_Sm. apply (G k line Hn).
    + rewrite (group_line idx (c :: cl) gs); [|exact N|exact Hk|discriminate].
      destruct (IH (S idx) cs' (gs ++ [(idx, c :: cl)])%list H2) as (gs' & E & G).
      { rewrite map_app. apply Forall_app. split; [eapply Forall_impl; [|exact F]; simpl; lia|]. constructor; simpl; auto. }
      exists ((idx, c :: cl) :: gs'). split; [rewrite E, <- app_assoc; reflexivity|]. intros [|k] line Hn.
      * simpl in Hn. injection Hn as <-. exists (c :: cl). rewrite Nat.add_0_r. split; [auto|]. simpl. auto.
      * simpl in Hn. rewrite <- plus_n_Sm. destruct (G k line Hn) as (cl' & G1 & G2). exists cl'. simpl. auto.
Qed.

Lemma Forall2_In_l {A B} (R : A -> B -> Prop) l l' a : Forall2 R l l' -> In a l -> exists b, In b l' /\ R a b.
Proof. induction 1; simpl; [tauto|]. intros [<-|H1]; [eauto|]. destruct (IHForall2 H1) as (z & ? & ?). eauto. Qed.

Lemma extract_line y ms idx line : extract_comments y = Val ms -> nth_error (y_lines y) idx = Some line ->
  detect_indentation (y_lines y) <> Unclear ->
  exists cl, comments_of_line y (detect_indentation (y_lines y)) idx line = Val cl /\
  match cl with
  | [] => forall m, In m ms -> key_line m <> idx
  | c :: _ => exists m, In m ms /\ merge_group (idx, cl) = Val m
  end.
Proof.
  unfold extract_comments. intros H N U. set (ind := detect_indentation (y_lines y)) in *.
  assert (H' : andthen (comments_from y ind 0 (y_lines y)) merge_comments = Val ms) by (destruct ind; auto; congruence).
  apply andthen_Val in H' as (cs & H1 & H2). pose proof H2 as M. unfold merge_comments in M. apply exc_map_Forall2 in M.
  destruct (group_from _ _ _ 0 cs [] H1) as (gs' & E & G); [constructor|]. simpl in E. unfold group_comments in M. rewrite E in M.
  destruct (G idx line N) as (cl & C1 & C2). simpl in C1, C2. exists cl. split; [auto|]. destruct cl as [|c cl].
  - intros m Hm Hk. destruct (comments_from_sorted _ _ _ _ _ H1) as [S _].
    destruct (merge_comments_spec _ _ S H2) as [_ Q]. destruct (Q m Hm) as (l & c & _ & _ & Hc & Ek & _).
    destruct (comments_from_In _ _ _ _ _ _ H1 Hc) as (k & ln & cl & Nk & Ck & Hin).
    pose proof (comments_of_line_In _ _ _ _ _ _ Ck Hin) as (Kl & _). simpl in Kl, Ck.
    assert (Ei : k = idx) by congruence. rewrite Ei in *. rewrite N in Nk. injection Nk as <-. rewrite C1 in Ck. injection Ck as <-. destruct Hin.
  - destruct (Forall2_In_l _ _ _ _ M (C2 ltac:(discriminate))) as (m & Hm & Hg). eauto.
Qed.

Lemma line_comments_texts lines ind idx line key n dash ps cs :
  line_comments lines ind idx line key n dash ps = Val cs ->
  exists ss, Forall2 (fun p s => comment_at lines idx line p = Val s) ps ss /\
    map full_string cs = filter (fun s => negb (is_empty s)) ss.
Proof.
  revert cs; induction ps as [|p ps IH]; intros cs H; cbn [line_comments] in H.
  - injection H as <-. exists []. simpl. auto.
  - apply andthen_Val in H as (c & Hc & H). apply andthen_Val in H as (cs' & H2 & H). injection H as <-.
    destruct (IH _ H2) as (ss & F & E). exists (c :: ss). split; [constructor; auto|]. simpl.
    destruct (is_empty c); simpl; congruence.
Qed.

(** ** Plain lines: spaces, then an unquoted key that starts with a letter *)
Definition letter (c : ascii) : Prop := 65 <= code c <= 90 \/ 97 <= code c <= 122.
Definition plain_key (key : string) : Prop :=
  (exists c r, key = String c r /\ letter c) /\
  Forall (fun c => ~ white c /\ ~ quote c /\ c <> char 58) (chars key).
Definition spaces (n : nat) : string := str_repeat n " ".

Lemma letter_alpha c : letter c -> is_alpha c = true /\ is_space c = false /\ Ascii.eqb c dash_c = false /\ is_indent (dash_to_space c) = false.
Proof.
  intros H.
  assert (G : implb ((Nat.leb 65 (code c) && Nat.leb (code c) 90) || (Nat.leb 97 (code c) && Nat.leb (code c) 122))
     (is_alpha c && negb (is_space c) && negb (Ascii.eqb c dash_c) && negb (is_indent (dash_to_space c))) = true) by by_chars c.
  destruct ((Nat.leb 65 (code c) && Nat.leb (code c) 90) || (Nat.leb 97 (code c) && Nat.leb (code c) 122)) eqn:E.
  - cbn [implb] in G. rewrite !andb_true_iff, !negb_true_iff in G. tauto.
  - exfalso. rewrite orb_false_iff, !andb_false_iff, !Nat.leb_gt in E. destruct H; lia.
Qed.

Lemma spaces_forall p n : p space_c = true -> str_forall p (spaces n) = true.
Proof.
  intros H. induction n as [|n IH]; [auto|]. change (spaces (S n)) with (String space_c (spaces n)). cbn [str_forall]. now rewrite H.
Qed.
Lemma lstrip_spaces n c r : is_space c = false -> lstrip (spaces n ++ String c r) = String c r.
Proof. intros H. induction n as [|n IH]; [unfold lstrip; simpl; now rewrite H|]. exact IH. Qed.
Lemma leading_spaces n c r : is_indent (dash_to_space c) = false -> leading is_indent (str_map dash_to_space (spaces n ++ String c r)) = n.
Proof. intros H. induction n as [|n IH]; [simpl; now rewrite H|]. simpl. f_equal. exact IH. Qed.

Lemma find_unquoted_key key rest c r : key = String c r -> Forall (fun c => ~ white c /\ ~ quote c /\ c <> char 58) (chars key) ->
  find_unquoted colon_c (key ++ ":" ++ rest) = Some (String.length key).
Proof.
  intros _ F. unfold find_unquoted. assert (G : forall i, find_unquoted_aux colon_c false i (key ++ ":" ++ rest) = Some (i + String.length key)); [|apply (G 0)].
  induction key as [|d key IH]; intros i.
  - cbn [append find_unquoted_aux]. simpl. f_equal. lia.
  - inversion F as [|? ? (F1 & F2 & F3) F4]; subst. cbn [append find_unquoted_aux].
    destruct (is_quote d) eqn:Q; [apply is_quote_spec in Q; contradiction|].
    destruct (Ascii.eqb d colon_c) eqn:K; [apply Ascii.eqb_eq in K; contradiction|]. simpl. rewrite (IH F4). f_equal. lia.
Qed.

Lemma key_of_plain n key rest : plain_key key -> ~ In (char 9) (chars rest) ->
  key_of_line (spaces n ++ key ++ ":" ++ rest) = Val key.
Proof.
  intros [(c & r & Ek & Hl) F] T. destruct (letter_alpha _ Hl) as (A & S & D & _).
  assert (NT : ~ In (char 9) (chars (spaces n ++ key ++ ":" ++ rest))).
  { rewrite !chars_app, !in_app_iff. intros [H|[H|[[H|[]]|H]]]; auto.
    - assert (G := spaces_forall (fun d => negb (Ascii.eqb d (char 9))) n eq_refl). apply Forall_chars in G.
      rewrite Forall_forall in G. specialize (G _ H). discriminate.
    - rewrite Forall_forall in F. destruct (F _ H) as [W _]. apply W. vm_compute. auto.
    - discriminate. }
  unfold key_of_line. rewrite remove_spacing_no_tab by auto. rewrite Ek. cbn [append]. rewrite lstrip_spaces by auto. rewrite D.
  set (line := String c (r ++ String ":" rest)).
  destruct (strip line) as [|f fr] eqn:Es.
  { apply strip_by_all in Es. unfold line in Es. cbn [str_forall] in Es. rewrite S in Es. discriminate. }
  destruct (strip_by_head _ _ _ _ Es) as (a & t & E1 & Ha & Hf).
  assert (a = "").
  { destruct a as [|x a]; [auto|]. unfold line in E1. cbn [append] in E1. injection E1 as <- _. cbn [str_forall] in Ha. rewrite S in Ha. discriminate. }
  subst a. cbn [append] in E1. unfold line in E1. injection E1 as <- _.
  assert (Ff : find_str (String c "") line = Some 0) by (apply (find_char_app c "" _ eq_refl)).
  rewrite Ff. cbv zeta.
  assert (Fc : find_unquoted colon_c line = Some (String.length key)).
  { unfold line. change (String c (r ++ String ":" rest)) with (String c r ++ ":" ++ rest). rewrite <- Ek. eapply find_unquoted_key; eauto. }
  rewrite Fc, Ek. cbn [String.length truthy_index].
  assert (Tk : take (Datatypes.S (String.length r)) line = String c r).
  { unfold line. apply (take_app (String c r) (String ":" rest)). }
  rewrite Tk. cbn [drop].
  assert (Q : is_quote c = false).
  { destruct (is_quote c) eqn:Q; auto. apply is_quote_spec in Q. subst key. inversion F as [|? ? (_ & ? & _) _]. contradiction. }
  unfold is_quote in Q. apply orb_false_iff in Q as [Q1 Q2].
  assert (W1 : startswith dq (String c r) = false).
  { destruct (startswith dq (String c r)) eqn:Q; auto. apply startswith_spec in Q as (x & Q). injection Q as Q _. subst c. discriminate. }
  assert (W2 : startswith (String squote_c "") (String c r) = false).
  { destruct (startswith (String squote_c "") (String c r)) eqn:Q; auto. apply startswith_spec in Q as (x & Q). injection Q as Q _. subst c. discriminate. }
  rewrite W1, W2. reflexivity.
Qed.

(** The list dash of an item and the one space after it. *)
Definition item (dash : bool) : string := if dash then "- " else "".
Definition no_item (dash : bool) : string := if dash then "  " else "".

Lemma key_of_dash n key rest : plain_key key -> ~ In (char 9) (chars rest) ->
  key_of_line (spaces n ++ "- " ++ key ++ ":" ++ rest) = Val key.
Proof.
  intros [(c & r & Ek & Hl) F] T. destruct (letter_alpha _ Hl) as (A & S & D & _).
  assert (NT : ~ In (char 9) (chars (spaces n ++ "- " ++ key ++ ":" ++ rest))).
  { rewrite !chars_app, !in_app_iff. intros [H|[[H|[H|[]]]|[H|[[H|[]]|H]]]]; auto; try discriminate.
    - assert (G := spaces_forall (fun d => negb (Ascii.eqb d (char 9))) n eq_refl). apply Forall_chars in G.
      rewrite Forall_forall in G. specialize (G _ H). discriminate.
    - rewrite Forall_forall in F. destruct (F _ H) as [W _]. apply W. vm_compute. auto. }
  unfold key_of_line. rewrite remove_spacing_no_tab by auto. rewrite Ek. cbn [append].
  rewrite (lstrip_spaces n "-") by reflexivity. change (Ascii.eqb "-" dash_c) with true. cbv iota.
  set (line := String space_c (String " " (String c (r ++ String ":" rest)))).
  destruct (strip line) as [|f fr] eqn:Es.
  { apply strip_by_all in Es. unfold line in Es. cbn [str_forall] in Es. rewrite S in Es. rewrite !andb_false_r in Es. discriminate. }
  destruct (strip_by_head _ _ _ _ Es) as (a & t & E1 & Ha & Hf).
  assert (Ea : a = "  " /\ f = c).
  { unfold line in E1. destruct a as [|x [|x' [|x'' a]]]; cbn [append] in E1.
    - injection E1 as <- _. discriminate.
    - injection E1 as _ <- _. discriminate.
    - injection E1 as <- <- <- _. auto.
    - injection E1 as _ _ <- _. cbn [str_forall] in Ha. rewrite S, !andb_false_r in Ha. discriminate. }
  destruct Ea as [-> ->].
  assert (Ff : find_str (String c "") line = Some 2).
  { apply (find_char_app c "  " (r ++ String ":" rest)). cbn [str_forall].
    assert (Nc : Ascii.eqb c " " = false) by (destruct (Ascii.eqb c " ") eqn:Q; auto; apply Ascii.eqb_eq in Q; subst c; discriminate).
    rewrite Nc. reflexivity. }
  rewrite Ff. cbv zeta.
  assert (Fc : find_unquoted colon_c line = Some (2 + String.length key)).
  { assert (Q := find_unquoted_key key rest c r Ek F). unfold find_unquoted in *. unfold line. rewrite Ek in Q |- *.
    change (find_unquoted_aux colon_c false 2 (String c r ++ ":" ++ rest) = Some (2 + String.length (String c r))).
    assert (Sh : forall l q i j k, find_unquoted_aux colon_c q i l = Some j -> find_unquoted_aux colon_c q (k + i) l = Some (k + j)).
    { clear. induction l as [|d l IH]; intros q i j k H; cbn [find_unquoted_aux] in *; [discriminate|].
      destruct (is_quote d); [rewrite plus_n_Sm; auto|]. destruct (Ascii.eqb d colon_c && negb q); [congruence|]. rewrite plus_n_Sm. auto. }
    apply (Sh _ _ 0 _ 2 Q). }
  rewrite Fc, Ek. cbn [String.length truthy_index Nat.add].
  assert (Tk : take (Datatypes.S (Datatypes.S (Datatypes.S (String.length r)))) line = String space_c (String " " (String c r))).
  { unfold line. apply (take_app (String space_c (String " " (String c r))) (String ":" rest)). }
  rewrite Tk. cbn [drop].
  assert (Q : is_quote c = false).
  { destruct (is_quote c) eqn:Q; auto. apply is_quote_spec in Q. subst key. inversion F as [|? ? (_ & ? & _) _]. contradiction. }
  unfold is_quote in Q. apply orb_false_iff in Q as [Q1 Q2].
  assert (W1 : startswith dq (String c r) = false).
  { destruct (startswith dq (String c r)) eqn:Q; auto. apply startswith_spec in Q as (x & Q). injection Q as Q _. subst c. discriminate. }
  assert (W2 : startswith (String squote_c "") (String c r) = false).
  { destruct (startswith (String squote_c "") (String c r)) eqn:Q; auto. apply startswith_spec in Q as (x & Q). injection Q as Q _. subst c. discriminate. }
  rewrite W1, W2. reflexivity.
Qed.

Lemma plain_no_tab n key rest : plain_key key -> ~ In (char 9) (chars rest) -> ~ In (char 9) (chars (spaces n ++ key ++ ":" ++ rest)).
Proof.
  intros [_ F] T. rewrite !chars_app, !in_app_iff. intros [H|[H|[[H|[]]|H]]]; auto.
  - assert (G := spaces_forall (fun d => negb (Ascii.eqb d (char 9))) n eq_refl). apply Forall_chars in G.
    rewrite Forall_forall in G. specialize (G _ H). discriminate.
  - rewrite Forall_forall in F. destruct (F _ H) as [W _]. apply W. vm_compute. auto.
  - discriminate.
Qed.

Lemma Val_inj {A} (a b : A) : Val a = Val b -> a = b.
Proof. congruence. Qed.
Lemma nth_concat {A} (bl : list (list A)) idx block : nth_error bl idx = Some block ->
  exists pre post, bl = (pre ++ block :: post)%list /\ List.length pre = idx.
Proof. apply nth_error_split. Qed.

Lemma Rewritten_blocks ls bs : Forall2 (fun l b => Rewritten [l] b) ls bs -> Rewritten ls (List.concat bs).
Proof.
  induction 1 as [|l b ls bs H _ IH]; simpl; [constructor|]. change (l :: ls) with ([l] ++ ls)%list. now apply Rewritten_app.
Qed.
Lemma nth_Forall2 {A B} (R : A -> B -> Prop) l : forall l', List.length l' = List.length l ->
  (forall k a b, nth_error l k = Some a -> nth_error l' k = Some b -> R a b) -> Forall2 R l l'.
Proof.
  induction l as [|a l IH]; intros [|b l'] L H; try discriminate; constructor.
  - apply (H 0); auto.
  - apply IH; [simpl in L; lia|]. intros k x y' Hx Hy. apply (H (S k)); auto.
Qed.

(** A line and, if there is something to say about its key, the entry above it. *)
Definition plain_line (n : nat) (dash : bool) (key rest : string) : string := spaces n ++ item dash ++ key ++ ":" ++ rest.
Definition plain_entry (n : nat) (dash : bool) (key : string) (docs : list string) : string :=
  spaces n ++ item dash ++ "___docstring_hidden_key_" ++ key ++ ": |" ++
  String.concat "" (map (fun t => lf ++ spaces n ++ no_item dash ++ " " ++ t) (splitlines (join (lf ++ lf) docs))).
Definition with_entry (n : nat) (dash : bool) (key rest : string) (docs : list string) : list string :=
  match docs with
  | [] => [plain_line n dash key rest]
  | _ => [plain_entry n dash key docs; spaces n ++ no_item dash ++ key ++ ":" ++ rest]
  end.

Lemma repeat_add n m (u : string) : str_repeat (n + m) u = str_repeat n u ++ str_repeat m u.
Proof. induction n; simpl; auto. now rewrite IHn, app_assoc_s. Qed.
Lemma replace_dash n x : replace_first dash_c " " (spaces n ++ "- " ++ x) = spaces n ++ "  " ++ x.
Proof.
  change ("- " ++ x) with (String dash_c (" " ++ x)).
  rewrite replace_first_app; [reflexivity|]. apply spaces_forall. reflexivity.
Qed.

(** The output for one plain line: the entry holds the non-empty comments of the line, one after the other,
    and takes the place of the list item's key. *)
Theorem plain_line_entry y out idx n dash key rest :
  rewritten_lines y = Val out ->
  (exists l, In l (y_lines y) /\ In (char 32) (chars l)) ->
  (forall l, In l (y_lines y) -> ~ In (char 9) (chars l)) ->
  plain_key key ->
  nth_error (y_lines y) idx = Some (plain_line n dash key rest) ->
  exists texts before after,
    Forall2 (fun p s => comment_at (y_lines y) idx (plain_line n dash key rest) p = Val s) (y_positions y) texts /\
    Rewritten (firstn idx (y_lines y)) before /\ Rewritten (skipn (S idx) (y_lines y)) after /\
    out = (before ++ with_entry n dash key rest (filter (fun s => negb (is_empty s)) texts) ++ after)%list.
Proof.
  intros H SP NT PK N. set (line := plain_line n dash key rest) in *.
  assert (Tr : ~ In (char 9) (chars rest)).
  { intros Hi. apply (NT line); [eapply nth_error_In; eauto|]. unfold line, plain_line. rewrite !chars_app, !in_app_iff. auto. }
  assert (Ind : detect_indentation (y_lines y) = Spaces).
  { assert (U : detect_indentation (y_lines y) <> Unclear).
    { rewrite detect_spec. intros [_ Hq]. destruct (Hq SP) as (l & Hl & Ht). exact (NT l Hl Ht). }
    unfold detect_indentation in *.
    destruct (existsb (contains (String tab_c "")) (y_lines y)) eqn:Et.
    - apply existsb_exists in Et as (l & Hl & Ht). exfalso. apply (NT l Hl). rewrite contains_spec in Ht.
      destruct Ht as (a & b & ->). rewrite chars_app, in_app_iff. simpl. auto.
    - simpl in *. destruct (existsb (contains " ") (y_lines y)); [auto|congruence]. }
  unfold rewritten_lines in H. apply andthen_Val in H as (ms & Em & Hi).
  destruct (extract_comments_spec _ _ Em) as [Sm Im]. rewrite (sort_desc_rev _ Sm) in Hi.
  assert (Lm : forall m, In m ms -> key_line m < List.length (y_lines y)).
  { intros m Hm. destruct (Im m Hm) as (l & _ & _ & Nl & _). apply nth_error_Some. congruence. }
  destruct (insert_comments_blocks _ _ _ Sm Lm Hi) as (blocks & Eo & Lb & Hb).
  destruct (Hb _ _ N) as (block & Nb & Ho).
  destruct (nth_concat _ _ _ Nb) as (pre & post & Eb & Lp).
  destruct (extract_line _ _ _ _ Em N) as (cl & C1 & C2); [rewrite Ind; discriminate|]. rewrite Ind in C1.
  assert (Hk : key_of_line line = Val key).
  { unfold line, plain_line. destruct dash; cbn [item]; [now apply key_of_dash|now apply key_of_plain]. }
  destruct PK as [(c & r & Ek & Hl) F]. destruct (letter_alpha _ Hl) as (A & S1 & D & I1).
  assert (Rs : exists ch t, remove_spacing line = String ch t /\ is_alpha ch || Ascii.eqb ch dash_c = true /\ Ascii.eqb ch dash_c = dash).
  { rewrite remove_spacing_no_tab by (apply NT; eapply nth_error_In; eauto). unfold line, plain_line. rewrite Ek. destruct dash; cbn [append item].
    - rewrite lstrip_spaces by reflexivity. eexists _, _. split; [reflexivity|]. auto.
    - rewrite lstrip_spaces by auto. eexists _, _. split; [reflexivity|]. rewrite A. auto. }
  destruct Rs as (ch & t & Rs & Ra & Rd).
  set (width := n + String.length (item dash)).
  assert (Ci : count_indent line Spaces = Some width).
  { unfold count_indent, line, plain_line, width. rewrite Ek. f_equal. destruct dash; cbn [item append String.length].
    - clear -I1. induction n as [|n IH]; [|exact (f_equal S IH)]. simpl. now rewrite I1.
    - rewrite Nat.add_0_r. now apply leading_spaces. }
  assert (C3 : line_comments (y_lines y) Spaces idx line key width dash (y_positions y) = Val cl).
  { unfold comments_of_line in C1. rewrite Rs, Ra, Rd in C1. rewrite Ci, Hk in C1. cbn [andthen] in C1.
    rewrite Ek in C1 at 1. cbn [is_empty] in C1. exact C1. }
  destruct (line_comments_texts _ _ _ _ _ _ _ _ _ C3) as (texts & Ft & Et).
  exists texts, (List.concat pre), (List.concat post). split; [auto|].
  assert (F2 : Forall2 (fun l b => Rewritten [l] b) (y_lines y) blocks).
  { apply nth_Forall2; [auto|]. intros k lk bk Nk Bk. destruct (Hb _ _ Nk) as (b' & Q1 & Q2). rewrite Bk in Q1. injection Q1 as <-.
    destruct Q2 as [[-> _]|(m & e & Hm & Km & He & ->)]; [apply Rewritten_refl|].
    eapply one_line_rewritten; eauto. rewrite Km. exact Nk. }
  rewrite Eb in F2. apply Forall2_app_inv_r in F2 as (l1 & l2 & G1 & G2 & Ey).
  inversion G2 as [|lx ? l2' ? Gx G3]; subst l2. rewrite Ey.
  assert (L1 : List.length l1 = idx) by (rewrite <- Lp; clear -G1; induction G1; simpl; auto).
  split; [|split].
  { rewrite <- L1, firstn_app, Nat.sub_diag, firstn_all. cbn [firstn]. rewrite app_nil_r. now apply Rewritten_blocks. }
  { rewrite <- L1. change (lx :: l2') with ([lx] ++ l2')%list. rewrite app_assoc.
    replace (S (List.length l1)) with (List.length (l1 ++ [lx])%list) by (rewrite app_length; simpl; lia).
    rewrite skipn_app, Nat.sub_diag, skipn_all. now apply Rewritten_blocks. }
  rewrite Eo, Eb, concat_app. cbn [List.concat]. f_equal. f_equal. rewrite <- Et.
  destruct cl as [|c0 cl].
  - cbn [map]. destruct Ho as [[-> _]|(m & e & Hm & Km & _)]; [reflexivity|]. exfalso. exact (C2 m Hm Km).
  - destruct C2 as (m & Hm & Hg). unfold merge_group in Hg. cbn [snd fst] in Hg.
    assert (Hc0 : forall x, In x (c0 :: cl) -> for_key x = key /\ key_line x = idx /\ spacing_kind x = Spaces /\ spacing_count x = width /\ replaces_dash x = dash).
    { intros x Hx. pose proof (line_comments_In _ _ _ _ _ _ _ _ _ _ C3 Hx). tauto. }
    assert (Ed : existsb replaces_dash (c0 :: cl) = dash).
    { destruct dash.
      - cbn [existsb]. destruct (Hc0 c0 (or_introl eq_refl)) as (_ & _ & _ & _ & Q). now rewrite Q.
      - destruct (existsb replaces_dash (c0 :: cl)) eqn:X; auto. apply existsb_exists in X as (x & Hx & X). destruct (Hc0 x Hx) as (_ & _ & _ & _ & Q). congruence. }
    destruct (Hc0 c0 (or_introl eq_refl)) as (K1 & K2 & K3 & K4 & K5).
    rewrite Ed, K1, K2, K3, K4 in Hg. injection Hg as Hg.
    destruct Ho as [[_ Q]|(m' & e & Hm' & Km' & He & ->)].
    { exfalso. apply (Q m Hm). subst m. reflexivity. }
    assert (m' = m).
    { assert (Km : key_line m = idx) by (subst m; reflexivity). clear -Sm Hm Hm' Km Km'.
      induction ms as [|x ms IH]; [destruct Hm|]. inversion Sm as [|? ? Sx Fx]; subst. rewrite Forall_forall in Fx.
      destruct Hm as [<-|Hm], Hm' as [<-|Hm']; auto.
      - specialize (Fx (key_line m') (in_map key_line _ _ Hm')). lia.
      - specialize (Fx (key_line m) (in_map key_line _ _ Hm)). lia. }
    subst m'. unfold doc_entry, spacing, format_comment in He. rewrite <- Hg in He |- *.
    cbn [replaces_dash spacing_kind spacing_count full_string for_key indent_unit] in He |- *.
    unfold with_entry, plain_entry. cbn [map].
    assert (Dp : str_repeat (width + 1) " " = spaces n ++ no_item dash ++ " ").
    { unfold width, spaces. rewrite !repeat_add. destruct dash; cbn [item no_item String.length]; rewrite app_assoc_s; reflexivity. }
    rewrite Dp in He. rewrite join_concat in He.
    rewrite (map_ext _ (fun t => lf ++ spaces n ++ no_item dash ++ " " ++ t)) in He by (intros x; now rewrite !app_assoc_s).
    unfold line, plain_line. destruct dash; cbn [item no_item] in *.
    + replace (Nat.ltb width 2) with false in He by (symmetry; apply Nat.ltb_ge; unfold width; simpl; lia).
      replace (width - 2) with n in He by (unfold width; simpl; lia). cbn [andthen] in He.
      apply Val_inj in He. rewrite <- He, replace_dash. unfold hidden_prefix. rewrite !app_assoc_s. reflexivity.
    + cbn [andthen] in He. apply Val_inj in He. rewrite <- He. unfold width, hidden_prefix. cbn [String.length].
      rewrite Nat.add_0_r, !app_assoc_s. reflexivity.
Qed.
