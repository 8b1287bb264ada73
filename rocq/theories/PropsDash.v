(** C58 for any number of spaces after the list dash. *)
From Coq Require Import Ascii String List Bool Arith ZArith Lia Sorted.
From Verif Require Import PyStr PyStrFacts Exc Yaml SpecNames SpecText SpecImports NamesFacts DocstringFacts SpecYaml
  YamlFacts YamlLines YamlComments YamlWords YamlMore YamlEntries.
Import ListNotations.
Local Open Scope string_scope.
Local Open Scope nat_scope.

(** A list item: [n] spaces, the dash, [m] spaces, the key. *)
Definition item_line (n m : nat) (key rest : string) : string := spaces n ++ "-" ++ spaces m ++ key ++ ":" ++ rest.
(** Its lines after the rewriting, given the comments about the key.  The dash goes to the place two columns before the key. *)
Definition item_out (n m : nat) (key rest : string) (docs : list string) : list string :=
  match docs with
  | [] => [item_line n m key rest]
  | _ => [spaces (n + m - 1) ++ "- " ++ "___docstring_hidden_key_" ++ key ++ ": |" ++
            String.concat "" (map (fun t => lf ++ spaces (n + m + 2) ++ t) (splitlines (join (lf ++ lf) docs)));
          spaces (n + 1 + m) ++ key ++ ":" ++ rest]
  end.

Lemma spaces_no_tab n : ~ In (char 9) (chars (spaces n)).
Proof.
  intros H. assert (G := spaces_forall (fun d => negb (Ascii.eqb d (char 9))) n eq_refl). apply Forall_chars in G.
  rewrite Forall_forall in G. specialize (G _ H). discriminate.
Qed.
Lemma spaces_length n : String.length (spaces n) = n.
Proof. induction n as [|n IH]; [reflexivity|]. change (spaces (S n)) with (String space_c (spaces n)). simpl. now rewrite IH. Qed.
Lemma shift_unquoted l : forall q i j k, find_unquoted_aux colon_c q i l = Some j -> find_unquoted_aux colon_c q (k + i) l = Some (k + j).
Proof.
  induction l as [|d l IH]; intros q i j k H; cbn [find_unquoted_aux] in *; [discriminate|].
  destruct (is_quote d); [rewrite plus_n_Sm; auto|]. destruct (Ascii.eqb d colon_c && negb q); [congruence|]. rewrite plus_n_Sm. auto.
Qed.
Lemma skip_spaces m l : forall i, find_unquoted_aux colon_c false i (spaces m ++ l) = find_unquoted_aux colon_c false (m + i) l.
Proof. induction m as [|m IH]; intros i; [reflexivity|]. change (spaces (S m) ++ l) with (String space_c (spaces m ++ l)). cbn [find_unquoted_aux]. change (is_quote space_c) with false. cbn. rewrite IH. f_equal. lia. Qed.
Lemma key_of_item n m key rest : plain_key key -> ~ In (char 9) (chars rest) -> key_of_line (item_line n m key rest) = Val key.
Proof.
  intros [(c & r & Ek & Hl) F] T. destruct (letter_alpha _ Hl) as (A & S & D & _).
  assert (NT : ~ In (char 9) (chars (item_line n m key rest))).
  { unfold item_line. rewrite !chars_app, !in_app_iff. intros [H|[[H|[]]|[H|[H|[[H|[]]|H]]]]]; auto; try discriminate; try (now apply spaces_no_tab in H).
    rewrite Forall_forall in F. destruct (F _ H) as [W _]. apply W. vm_compute. auto. }
  unfold key_of_line. rewrite remove_spacing_no_tab by auto. unfold item_line. rewrite Ek. cbn [append].
  rewrite (lstrip_spaces n "-") by reflexivity. change (Ascii.eqb "-" dash_c) with true. cbv iota.
  change (String space_c (spaces m ++ String c (r ++ String ":" rest))) with (spaces (Datatypes.S m) ++ String c (r ++ String ":" rest)).
  set (line := spaces (Datatypes.S m) ++ String c (r ++ String ":" rest)).
  destruct (strip line) as [|f fr] eqn:Es.
  { apply strip_by_all in Es. unfold line in Es. rewrite str_forall_app in Es. cbn [str_forall] in Es. rewrite S in Es. rewrite !andb_false_r in Es. discriminate. }
  destruct (strip_by_head _ _ _ _ Es) as (a & t & E1 & Ha & Hf).
  assert (f = c).
  { unfold line in E1. clear - E1 Ha Hf S. revert a E1 Ha. induction (Datatypes.S m) as [|k IH]; intros a E1 Ha.
    - destruct a as [|x a]; cbn in E1; [now injection E1 as <- _|]. injection E1 as <- _. cbn [str_forall] in Ha. rewrite S in Ha. discriminate.
    - change (spaces (Datatypes.S k)) with (String space_c (spaces k)) in E1. destruct a as [|x a]; cbn in E1; [injection E1 as <- _; discriminate|]. injection E1 as _ E1. cbn [str_forall] in Ha. apply andb_true_iff in Ha as [_ Ha]. eauto. }
  subst f.
  assert (Ff : find_str (String c "") line = Some (Datatypes.S m)).
  { rewrite <- (spaces_length (Datatypes.S m)). apply (find_char_app c (spaces (Datatypes.S m)) (r ++ String ":" rest)). apply spaces_forall.
    assert (Nc : Ascii.eqb c space_c = false) by (destruct (Ascii.eqb c space_c) eqn:Q; auto; apply Ascii.eqb_eq in Q; subst c; discriminate). cbv beta. rewrite Nc. reflexivity. }
  rewrite Ff. cbv zeta.
  assert (Fc : find_unquoted colon_c line = Some (Datatypes.S m + String.length key)).
  { assert (Q := find_unquoted_key key rest c r Ek F). unfold find_unquoted in *. unfold line. rewrite skip_spaces. rewrite Ek in Q |- *.
    apply (shift_unquoted _ _ 0 _ (Datatypes.S m) Q). }
  rewrite Fc, Ek. cbn [truthy_index Nat.add].
  assert (Tk : take (Datatypes.S (m + String.length (String c r))) line = spaces (Datatypes.S m) ++ String c r).
  { unfold line. change (String c (r ++ String ":" rest)) with (String c r ++ String ":" rest). rewrite <- app_assoc_s.
    replace (Datatypes.S (m + String.length (String c r))) with (String.length (spaces (Datatypes.S m) ++ String c r)) by (rewrite length_app_s, spaces_length; reflexivity). apply take_app. }
  rewrite Tk. assert (Dr : drop (Datatypes.S m) (spaces (Datatypes.S m) ++ String c r) = String c r).
  { rewrite <- (spaces_length (Datatypes.S m)) at 1. apply drop_app. }
  rewrite Dr.
  assert (Q : is_quote c = false).
  { destruct (is_quote c) eqn:Q; auto. apply is_quote_spec in Q. subst key. inversion F as [|? ? (_ & ? & _) _]. contradiction. }
  unfold is_quote in Q. apply orb_false_iff in Q as [Q1 Q2].
  assert (W1 : startswith dq (String c r) = false).
  { destruct (startswith dq (String c r)) eqn:Q; auto. apply startswith_spec in Q as (x & Q). injection Q as Q _. subst c. discriminate. }
  assert (W2 : startswith (String squote_c "") (String c r) = false).
  { destruct (startswith (String squote_c "") (String c r)) eqn:Q; auto. apply startswith_spec in Q as (x & Q). injection Q as Q _. subst c. discriminate. }
  rewrite W1, W2. reflexivity.
Qed.


(** The entry of an item is found for every number of spaces, and nothing else in the file depends on it. *)
Theorem C58_all_items : forall y out idx n m key rest,
  rewritten_lines y = Val out ->
  (exists l, In l (y_lines y) /\ In (char 32) (chars l)) ->
  (forall l, In l (y_lines y) -> ~ In (char 9) (chars l)) ->
  plain_key key ->
  nth_error (y_lines y) idx = Some (item_line n m key rest) ->
  exists texts before after,
    Forall2 (fun p s => comment_at (y_lines y) idx (item_line n m key rest) p = Val s) (y_positions y) texts /\
    Rewritten (firstn idx (y_lines y)) before /\ Rewritten (skipn (S idx) (y_lines y)) after /\
    (filter (fun s => negb (is_empty s)) texts = [] \/ 1 <= n + m) /\
    out = (before ++ item_out n m key rest (filter (fun s => negb (is_empty s)) texts) ++ after)%list.
Proof.
  intros y out idx n m key rest.
  intros H SP NT PK N. set (line := item_line n m key rest) in *.
  assert (Tr : ~ In (char 9) (chars rest)).
  { intros Hi. apply (NT line); [eapply nth_error_In; eauto|]. unfold line, item_line. rewrite !chars_app, !in_app_iff. tauto. }
  assert (Ind : detect_indentation (y_lines y) = Spaces).
  { assert (U : detect_indentation (y_lines y) <> Unclear).
    { rewrite detect_spec. intros [_ Hq]. destruct (Hq SP) as (l & Hl & Ht). exact (NT l Hl Ht). }
    unfold detect_indentation in *.
    destruct (existsb (contains (String tab_c "")) (y_lines y)) eqn:Et.
    - apply existsb_exists in Et as (l & Hl & Ht). exfalso. apply (NT l Hl). rewrite contains_spec in Ht.
      destruct Ht as (a & b & ->). rewrite chars_app, in_app_iff. simpl. auto.
    - simpl in *. destruct (existsb (contains " ") (y_lines y)); [auto|congruence]. }
  unfold rewritten_lines in H. apply andthen_Val in H as (ms & Em & Hi).
  destruct (extract_comments_spec _ _ Em) as [Sm Im]. rewrite (sort_desc_rev _ Sm) in Hi.
  assert (Lm : forall m, In m ms -> key_line m < List.length (y_lines y)).
  { intros q Hm. destruct (Im q Hm) as (l & _ & _ & Nl & _). apply nth_error_Some. congruence. }
  destruct (insert_comments_blocks _ _ _ Sm Lm Hi) as (blocks & Eo & Lb & Hb).
  destruct (Hb _ _ N) as (block & Nb & Ho).
  destruct (nth_concat _ _ _ Nb) as (pre & post & Eb & Lp).
  destruct (extract_line _ _ _ _ Em N) as (cl & C1 & C2); [rewrite Ind; discriminate|]. rewrite Ind in C1.
  assert (Hk : key_of_line line = Val key).
  { now apply key_of_item. }
  destruct PK as [(c & r & Ek & Hl) F]. destruct (letter_alpha _ Hl) as (A & S1 & D & I1).
  assert (Rs : exists ch t, remove_spacing line = String ch t /\ is_alpha ch || Ascii.eqb ch dash_c = true /\ Ascii.eqb ch dash_c = true).
  { rewrite remove_spacing_no_tab by (apply NT; eapply nth_error_In; eauto). unfold line, item_line. cbn [append].
    rewrite lstrip_spaces by reflexivity. eexists _, _. split; [reflexivity|]. auto. }
  destruct Rs as (ch & t & Rs & Ra & Rd).
  set (width := n + 1 + m).
  assert (Ci : count_indent line Spaces = Some width).
  { unfold count_indent, line, item_line, width. rewrite Ek. f_equal.
    assert (G : forall k x, leading is_indent (str_map dash_to_space (spaces k ++ x)) = k + leading is_indent (str_map dash_to_space x)).
    { clear. intros k x. induction k as [|k IH]; [reflexivity|]. simpl. f_equal. exact IH. }
    rewrite G. cbn [append].
    cbn [str_map leading]. change (is_indent (dash_to_space "-")) with true. cbv iota. rewrite G. cbn [append str_map leading]. rewrite I1. lia. }
  assert (C3 : line_comments (y_lines y) Spaces idx line key width true (y_positions y) = Val cl).
  { unfold comments_of_line in C1. rewrite Rs, Ra, Rd in C1. rewrite Ci, Hk in C1. cbn [andthen] in C1.
    rewrite Ek in C1 at 1. cbn [is_empty] in C1. exact C1. }
  destruct (line_comments_texts _ _ _ _ _ _ _ _ _ C3) as (texts & Ft & Et).
  exists texts, (List.concat pre), (List.concat post). split; [exact Ft|].
  assert (F2 : Forall2 (fun l b => Rewritten [l] b) (y_lines y) blocks).
  { apply nth_Forall2; [auto|]. intros k lk bk Nk Bk. destruct (Hb _ _ Nk) as (b' & Q1 & Q2). rewrite Bk in Q1. injection Q1 as <-.
    destruct Q2 as [[-> _]|(q & e & Hm & Km & He & ->)]; [apply Rewritten_refl|].
    eapply one_line_rewritten; eauto. rewrite Km. exact Nk. }
  rewrite Eb in F2. apply Forall2_app_inv_r in F2 as (l1 & l2 & G1 & G2 & Ey).
  inversion G2 as [|lx ? l2' ? Gx G3]; subst l2. rewrite Ey.
  assert (L1 : List.length l1 = idx) by (rewrite <- Lp; clear -G1; induction G1; simpl; auto).
  split; [|split].
  { rewrite <- L1, firstn_app, Nat.sub_diag, firstn_all. cbn [firstn]. rewrite app_nil_r. now apply Rewritten_blocks. }
  { rewrite <- L1. change (lx :: l2') with ([lx] ++ l2')%list. rewrite app_assoc.
    replace (S (List.length l1)) with (List.length (l1 ++ [lx])%list) by (rewrite app_length; simpl; lia).
    rewrite skipn_app, Nat.sub_diag, skipn_all. now apply Rewritten_blocks. }
  rewrite Eo, Eb, concat_app. cbn [List.concat]. rewrite <- Et.
  enough (X : (map full_string cl = [] \/ 1 <= n + m) /\ block = item_out n m key rest (map full_string cl)) by (destruct X as [X1 X2]; split; [exact X1|now rewrite X2]).
  destruct cl as [|c0 cl].
  - cbn [map]. destruct Ho as [[-> _]|(x & e & Hm & Km & _)]; [auto|]. exfalso. exact (C2 x Hm Km).
  - destruct C2 as (q & Hm & Hg). unfold merge_group in Hg. cbn [snd fst] in Hg.
    assert (Hc0 : forall x, In x (c0 :: cl) -> for_key x = key /\ key_line x = idx /\ spacing_kind x = Spaces /\ spacing_count x = width /\ replaces_dash x = true).
    { intros x Hx. pose proof (line_comments_In _ _ _ _ _ _ _ _ _ _ C3 Hx). tauto. }
    assert (Ed : existsb replaces_dash (c0 :: cl) = true).
    { cbn [existsb]. destruct (Hc0 c0 (or_introl eq_refl)) as (_ & _ & _ & _ & Q). now rewrite Q. }
    destruct (Hc0 c0 (or_introl eq_refl)) as (K1 & K2 & K3 & K4 & K5).
    rewrite Ed, K1, K2, K3, K4 in Hg. injection Hg as Hg.
    destruct Ho as [[_ Q]|(q' & e & Hm' & Km' & He & ->)].
    { exfalso. apply (Q q Hm). subst q. reflexivity. }
    assert (q' = q).
    { assert (Km : key_line q = idx) by (subst q; reflexivity). clear -Sm Hm Hm' Km Km'.
      induction ms as [|x ms IH]; [destruct Hm|]. inversion Sm as [|? ? Sx Fx]; subst. rewrite Forall_forall in Fx.
      destruct Hm as [<-|Hm], Hm' as [<-|Hm']; auto.
      - specialize (Fx (key_line q') (in_map key_line _ _ Hm')). lia.
      - specialize (Fx (key_line q) (in_map key_line _ _ Hm)). lia. }
    subst q'. unfold doc_entry, spacing, format_comment in He. rewrite <- Hg in He |- *.
    cbn [replaces_dash spacing_kind spacing_count full_string for_key indent_unit] in He |- *.
    assert (Wd : Nat.ltb width 2 = false) by (destruct (Nat.ltb width 2); [discriminate He|reflexivity]).
    rewrite Wd in He. cbn [andthen] in He. apply Val_inj in He. apply Nat.ltb_ge in Wd. unfold width in *. split; [right; lia|].
    rewrite join_concat in He. rewrite (map_ext _ (fun t => lf ++ spaces (n + m + 2) ++ t)) in He.
    2: { intros x. unfold spaces. replace (n + 1 + m + 1) with (n + m + 2) by lia. now rewrite !app_assoc_s. }
    rewrite <- He. cbn [map item_out]. replace (n + 1 + m - 2) with (n + m - 1) by lia. rewrite !app_assoc_s.
    replace (replace_first dash_c " " line) with (spaces (n + 1 + m) ++ key ++ ":" ++ rest); [reflexivity|].
    unfold line, item_line. change ("-" ++ spaces m ++ key ++ ":" ++ rest) with (String dash_c (spaces m ++ key ++ ":" ++ rest)).
    rewrite replace_first_app by (apply spaces_forall; reflexivity). unfold spaces. rewrite !repeat_add, !app_assoc_s. reflexivity.
Qed.
Print Assumptions C58_all_items.

(** So the dash stays in its column exactly if one space follows it. *)
Theorem C58_dash_stays : forall n m key rest docs, docs <> [] -> 1 <= n + m ->
  exists e l, item_out n m key rest docs = [e; l] /\ ((exists x, e = spaces n ++ "-" ++ x) <-> m = 1).
Proof.
  intros n m key rest docs N L. destruct docs as [|d docs]; [congruence|]. eexists _, _. split; [reflexivity|]. split.
  - intros (x & E). cbn [append] in E.
    assert (U : forall a b u v, spaces a ++ String "-" u = spaces b ++ String "-" v -> a = b).
    { clear. induction a as [|a IH]; intros [|b] u v E; auto; try discriminate E. f_equal. change (spaces (S a) ++ String "-" u) with (String space_c (spaces a ++ String "-" u)) in E.
      change (spaces (S b) ++ String "-" v) with (String space_c (spaces b ++ String "-" v)) in E. injection E as E. eauto. }
    apply U in E. lia.
  - intros ->. replace (n + 1 - 1) with n by lia. eexists. reflexivity.
Qed.
Print Assumptions C58_dash_stays.
Example C58_all_example : plain_key "key" /\ rewritten_lines (Yaml "a.yaml" [item_line 2 3 "key" " v # c"; item_line 2 0 "b" " w # d"] [Side]) =
  Val (app (item_out 2 3 "key" " v # c" ["c."]) (item_out 2 0 "b" " w # d" ["d."])) /\
  item_out 2 0 "b" " w # d" ["d."] = [" - ___docstring_hidden_key_b: |" ++ lf ++ "    d."; "   b: w # d"] /\
  item_out 2 3 "key" " v # c" ["c."] = ["    - ___docstring_hidden_key_key: |" ++ lf ++ "       c."; "      key: v # c"].
Proof.
  split; [|repeat split; vm_compute; reflexivity]. split.
  - exists "k"%char, "ey". split; [auto|]. right. vm_compute. split; repeat constructor.
  - repeat constructor; vm_compute; intuition congruence.
Qed.
