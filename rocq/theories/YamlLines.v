(** Rewriting a YAML file keeps its lines. *)
From Coq Require Import Ascii String List Bool Arith ZArith Lia Sorted.
From Verif Require Import PyStr PyStrFacts Exc Yaml SpecNames SpecText SpecImports NamesFacts DocstringFacts SpecYaml YamlFacts.
Import ListNotations.
Local Open Scope string_scope.
Local Open Scope nat_scope.

Lemma andthen_Val {A B} (r : exc A) (f : A -> exc B) b :
  andthen r f = Val b -> exists a, r = Val a /\ f a = Val b.
Proof. destruct r; simpl; try discriminate. eauto. Qed.

(** ** The first character of a line *)
Lemma join_lstrip_head l c r : join "" (map lstrip l) = String c r ->
  exists sp t, join (String tab_c "") l = sp ++ String c t /\ str_forall is_space sp = true /\ is_space c = false.
Proof.
  induction l as [|x l IH]; [discriminate|].
  destruct (lstrip_by_spec is_space x) as (a & H1 & H2 & H3).
  intros H.
  assert (E : join "" (map lstrip (x :: l)) = lstrip x ++ join "" (map lstrip l)).
  { destruct l; simpl; [now rewrite app_nil_r_s|reflexivity]. }
  rewrite E in H. clear E.
  assert (E : exists z, join (String tab_c "") (x :: l) = x ++ z /\
                        (z = "" /\ l = [] \/ z = String tab_c (join (String tab_c "") l) /\ l <> [])).
  { destruct l as [|y l]; [exists ""; simpl; rewrite app_nil_r_s; auto|].
    exists (String tab_c (join (String tab_c "") (y :: l))). split; [reflexivity|right; split; [auto|discriminate]]. }
  destruct E as (z & -> & Ez). unfold lstrip in H.
  destruct H3 as [H3|(d & t & H3 & H4)]; rewrite H3 in *.
  - simpl in H. rewrite app_nil_r_s in H1. subst a. destruct (IH H) as (sp & t & E1 & E2 & E3).
    destruct Ez as [[-> ->]|[-> Hl]].
    + simpl in E1. destruct sp; discriminate.
    + exists (x ++ String tab_c sp), t. rewrite E1. split; [now rewrite app_assoc_s|]. split; [|auto].
      rewrite str_forall_app, H2. simpl. exact E2.
  - simpl in H. injection H as -> H. exists a, (t ++ z). split; [|auto]. rewrite H1 at 1. now rewrite app_assoc_s.
Qed.
Lemma remove_spacing_head line c r : remove_spacing line = String c r ->
  exists sp t, line = sp ++ String c t /\ str_forall is_space sp = true /\ is_space c = false.
Proof.
  intros H. destruct (join_lstrip_head _ _ _ H) as (sp & t & E & Hs). rewrite join_split in E. eauto.
Qed.
Lemma no_tab_no_char line : ~ In (char 9) (chars line) -> no_char tab_c line.
Proof.
  intros H. unfold no_char. rewrite Forall_chars, Forall_forall. intros x Hx. apply negb_true_iff, Ascii.eqb_neq.
  intros <-. exact (H Hx).
Qed.
Lemma remove_spacing_no_tab line : ~ In (char 9) (chars line) -> remove_spacing line = lstrip line.
Proof. intros H. unfold remove_spacing. rewrite split_char_single by now apply no_tab_no_char. reflexivity. Qed.

(** ** The key of a line *)
Lemma forall_quotes c a : is_quote c = true -> str_forall (Ascii.eqb c) a = true -> Forall quote (chars a).
Proof.
  intros Hc Ha. apply Forall_chars in Ha. eapply Forall_impl; [|exact Ha]. intros d Hd. cbn beta in Hd.
  apply Ascii.eqb_eq in Hd. subst d. now apply is_quote_spec.
Qed.
Lemma strip_char_quotes c k : is_quote c = true ->
  exists q1 q2, k = q1 ++ strip_char c k ++ q2 /\ Forall quote (chars q1) /\ Forall quote (chars q2).
Proof.
  intros Hc. unfold strip_char. destruct (strip_by_spec (Ascii.eqb c) k) as (a & b & E & Ha & Hb).
  exists a, b. split; [auto|]. split; eapply forall_quotes; eauto.
Qed.

Lemma blank_prefix_le p a x t b y rest : str_forall p a = true -> p y = false ->
  a ++ String x t = b ++ String y rest -> exists b', b = a ++ b'.
Proof.
  intros Ha Hy. revert b; induction a as [|c a IH]; intros b E; simpl in *; [exists b; auto|].
  apply andb_true_iff in Ha as [Hc Ha]. destruct b as [|d b]; simpl in E; injection E as E1 E2; [congruence|].
  subst d. destruct (IH Ha _ E2) as (b' & ->). exists b'. reflexivity.
Qed.

Lemma key_split line f fr last :
  strip line = String f fr -> find_unquoted colon_c line = Some last ->
  exists a rest, line = a ++ drop (match find_str (String f "") line with Some i => i | None => 0 end) (take last line)
                          ++ String colon_c rest /\ str_forall is_space a = true /\
                    is_space f = false /\ exists t, line = a ++ String f t.
Proof.
  intros Hs Hf. destruct (strip_by_head _ _ _ _ Hs) as (a & t & E & Ha & Hc).
  destruct (find_unquoted_aux_Some colon_c _ _ _ _ eq_refl Hf) as (b & rest & E2 & L & _). simpl in L.
  assert (F : find_str (String f "") line = Some (String.length a)).
  { rewrite E. apply find_char_app. eapply str_forall_not; eauto. }
  rewrite F. subst last.
  destruct (blank_prefix_le is_space a f t b colon_c rest Ha eq_refl) as (b' & ->); [congruence|].
  exists a, rest. split; [|eauto].
  rewrite E2 at 2. rewrite take_app, drop_app, E2. now rewrite app_assoc_s.
Qed.

Lemma truthy_Some o i : truthy_index o = Some i -> o = Some i.
Proof. destruct o as [[|j]|]; simpl; congruence. Qed.

Definition unquote (k : string) : string :=
  if startswith dq k && endswith dq k then strip_char dquote_c k
  else if startswith (String squote_c "") k && endswith (String squote_c "") k then strip_char squote_c k else k.
Lemma unquote_spec k : exists q1 q2, k = q1 ++ unquote k ++ q2 /\ Forall quote (chars q1) /\ Forall quote (chars q2).
Proof.
  unfold unquote. destruct (startswith dq k && endswith dq k); [now apply strip_char_quotes|].
  destruct (startswith (String squote_c "") k && endswith (String squote_c "") k); [now apply strip_char_quotes|].
  exists "", "". simpl. rewrite app_nil_r_s. auto.
Qed.

Lemma key_of_line_KeyOf line key ch r :
  ~ In (char 9) (chars line) -> remove_spacing line = String ch r -> key_of_line line = Val key -> key <> "" ->
  KeyOf (Ascii.eqb ch dash_c) key line.
Proof.
  intros Ht Hr Hk Hne. unfold key_of_line in Hk. rewrite Hr in Hk.
  rewrite (remove_spacing_no_tab _ Ht) in Hr. unfold lstrip in Hr.
  destruct (lstrip_by_spec is_space line) as (sp & E & Hsp & _). rewrite Hr in E.
  set (line' := if Ascii.eqb ch dash_c then String space_c r else String ch r) in *. cbv zeta in Hk.
  destruct (strip line') as [|f fr] eqn:Hs; [discriminate|].
  destruct (truthy_index (find_unquoted colon_c line')) as [last|] eqn:Hf; [|injection Hk as <-; congruence].
  apply truthy_Some in Hf. destruct (key_split _ _ _ _ Hs Hf) as (a & rest & E2 & Ha & Hfs & t & E3).
  set (k := drop _ (take last line')) in *. clearbody k.
  assert (Hu : unquote k = key).
  { unfold unquote. destruct (startswith dq k && endswith dq k); [congruence|].
    destruct (startswith (String squote_c "") k && endswith (String squote_c "") k); congruence. }
  destruct (unquote_spec k) as (q1 & q2 & Ek & Q1 & Q2). rewrite Hu in Ek.
  apply blank_spec in Hsp as Bsp.
  destruct (Ascii.eqb ch dash_c) eqn:Ed.
  - apply Ascii.eqb_eq in Ed. subst ch line'.
    destruct a as [|x a]; simpl in E3; injection E3 as E3 E4; [rewrite <- E3 in Hfs; discriminate|]. subst x.
    simpl in E2. injection E2 as E2. simpl in Ha. apply blank_spec in Ha.
    exists sp, ("-" ++ a), q1, q2, rest. split; [|split; [auto|split; [eauto|auto]]].
    rewrite E, E2, Ek. simpl. now rewrite !app_assoc_s.
  - subst line'.
    destruct a as [|x a].
    + exists sp, "", q1, q2, rest. split; [|auto]. rewrite E, E2, Ek. simpl. now rewrite !app_assoc_s.
    + exfalso. simpl in E3, Ha. injection E3 as <- E3. apply andb_true_iff in Ha as [Ha _].
      destruct (lstrip_by_spec is_space line) as (sp' & _ & _ & [X|(d & u & X & Y)]); congruence.
Qed.

(** ** What is known about an extracted comment *)
Definition line_info (lines : list string) (c : comment) : Prop :=
  exists line ch r,
    nth_error lines (key_line c) = Some line /\ remove_spacing line = String ch r /\
    key_of_line line = Val (for_key c) /\ for_key c <> "" /\
    replaces_dash c = Ascii.eqb ch dash_c /\
    count_indent line (spacing_kind c) = Some (spacing_count c).

Lemma line_comments_In lines ind idx line key n dash ps cs c :
  line_comments lines ind idx line key n dash ps = Val cs -> In c cs ->
  for_key c = key /\ key_line c = idx /\ spacing_kind c = ind /\ spacing_count c = n /\ replaces_dash c = dash /\
  full_string c <> "" /\ exists p, In p ps /\ comment_at lines idx line p = Val (full_string c).
Proof.
  revert cs; induction ps as [|p ps IH]; intros cs; cbn [line_comments].
  - intros E. injection E as <-. simpl. tauto.
  - intros E. apply andthen_Val in E as (t & E1 & E). apply andthen_Val in E as (cs' & E2 & E). injection E as <-.
    intros H.
    assert (G : In c cs' \/ (t <> "" /\ c = Comment t key idx ind n dash)).
    { destruct t; simpl in H; [auto|]. destruct H as [<-|H]; [right; split; [discriminate|auto]|auto]. }
    destruct G as [G|[Gt ->]].
    + destruct (IH _ E2 G) as (? & ? & ? & ? & ? & ? & p' & ? & ?). repeat (split; [assumption|]). exists p'. simpl. auto.
    + simpl. repeat (split; [reflexivity|]). split; [auto|]. exists p. auto.
Qed.

Lemma comments_of_line_In y ind idx line cs c :
  comments_of_line y ind idx line = Val cs -> In c cs ->
  key_line c = idx /\ spacing_kind c = ind /\ full_string c <> "" /\
  (exists p, In p (y_positions y) /\ comment_at (y_lines y) idx line p = Val (full_string c)) /\
  exists ch r, remove_spacing line = String ch r /\ key_of_line line = Val (for_key c) /\ for_key c <> "" /\
    replaces_dash c = Ascii.eqb ch dash_c /\ count_indent line ind = Some (spacing_count c).
Proof.
  unfold comments_of_line. destruct (remove_spacing line) as [|ch r] eqn:R; [intros E; injection E as <-; simpl; tauto|].
  destruct (is_alpha ch || Ascii.eqb ch dash_c); [|intros E; injection E as <-; simpl; tauto].
  destruct (count_indent line ind) as [n|] eqn:N; [|intros E; injection E as <-; simpl; tauto].
  intros E. apply andthen_Val in E as (key & K & E).
  destruct (is_empty key) eqn:Hk; [injection E as <-; simpl; tauto|].
  intros H. destruct (line_comments_In _ _ _ _ _ _ _ _ _ _ E H) as (E1 & E2 & E3 & E4 & E5 & E6 & E7).
  split; [auto|split; [auto|split; [auto|split; [auto|]]]].
  exists ch, r. rewrite E1. split; [auto|split; [auto|split]].
  - intros ->. discriminate.
  - split; [auto|congruence].
Qed.

Lemma comments_from_In y ind rest idx cs c :
  comments_from y ind idx rest = Val cs -> In c cs ->
  exists k line cl, nth_error rest k = Some line /\ comments_of_line y ind (idx + k) line = Val cl /\ In c cl.
Proof.
  revert idx cs; induction rest as [|line rest IH]; intros idx cs; cbn [comments_from].
  - intros E. injection E as <-. simpl. tauto.
  - intros E. apply andthen_Val in E as (cl & E1 & E). apply andthen_Val in E as (cs' & E2 & E). injection E as <-.
    rewrite in_app_iff. intros [H|H].
    + exists 0, line, cl. rewrite Nat.add_0_r. auto.
    + destruct (IH _ _ E2 H) as (k & l & cl' & F1 & F2 & F3). exists (S k), l, cl'.
      rewrite Nat.add_succ_r. auto.
Qed.

Definition lines_of (cs : list comment) : list nat := map key_line cs.
Lemma comments_from_sorted y ind rest idx cs :
  comments_from y ind idx rest = Val cs ->
  StronglySorted le (lines_of cs) /\ Forall (fun c => idx <= key_line c) cs.
Proof.
  revert idx cs; induction rest as [|line rest IH]; intros idx cs; cbn [comments_from].
  - intros E. injection E as <-. split; constructor.
  - intros E. apply andthen_Val in E as (cl & E1 & E). apply andthen_Val in E as (cs' & E2 & E). injection E as <-.
    destruct (IH _ _ E2) as [S1 F1].
    assert (A : Forall (fun c => key_line c = idx) cl).
    { apply Forall_forall. intros c Hc. apply (comments_of_line_In _ _ _ _ _ _ E1 Hc). }
    clear E1. induction cl as [|c cl IHc]; simpl.
    + split; [auto|]. eapply Forall_impl; [|exact F1]. simpl. lia.
    + inversion A as [|? ? A1 A2]; subst. destruct (IHc A2) as [G1 G2]. split.
      * unfold lines_of. simpl. constructor; [exact G1|]. apply Forall_forall. intros k Hk.
        apply in_map_iff in Hk as (d & <- & Hd). rewrite Forall_forall in G2. auto.
      * constructor; auto.
Qed.

(** ** Grouping per line *)
Lemma sorted_le_snoc l a : StronglySorted le (l ++ [a])%list -> StronglySorted le l /\ Forall (fun x => x <= a) l.
Proof.
  induction l as [|x l IH]; simpl; intros H; [split; constructor|].
  inversion H as [|? ? H1 H2]; subst. destruct (IH H1) as [H3 H4]. rewrite Forall_app in H2. destruct H2 as [H2 H5].
  split; constructor; auto. now inversion H5.
Qed.
Lemma sorted_lt_snoc l a : StronglySorted lt l -> Forall (fun x => x < a) l -> StronglySorted lt (l ++ [a])%list.
Proof.
  induction l as [|x l IH]; simpl; intros H F; [constructor; constructor|].
  inversion H; inversion F; subst. constructor; [now apply IH|]. apply Forall_app. auto.
Qed.
Lemma sorted_lt_snoc_inv l a : StronglySorted lt (l ++ [a])%list -> StronglySorted lt l /\ Forall (fun x => x < a) l.
Proof.
  induction l as [|x l IH]; simpl; intros H; [split; constructor|].
  inversion H as [|? ? H1 H2]; subst. destruct (IH H1) as [H3 H4]. rewrite Forall_app in H2. destruct H2 as [H2 H5].
  split; constructor; auto. now inversion H5.
Qed.

Definition group_ok (cs : list comment) (g : nat * list comment) : Prop :=
  snd g <> [] /\ Forall (fun c => key_line c = fst g /\ In c cs) (snd g).
Lemma group_add_keys c gs : map fst (group_add c gs) = map fst gs \/
  (map fst (group_add c gs) = (map fst gs ++ [key_line c])%list /\ ~ In (key_line c) (map fst gs)).
Proof.
  induction gs as [|[k l] gs IH]; simpl; [auto|].
  destruct (Nat.eqb k (key_line c)) eqn:E; simpl; [auto|]. apply Nat.eqb_neq in E.
  destruct IH as [->|[-> N]]; [auto|]. right. split; [auto|]. intros [?|?]; auto.
Qed.
Lemma group_add_ok cs c gs : In c cs -> Forall (group_ok cs) gs -> Forall (group_ok cs) (group_add c gs).
Proof.
  intros Hc. induction gs as [|[k l] gs IH]; simpl; intros F.
  - constructor; [|constructor]. split; [discriminate|]. constructor; simpl; auto.
  - inversion F as [|? ? F1 F2]; subst. destruct (Nat.eqb k (key_line c)) eqn:E.
    + apply Nat.eqb_eq in E. constructor; [|auto]. destruct F1 as [F1 F3]. split; simpl in *.
      * destruct l; discriminate.
      * apply Forall_app. split; [auto|]. constructor; auto.
    + constructor; auto.
Qed.
Lemma group_comments_ok cs : Forall (group_ok cs) (group_comments cs).
Proof.
  unfold group_comments.
  assert (G : forall l gs, (forall c, In c l -> In c cs) -> Forall (group_ok cs) gs ->
              Forall (group_ok cs) (fold_left (fun gs c => group_add c gs) l gs)).
  { induction l as [|c l IH]; simpl; intros gs H F; [auto|]. apply IH; [auto|]. apply group_add_ok; auto. }
  apply G; auto.
Qed.
Lemma group_comments_sorted cs : StronglySorted le (lines_of cs) -> StronglySorted lt (map fst (group_comments cs)).
Proof.
  unfold group_comments. induction cs as [|c cs IH] using rev_ind; [constructor|].
  intros H. unfold lines_of in *. rewrite map_app in H. simpl in H. apply sorted_le_snoc in H as [H1 H2].
  rewrite fold_left_app. simpl. specialize (IH H1).
  pose proof (group_comments_ok cs) as O. unfold group_comments in O.
  set (gs := fold_left _ cs []) in *. clearbody gs.
  destruct (group_add_keys c gs) as [->|[-> N]]; [auto|]. apply sorted_lt_snoc; [auto|].
  apply Forall_forall. intros k Hk. apply in_map_iff in Hk as ([k' l] & <- & Hg). simpl in *.
  rewrite Forall_forall in O. destruct (O _ Hg) as [O1 O2]. simpl in *. destruct l as [|d l]; [congruence|].
  inversion O2 as [|? ? [O3 O4] _]; subst. rewrite Forall_forall in H2.
  assert (key_line d <= key_line c) by (apply H2, in_map, O4).
  assert (key_line d <> key_line c); [|lia]. intros E. apply N. rewrite <- E. apply (in_map fst _ _ Hg).
Qed.

Lemma exc_map_Forall2 {A B} (f : A -> exc B) l l' : exc_map f l = Val l' -> Forall2 (fun a b => f a = Val b) l l'.
Proof.
  revert l'; induction l as [|a l IH]; intros l'; simpl.
  - intros E. injection E as <-. constructor.
  - intros E. apply andthen_Val in E as (b & E1 & E). apply andthen_Val in E as (bs & E2 & E). injection E as <-.
    constructor; auto.
Qed.

Lemma merge_comments_spec cs ms : StronglySorted le (lines_of cs) -> merge_comments cs = Val ms ->
  StronglySorted lt (lines_of ms) /\
  forall m, In m ms -> exists l c, In (key_line m, l) (group_comments cs) /\ In c l /\ In c cs /\ key_line c = key_line m /\
    for_key m = for_key c /\ spacing_kind m = spacing_kind c /\ spacing_count m = spacing_count c /\
    replaces_dash m = existsb replaces_dash l /\ full_string m = join (nl ++ nl) (map full_string l).
Proof.
  intros S M. apply exc_map_Forall2 in M. pose proof (group_comments_sorted _ S) as S2.
  pose proof (group_comments_ok cs) as O. set (gs := group_comments cs) in *. clearbody gs.
  assert (K : forall g m, merge_group g = Val m -> group_ok cs g ->
     exists l c, g = (key_line m, l) /\ In c l /\ In c cs /\ key_line c = key_line m /\
    for_key m = for_key c /\ spacing_kind m = spacing_kind c /\ spacing_count m = spacing_count c /\
    replaces_dash m = existsb replaces_dash l /\ full_string m = join (nl ++ nl) (map full_string l)).
  { intros [k l] m Hm [O1 O2]. unfold merge_group in Hm. cbn [snd fst] in *. destruct l as [|c l]; [discriminate|].
    injection Hm as <-. inversion O2 as [|? ? [O3 O4] _]; subst. exists (c :: l), c.
    cbn [key_line for_key spacing_kind spacing_count replaces_dash full_string].
    split; [congruence|]. split; [simpl; auto|]. repeat split; auto. }
  split.
  - assert (E : map fst gs = lines_of ms); [|now rewrite <- E].
    clear S2. revert O. induction M as [|g m gs ms Hg M IH]; intros O; [reflexivity|].
    inversion O as [|? ? O1 O2]; subst. unfold lines_of in *. simpl. rewrite IH by auto. f_equal.
    destruct (K _ _ Hg O1) as (l & c & -> & _). reflexivity.
  - clear S2. revert O. induction M as [|g m gs ms Hg M IH]; intros O m' Hm; [destruct Hm|].
    inversion O as [|? ? O1 O2]; subst. destruct Hm as [<-|Hm].
    + destruct (K _ _ Hg O1) as (l & c & E & R). exists l, c. rewrite E. simpl. tauto.
    + destruct (IH O2 _ Hm) as (l & c & E & R). exists l, c. simpl. tauto.
Qed.

Lemma extract_comments_spec y ms : extract_comments y = Val ms ->
  StronglySorted lt (lines_of ms) /\ forall m, In m ms -> line_info (y_lines y) m.
Proof.
  unfold extract_comments. intros H.
  assert (G : ms = [] \/ exists ind cs, comments_from y ind 0 (y_lines y) = Val cs /\ merge_comments cs = Val ms).
  { destruct (detect_indentation (y_lines y)) eqn:D.
    - right. apply andthen_Val in H as (cs & H1 & H2). eauto.
    - right. apply andthen_Val in H as (cs & H1 & H2). eauto.
    - left. congruence. }
  destruct G as [->|(ind & cs & C & M)]; [split; [constructor|intros m []]|].
  destruct (comments_from_sorted _ _ _ _ _ C) as [S _].
  destruct (merge_comments_spec _ _ S M) as [S2 I]. split; [auto|].
  assert (L : forall c, In c cs -> line_info (y_lines y) c /\ forall d, In d cs -> key_line c = key_line d -> replaces_dash c = replaces_dash d).
  { assert (P : forall c, In c cs -> exists line ch r, nth_error (y_lines y) (key_line c) = Some line /\
        remove_spacing line = String ch r /\ key_of_line line = Val (for_key c) /\ for_key c <> "" /\
        replaces_dash c = Ascii.eqb ch dash_c /\ count_indent line (spacing_kind c) = Some (spacing_count c)).
    { intros c Hc. destruct (comments_from_In _ _ _ _ _ _ C Hc) as (k & line & cl & N & E & Hcl). simpl in E.
      destruct (comments_of_line_In _ _ _ _ _ _ E Hcl) as (E1 & E2 & _ & _ & ch & r & E3 & E4 & E5 & E6 & E7).
      exists line, ch, r. rewrite E1, E2. auto 10. }
    intros c Hc. split; [exact (P c Hc)|]. intros d Hd E. destruct (P c Hc) as (l1 & c1 & r1 & N1 & R1 & _ & _ & D1 & _).
    destruct (P d Hd) as (l2 & c2 & r2 & N2 & R2 & _ & _ & D2 & _). rewrite E in N1. rewrite N1 in N2.
    injection N2 as <-. rewrite R1 in R2. injection R2 as <- _. congruence. }
  intros m Hm. destruct (I m Hm) as (l & c & Hg & Hl & Hc & E1 & E2 & E3 & E4 & E5 & _).
  destruct (L c Hc) as [(line & ch & r & N & R & K & NE & D & CI) U].
  exists line, ch, r. rewrite <- E1, E2, E3, E4. split; [auto|split; [auto|split; [auto|split; [auto|split; [|auto]]]]].
  rewrite E5, <- D.
  pose proof (group_comments_ok cs) as O. rewrite Forall_forall in O. destruct (O _ Hg) as [_ O2]. simpl in O2.
  rewrite Forall_forall in O2. destruct (replaces_dash c) eqn:Dc.
  - apply existsb_exists. eauto.
  - apply not_true_iff_false. rewrite existsb_exists. intros (d & Hd & Dd).
    destruct (O2 _ Hd) as [Kd Id]. rewrite <- (U d Id) in Dd by congruence. congruence.
Qed.

(** ** Inserting from the bottom up *)
Lemma insert_desc_last c l : Forall (fun d => key_line c < key_line d) l -> insert_desc c l = (l ++ [c])%list.
Proof.
  induction l as [|d l IH]; simpl; intros F; [auto|]. inversion F; subst.
  destruct (Nat.leb (key_line d) (key_line c)) eqn:E; [apply Nat.leb_le in E; lia|]. now rewrite IH.
Qed.
Lemma sort_desc_rev l : StronglySorted lt (lines_of l) -> sort_desc l = rev l.
Proof.
  induction l as [|c l IH]; simpl; intros H; [auto|]. inversion H as [|? ? H1 H2]; subst. rewrite IH by auto.
  apply insert_desc_last. apply Forall_forall. intros d Hd. apply in_rev in Hd. rewrite Forall_forall in H2.
  apply H2. now apply in_map.
Qed.

Lemma nth_error_split_at {A} (l : list A) k x : nth_error l k = Some x ->
  exists a b, l = (a ++ x :: b)%list /\ List.length a = k.
Proof. apply nth_error_split. Qed.
Lemma set_nth_app {A} (a : list A) x y b : set_nth (List.length a) y (a ++ x :: b)%list = (a ++ y :: b)%list.
Proof. induction a; simpl; congruence. Qed.
Lemma insert_at_app {A} (a : list A) x b : insert_at (List.length a) x (a ++ b)%list = (a ++ x :: b)%list.
Proof.
  unfold insert_at. rewrite firstn_app, Nat.sub_diag, firstn_all, skipn_app, skipn_all, Nat.sub_diag. simpl.
  now rewrite app_nil_r.
Qed.

Lemma insert_comment_at c a line b out : key_line c = List.length a ->
  insert_comment c (a ++ line :: b)%list = Val out ->
  exists e, doc_entry c = Val e /\
    out = (a ++ e :: (if replaces_dash c then replace_first dash_c " " line else line) :: b)%list.
Proof.
  intros L. unfold insert_comment. intros H. apply andthen_Val in H as (e & He & H).
  apply andthen_Val in H as (ls & Hl & H). injection H as <-. exists e. split; [auto|].
  destruct (replaces_dash c).
  - apply andthen_Val in Hl as (x & Hx & Hl). injection Hl as <-.
    rewrite L in *. rewrite nth_error_app2, Nat.sub_diag in Hx by lia. injection Hx as <-.
    rewrite set_nth_app. apply insert_at_app.
  - injection Hl as <-. rewrite L. apply insert_at_app.
Qed.
Lemma insert_comment_app c a b : key_line c < List.length a ->
  insert_comment c (a ++ b)%list = andthen (insert_comment c a) (fun a' => Val (a' ++ b)%list).
Proof.
  intros L. destruct (nth_error a (key_line c)) as [x|] eqn:N; [|apply nth_error_None in N; lia].
  destruct (nth_error_split_at _ _ _ N) as (a1 & a2 & -> & E). unfold insert_comment.
  destruct (doc_entry c) as [e|e|]; simpl; auto. rewrite <- E.
  destruct (replaces_dash c); simpl.
  - rewrite <- app_assoc. simpl. rewrite !nth_error_app2, Nat.sub_diag by lia. simpl.
    rewrite !set_nth_app, !insert_at_app, <- app_assoc. reflexivity.
  - rewrite <- app_assoc. simpl. rewrite !insert_at_app, <- app_assoc. reflexivity.
Qed.
Lemma insert_comment_length c l l' : insert_comment c l = Val l' -> List.length l <= List.length l'.
Proof.
  unfold insert_comment. intros H. apply andthen_Val in H as (e & _ & H). apply andthen_Val in H as (l2 & H2 & H).
  injection H as <-.
  assert (E : List.length l2 = List.length l).
  { destruct (replaces_dash c); [|congruence]. apply andthen_Val in H2 as (x & _ & H2). injection H2 as <-.
    generalize (key_line c). induction l; intros [|n]; simpl; auto. }
  unfold insert_at. rewrite app_length. simpl. rewrite firstn_length, skipn_length. lia.
Qed.
Lemma insert_comments_app cs : forall a b, Forall (fun c => key_line c < List.length a) cs ->
  insert_comments cs (a ++ b)%list = andthen (insert_comments cs a) (fun a' => Val (a' ++ b)%list).
Proof.
  induction cs as [|c cs IH]; simpl; intros a b F; [auto|]. inversion F; subst.
  rewrite insert_comment_app by auto. destruct (insert_comment c a) as [a'|e|] eqn:E; simpl; auto.
  apply insert_comment_length in E. apply IH. eapply Forall_impl; [|eassumption]. simpl. lia.
Qed.

Lemma Rewritten_app o1 n1 o2 n2 : Rewritten o1 n1 -> Rewritten o2 n2 -> Rewritten (o1 ++ o2)%list (n1 ++ n2)%list.
Proof. induction 1; simpl; intros; auto; econstructor; eauto. Qed.
Lemma Rewritten_refl l : Rewritten l l.
Proof. induction l; constructor; auto. Qed.

(** ** The inserted entry *)
Lemma join_concat sep l : join sep ("" :: l) = String.concat "" (map (fun t => sep ++ t) l).
Proof.
  assert (G : forall l x, join sep (x :: l) = x ++ String.concat "" (map (fun t => sep ++ t) l)).
  { clear l. induction l as [|y l IH]; intros x; [simpl; now rewrite app_nil_r_s|].
    rewrite join_cons by discriminate. rewrite IH. simpl map. simpl String.concat.
    destruct l; simpl; [now rewrite !app_nil_r_s|]. now rewrite !app_assoc_s. }
  apply (G l "").
Qed.
Lemma indent_repeat n i : indent (str_repeat n (indent_unit i)).
Proof.
  unfold indent. induction n; simpl; [constructor|]. rewrite chars_app. apply Forall_app. split; [|auto].
  destruct i; cbn [indent_unit chars]; (constructor; [vm_compute; auto|constructor]).
Qed.
Lemma indent_unit_length i : String.length (indent_unit i) = 1.
Proof. destruct i; reflexivity. Qed.
Lemma doc_entry_spec c e : doc_entry c = Val e -> Entry (replaces_dash c) (for_key c) e.
Proof.
  unfold doc_entry. intros H. apply andthen_Val in H as (sp & Hs & H). injection H as <-.
  assert (F : format_comment c = String.concat "" (map (fun t => lf ++ str_repeat (spacing_count c + 1) (indent_unit (spacing_kind c)) ++ t)
                                   (splitlines (full_string c)))).
  { unfold format_comment. rewrite join_concat. reflexivity. }
  rewrite F. unfold spacing in Hs. destruct (replaces_dash c).
  - destruct (Nat.ltb (spacing_count c) 2) eqn:E; [discriminate|]. apply Nat.ltb_ge in E. injection Hs as <-.
    rewrite !app_assoc_s. apply Entry_dash; auto using indent_repeat, indent_unit_length.
    + replace (indent_unit (spacing_kind c)) with (str_repeat 1 (indent_unit (spacing_kind c))); [apply indent_repeat|].
      simpl. now rewrite app_nil_r_s.
    + rewrite !str_repeat_length, indent_unit_length. lia.
  - injection Hs as <-. apply Entry_plain; auto using indent_repeat.
    rewrite !str_repeat_length, indent_unit_length. lia.
Qed.

Lemma replace_first_app c new a b : str_forall (fun d => negb (Ascii.eqb c d)) a = true ->
  replace_first c new (a ++ String c b) = a ++ new ++ b.
Proof.
  induction a as [|d a IH]; simpl; intros H; [now rewrite Ascii.eqb_refl|].
  apply andb_true_iff in H as [H1 H2]. apply negb_true_iff in H1. rewrite Ascii.eqb_sym, H1. now rewrite IH.
Qed.

Lemma one_line_rewritten lines c line e :
  line_info lines c -> nth_error lines (key_line c) = Some line -> doc_entry c = Val e ->
  Rewritten [line] [e; if replaces_dash c then replace_first dash_c " " line else line].
Proof.
  intros (line' & ch & r & N & R & K & NE & D & CI) N' He. rewrite N in N'. injection N' as ->.
  apply doc_entry_spec in He. rewrite D in He |- *.
  destruct (remove_spacing_head _ _ _ R) as (sp & t & E & Hsp & Hch).
  destruct (Ascii.eqb ch dash_c) eqn:Ed.
  - apply Ascii.eqb_eq in Ed. subst ch.
    assert (E2 : replace_first dash_c " " line = sp ++ " " ++ t).
    { rewrite E. apply replace_first_app. eapply str_forall_not; eauto. }
    rewrite E2. change (sp ++ String dash_c t) with (sp ++ "-" ++ t) in E. rewrite E.
    eapply Rewritten_dash with (key := for_key c); [exact He|now apply blank_spec| |constructor].
    intros Ht. rewrite <- E in *.
    pose proof (key_of_line_KeyOf _ _ _ _ Ht R K NE) as Q. rewrite Ascii.eqb_refl in Q. exact Q.
  - eapply Rewritten_doc with (key := for_key c); [exact He| |constructor].
    intros Ht. pose proof (key_of_line_KeyOf _ _ _ _ Ht R K NE) as Q. rewrite Ed in Q. exact Q.
Qed.

Lemma insert_comments_rewritten cs : forall lines out,
  StronglySorted lt (lines_of cs) -> (forall c, In c cs -> line_info lines c) ->
  insert_comments (rev cs) lines = Val out -> Rewritten lines out.
Proof.
  induction cs as [|c cs IH] using rev_ind; intros lines out S I H.
  - injection H as <-. apply Rewritten_refl.
  - rewrite rev_app_distr in H. simpl in H. apply andthen_Val in H as (mid & H1 & H2).
    unfold lines_of in S. rewrite map_app in S. simpl in S. apply sorted_lt_snoc_inv in S as [S1 S2].
    assert (Ic : line_info lines c) by (apply I; rewrite in_app_iff; simpl; auto).
    pose proof Ic as (line & ch & r & N & _).
    destruct (nth_error_split_at _ _ _ N) as (a & b & E & L). subst lines.
    destruct (insert_comment_at c a line b mid (eq_sym L) H1) as (e & He & ->).
    assert (F : Forall (fun d => key_line d < List.length a) (rev cs)).
    { apply Forall_forall. intros d Hd. apply in_rev in Hd. rewrite Forall_forall in S2. rewrite L.
      apply S2. now apply in_map. }
    rewrite insert_comments_app in H2 by auto. apply andthen_Val in H2 as (a' & H2 & H3). injection H3 as <-.
    apply Rewritten_app.
    + apply IH; auto. intros d Hd. assert (Id : line_info (a ++ line :: b)%list d) by (apply I; rewrite in_app_iff; auto).
      destruct Id as (l2 & ch2 & r2 & N2 & R2). exists l2, ch2, r2. split; [|auto].
      rewrite Forall_forall in F. rewrite nth_error_app1 in N2; [auto|]. apply F. now apply in_rev in Hd.
    + change (line :: b) with ([line] ++ b)%list.
      match goal with |- Rewritten _ (e :: ?x :: b) => change (e :: x :: b) with ([e; x] ++ b)%list end.
      apply Rewritten_app; [|apply Rewritten_refl].
      eapply one_line_rewritten; eauto.
Qed.

Theorem rewritten_lines_spec y out : rewritten_lines y = Val out -> Rewritten (y_lines y) out.
Proof.
  unfold rewritten_lines. intros H. apply andthen_Val in H as (cs & C & H).
  destruct (extract_comments_spec _ _ C) as [S I]. rewrite (sort_desc_rev _ S) in H.
  eapply insert_comments_rewritten; eauto.
Qed.
