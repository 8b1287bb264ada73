(** Loop lemmas for the construction; totality; names. *)
From Coq Require Import Ascii String List Bool Arith Lia Permutation.
From Verif Require Import PyStr PyStrFacts Utils Strategies Dispatch Values Tree Build TreeFacts SpecNames NamesFacts SpecData.
Import ListNotations.
Local Open Scope string_scope.

Lemma valid_merge s : valid s -> 1 <= s_merge s.
Proof.
  intros [r H]. unfold validated in H. destruct (post_init r) eqn:E; [discriminate|]. injection H as <-. cbn [s_merge].
  unfold post_init in E. repeat match type of E with (if ?b then _ else _) = _ => destruct b eqn:?; try discriminate end.
  apply ZArith.BinInt.Z.leb_gt in Heqb4. apply ZArith.BinInt.Z.ltb_ge in Heqb5. lia.
Qed.

Lemma valid_merge_100 s : valid s -> s_merge s <= 100.
Proof.
  intros [r H]. unfold validated in H. destruct (post_init r) eqn:E; [discriminate|]. injection H as <-. cbn [s_merge].
  unfold post_init in E. repeat match type of E with (if ?b then _ else _) = _ => destruct b eqn:?; try discriminate end.
  apply ZArith.BinInt.Z.leb_gt in Heqb4. apply ZArith.BinInt.Z.ltb_ge in Heqb5. lia.
Qed.

(** ** Monadic inversion *)
Lemma bind_Ok {A B} (r : res A) (f : A -> res B) b : bind r f = Ok b <-> exists a, r = Ok a /\ f a = Ok b.
Proof. destruct r; simpl; split; try discriminate; eauto; intros (x & E & F); try discriminate. injection E as ->. auto. Qed.

(** ** Loops *)
Lemma build_set_inv s bld parent (I : list pyval -> list tree * list string -> Prop) els :
  forall done st cs,
  (forall done st v child, In v els -> I done st ->
     bld (fresh_name (element_name parent v) (snd st)) v = Ok child ->
     I (done ++ [v])%list (add_child s child (fresh_name (element_name parent v) (snd st)) st)) ->
  I done st -> build_set s bld parent els st = Ok cs ->
  exists names, I (done ++ els)%list (cs, names).
Proof.
  induction els as [|v els IH]; intros done st cs Hstep Hi H; simpl in H.
  - injection H as <-. exists (snd st). rewrite app_nil_r. now destruct st.
  - apply bind_Ok in H as (child & H1 & H2).
    replace (done ++ v :: els)%list with ((done ++ [v]) ++ els)%list by (now rewrite <- app_assoc).
    eapply IH; [| |exact H2].
    + intros. apply Hstep; simpl; auto.
    + apply Hstep; simpl; auto.
Qed.

Lemma build_set_ok s bld parent els : forall st,
  (forall v used, In v els -> exists c, bld (fresh_name (element_name parent v) used) v = Ok c) ->
  exists cs, build_set s bld parent els st = Ok cs.
Proof.
  induction els as [|v els IH]; intros st H; simpl; [eauto|].
  destruct (H v (snd st)) as (c & E); simpl; auto. rewrite E. simpl. apply IH. intros; apply H; simpl; auto.
Qed.

Lemma build_list_inv s bld parent (I : list pyval -> list tree -> list (tree * string) -> Prop) els :
  forall done children added cs,
  (forall done children added v child, In v els -> I done children added ->
     bld (fresh_name (element_name parent v) (map snd added)) v = Ok child ->
     match lookup_tree s child added with
     | Some n => I (done ++ [v])%list (children ++ [rename n child])%list added
     | None => I (done ++ [v])%list (children ++ [child])%list (added ++ [(child, tname child)])%list
     end) ->
  I done children added -> build_list s bld parent els children added = Ok cs ->
  exists added', I (done ++ els)%list cs added'.
Proof.
  induction els as [|v els IH]; intros done children added cs Hstep Hi H; simpl in H.
  - injection H as <-. exists added. now rewrite app_nil_r.
  - apply bind_Ok in H as (child & H1 & H2).
    replace (done ++ v :: els)%list with ((done ++ [v]) ++ els)%list by (now rewrite <- app_assoc).
    pose proof (Hstep done children added v child (or_introl eq_refl) Hi H1) as HS.
    destruct (lookup_tree s child added); (eapply IH; [| |exact H2]; [intros; apply Hstep; simpl; auto | exact HS]).
Qed.

Lemma build_list_ok s bld parent els : forall children added,
  (forall v used, In v els -> exists c, bld (fresh_name (element_name parent v) used) v = Ok c) ->
  exists cs, build_list s bld parent els children added = Ok cs.
Proof.
  induction els as [|v els IH]; intros children added H; simpl; [eauto|].
  destruct (H v (map snd added)) as (c & E); simpl; auto. rewrite E. simpl.
  destruct (lookup_tree s c added); apply IH; intros; apply H; simpl; auto.
Qed.

Lemma build_values_spec bld parent kvs : forall cs,
  build_values bld parent kvs = Ok cs ->
  Forall2 (fun kv kc => fst kv = fst kc /\ bld (value_name parent (fst kv)) (snd kv) = Ok (snd kc))
          (filter (fun kv => negb (is_hidden (fst kv))) kvs) cs.
Proof.
  induction kvs as [|[k v] kvs IH]; intros cs H; simpl in H.
  - injection H as <-. constructor.
  - simpl. destruct (is_hidden k); simpl; [now apply IH|].
    apply bind_Ok in H as (c & H1 & H2). apply bind_Ok in H2 as (cs' & H2 & H3). injection H3 as <-.
    constructor; auto.
Qed.
Lemma build_values_In bld parent kvs cs k c : build_values bld parent kvs = Ok cs -> In (k, c) cs ->
  is_hidden k = false /\ exists v, In (k, v) kvs /\ bld (value_name parent k) v = Ok c.
Proof.
  revert cs. induction kvs as [|[k' v] kvs IH]; intros cs H Hc; simpl in H.
  - injection H as <-. destruct Hc.
  - destruct (is_hidden k') eqn:E.
    + destruct (IH _ H Hc) as (A & x & B & C). split; auto. exists x. simpl. auto.
    + apply bind_Ok in H as (c' & H1 & H2). apply bind_Ok in H2 as (cs' & H2 & H3). injection H3 as <-.
      destruct Hc as [F|Hc].
      * injection F as -> ->. split; auto. exists v. simpl. auto.
      * destruct (IH _ H2 Hc) as (A & x & B & C). split; auto. exists x. simpl. auto.
Qed.
Lemma build_values_ok bld parent kvs :
  (forall k v, In (k, v) kvs -> is_hidden k = false -> exists c, bld (value_name parent k) v = Ok c) ->
  exists cs, build_values bld parent kvs = Ok cs.
Proof.
  induction kvs as [|[k v] kvs IH]; intros H; simpl; [eauto|].
  destruct IH as (cs & E); [intros; apply H; simpl; auto|].
  destruct (is_hidden k) eqn:F; [eauto|]. destruct (H k v) as (c & G); simpl; auto. rewrite G. simpl. rewrite E. simpl. eauto.
Qed.

(** ** Children that come out of sharing *)
Lemma add_group_trees s k c gs : forall t ks, In (t, ks) (add_group s k c gs) ->
  (exists ks', In (t, ks') gs) \/ t = c.
Proof.
  induction gs as [|[t' ks'] gs IH]; simpl; intros t ks H.
  - destruct H as [H|[]]. injection H as <- <-. auto.
  - destruct (teq s c t').
    + destruct H as [H|H]; [injection H as <- <-; left; exists ks'; auto | left; exists ks; auto].
    + destruct H as [H|H]; [injection H as <- <-; left; exists ks'; auto|].
      apply IH in H as [(x & H)|H]; [left; exists x; auto | auto].
Qed.
Lemma groups_of_trees s cs : forall t ks, In (t, ks) (groups_of s cs) -> exists k, In (k, t) cs.
Proof.
  unfold groups_of. assert (H : forall gs,
    (forall t ks, In (t, ks) gs -> exists k, In (k, t) cs) ->
    forall l, incl l cs -> forall t ks, In (t, ks) (fold_left (fun gs kc => add_group s (fst kc) (snd kc) gs) l gs) -> exists k, In (k, t) cs).
  { intros gs Hg l. revert gs Hg. induction l as [|[k c] l IH]; intros gs Hg Hl t ks; simpl; [apply Hg|].
    apply IH; [|intros x Hx; apply Hl; simpl; auto]. intros t' ks' H. apply add_group_trees in H as [(x & H)|H].
    - eapply Hg; eauto.
    - subst. exists k. apply Hl. simpl. auto. }
  intros t ks. apply (H []); [simpl; tauto | apply incl_refl].
Qed.
Lemma rename_groups_spec parent gs : forall last t ks, In (t, ks) (rename_groups parent gs last) ->
  exists t0, In (t0, ks) gs /\ (t = t0 \/ exists last', t = rename (group_name parent t0 last') t0).
Proof.
  induction gs as [|[t0 ks0] gs IH]; simpl; intros last t ks H; [tauto|].
  destruct (Nat.ltb 1 (List.length ks0)); destruct H as [H|H].
  - injection H as <- <-. exists t0. split; auto. right. eauto.
  - apply IH in H as (t1 & H1 & H2). eauto.
  - injection H as <- <-. eauto.
  - apply IH in H as (t1 & H1 & H2). eauto.
Qed.
Lemma share_groups_trees s parent cs e : In e (share_groups s parent cs) ->
  In (ekey e) (map fst cs) /\
  exists k t0, In (k, t0) cs /\ (etree e = t0 \/ exists last, etree e = rename (group_name parent t0 last) t0).
Proof.
  unfold share_groups. intros H. apply in_map_iff in H as ([k c] & E & H). cbn [fst snd] in E.
  destruct (find _ _) as [[t ks]|] eqn:F; subst e; unfold ekey, etree; cbn [fst snd].
  - split; [apply in_map_iff; exists (k, c); auto|]. apply find_some in F as [F _].
    apply rename_groups_spec in F as (t0 & F1 & F2). apply groups_of_trees in F1 as (k' & F1). exists k', t0. split; auto.
  - split; [apply in_map_iff; exists (k, c); auto|]. eauto.
Qed.
Lemma share_groups_keys s parent cs : map ekey (share_groups s parent cs) = map fst cs.
Proof.
  unfold share_groups. rewrite map_map. apply map_ext. intros [k c]. simpl. destruct (find _ _) as [[t ks]|]; reflexivity.
Qed.

(** ** Sequences *)
Lemma metas_of_nonnil s ts : metas_of s ts <> [] <-> exists t, In t ts /\ is_td s t = true.
Proof.
  unfold metas_of, is_td, node_is_typed_dict. split.
  - induction ts as [|t ts IH]; simpl; [tauto|]. intros H.
    destruct (tkind t) eqn:E; try (destruct IH as (x & ? & ?); [exact H | exists x; auto]).
    destruct (is_typed_dict s m) eqn:F.
    + exists t. rewrite E. auto.
    + destruct IH as (x & ? & ?); [exact H | exists x; auto].
  - intros (t & H1 & H2) E. apply in_split in H1 as (a & b & ->). rewrite flat_map_app in E. simpl in E.
    destruct (tkind t); try discriminate. rewrite H2 in E. destruct (flat_map _ a); discriminate.
Qed.
Lemma should_merge_nonnil s ms : 1 <= s_merge s -> should_merge s ms = true -> ms <> [].
Proof.
  intros H E ->. unfold should_merge in E. simpl in E. apply andb_true_iff in E as [E _].
  apply negb_true_iff, Nat.ltb_ge in E. change (percentage 0 0) with 0 in E. lia.
Qed.

Lemma from_multiple_Ok bld trees t : from_multiple bld trees = Ok t ->
  exists first rest t0, trees = first :: rest /\
    bld (fold_left (fun n t => str_min n (tname t)) trees (tname first))
        (fold_left (fun d t => dupdate d (node_data t)) trees []) = Ok t0 /\
    t = set_meta (fold_left (fun m t => update_meta m (node_meta t)) trees (node_meta first)) t0.
Proof.
  unfold from_multiple. destruct trees as [|first rest]; [discriminate|]. intros H. apply bind_Ok in H as (t0 & H1 & H2).
  injection H2 as <-. eauto 6.
Qed.
Lemma str_min_in (l : list tree) n : fold_left (fun n t => str_min n (tname t)) l n = n \/
  exists t, In t l /\ fold_left (fun n t => str_min n (tname t)) l n = tname t.
Proof.
  revert n. induction l as [|t l IH]; intros n; simpl; auto.
  destruct (IH (str_min n (tname t))) as [E|(x & H & E)].
  - rewrite E. unfold str_min. destruct (String.ltb _ _); eauto.
  - right. exists x. auto.
Qed.

Definition merged_from (bld_dict : string -> list (key * pyval) -> res tree) (trees : list tree) (m : tree) : Prop :=
  trees <> [] /\ from_multiple bld_dict trees = Ok m.

(** What the merge step can return. *)
Lemma merge_set_spec s ord bld_dict children cs :
  set_like ord -> merge_set s ord bld_dict children = Ok cs ->
  (should_merge s (metas_of s (ord 0 children)) = false /\ exists l, Permutation children l /\ cs = no_sharing l) \/
  (should_merge s (metas_of s (ord 0 children)) = true /\
   exists trees m l, Permutation (filter (is_td s) children) trees /\
    from_multiple bld_dict trees = Ok m /\
    Permutation (let rest := filter (fun c => negb (is_td s c)) children in
                 if existsb (teq s m) rest then rest else (rest ++ [m])%list) l /\ cs = no_sharing l).
Proof.
  intros Ho H. unfold merge_set in H. destruct (should_merge _ _) eqn:E.
  - apply bind_Ok in H as (m & H1 & H2). injection H2 as <-. right. split; auto.
    eexists _, m, _. split; [|split; [exact H1|split; [|reflexivity]]].
    + clear - Ho. pose proof (Ho 1 children) as P. induction P; simpl; auto.
      * destruct (is_td s x); auto.
      * destruct (is_td s x), (is_td s y); auto; constructor.
      * etransitivity; eauto.
    + apply Ho.
  - injection H as <-. left. split; auto. exists (ord 0 children). split; auto.
Qed.

Lemma merge_list_spec s bld_dict children cs :
  merge_list s bld_dict children = Ok cs ->
  (should_merge s (metas_of s children) = false /\ cs = no_sharing children) \/
  (should_merge s (metas_of s children) = true /\
   exists m, from_multiple bld_dict (filter (is_td s) children) = Ok m /\
    cs = map (fun c => if is_td s c then (no_key, List.length (filter (is_td s) children), m) else (no_key, 1, c)) children).
Proof.
  unfold merge_list. destruct (should_merge _ _) eqn:E; intros H.
  - apply bind_Ok in H as (m & H1 & H2). injection H2 as <-. right. eauto.
  - injection H as <-. auto.
Qed.

Lemma limit_incl {A} s (l : list A) : incl (limit s l) l.
Proof. unfold limit. destruct (effective_limit s); [|apply incl_refl]. intros x H. rewrite <- (firstn_skipn n l). apply in_or_app. auto. Qed.

(** ** Depth of values *)
Lemma maxl_le l n : maxl l <= n <-> Forall (fun x => x <= n) l.
Proof.
  induction l; simpl; [split; [constructor | lia]|]. split.
  - intros H. constructor; [lia|]. apply IHl. lia.
  - inversion 1; subst. apply IHl in H3. lia.
Qed.
Lemma vdepth_seq k t l x n : vdepth (VSeq k t l) <= S n -> In x l -> vdepth x <= n.
Proof.
  simpl. intros H Hx. apply le_S_n, maxl_le in H. rewrite Forall_forall in H. apply H, in_map, Hx.
Qed.
Lemma vdepth_map k t kvs key x n : vdepth (VMap k t kvs) <= S n -> In (key, x) kvs -> vdepth x <= n.
Proof.
  simpl. intros H Hx. apply le_S_n, maxl_le in H. rewrite Forall_forall in H. apply H.
  apply in_map_iff. exists (key, x). auto.
Qed.
Lemma vdepth_map_intro k t kvs n : (forall key x, In (key, x) kvs -> vdepth x <= n) -> vdepth (VMap k t kvs) <= S n.
Proof.
  intros H. simpl. apply le_n_S, maxl_le, Forall_forall. intros d Hd. apply in_map_iff in Hd as ([key x] & <- & Hx). simpl. eauto.
Qed.
Lemma vdepth_exhaust v : vdepth (exhaust v) <= vdepth v.
Proof.
  induction v using pyval_ind'; simpl; auto.
  - rewrite Forall_forall in H.
    assert (E : maxl (map vdepth (map exhaust l)) <= maxl (map vdepth l)).
    { apply maxl_le. apply Forall_forall. intros d Hd. apply in_map_iff in Hd as (x & <- & Hx).
      apply in_map_iff in Hx as (y & <- & Hy). etransitivity; [apply H, Hy|].
      assert (F : Forall (fun d => d <= maxl (map vdepth l)) (map vdepth l)) by now apply maxl_le.
      rewrite Forall_forall in F. apply F. now apply in_map. }
    destruct k; simpl; lia.
  - rewrite Forall_forall in H. apply le_n_S. apply maxl_le. apply Forall_forall. intros d Hd.
    rewrite map_map in Hd. apply in_map_iff in Hd as ([key x] & <- & Hx). simpl. etransitivity; [apply (H _ Hx)|].
    assert (F : Forall (fun d => d <= maxl (map (fun kv => vdepth (snd kv)) kvs)) (map (fun kv => vdepth (snd kv)) kvs)) by now apply maxl_le.
    rewrite Forall_forall in F. apply F. apply in_map_iff. exists (key, x). auto.
Qed.
Lemma type_exhaust v : type_of (exhaust v) = type_of v.
Proof. destruct v; try reflexivity. destruct k; reflexivity. Qed.

Lemma sub_exhaust v x : sub x (exhaust v) -> exists y, sub y v /\ x = exhaust y.
Proof.
  induction v using pyval_ind'; simpl; intros Hx; try (inversion Hx; subst; eexists; split; [apply sub_refl|reflexivity]; fail).
  - rewrite Forall_forall in H.
    assert (K : forall k, k <> KIter -> sub x (VSeq k t (map exhaust l)) -> exists y, sub y (VSeq k t l) /\ x = exhaust y).
    { intros k' Hk' Hs. inversion Hs; subst.
      - exists (VSeq k' t l). split; [constructor|]. destruct k'; try reflexivity. congruence.
      - apply in_map_iff in H2 as (z & <- & Hz). destruct (H _ Hz H4) as (w & ? & ?). exists w. split; auto. econstructor; eauto. }
    destruct k; try (apply K; congruence). inversion Hx; subst.
    + exists (VSeq KIter t l). split; [constructor | reflexivity].
    + destruct H2.
  - rewrite Forall_forall in H. inversion Hx; subst.
    + exists (VMap k t kvs). split; [constructor | reflexivity].
    + apply in_map_iff in H2 as ([k2 z] & E & Hz). injection E as -> <-. destruct (H _ Hz H4) as (w & ? & ?).
      exists w. split; auto. econstructor; eauto.
Qed.
Lemma sub_trans x y z : sub x y -> sub y z -> sub x z.
Proof. intros H1 H2. induction H2; auto; econstructor; eauto. Qed.

(** ** Ordinary type names *)
Lemma word_like_spec s : word_like s <-> str_forall word_char s = true.
Proof.
  rewrite str_forall_In. unfold word_like. rewrite Forall_forall.
  assert (E : forall c, word_char c = true <-> id_continue c /\ code c <> 183 \/ In (code c) [178; 179; 185; 188; 189; 190]).
  { intros c. rewrite <- id_continueb_spec.
    assert (F : forall c, Bool.eqb (word_char c)
       (id_continueb c && negb (Nat.eqb (code c) 183) || existsb (Nat.eqb (code c)) [178; 179; 185; 188; 189; 190]) = true).
    { intros d. by_chars d. }
    specialize (F c). apply eqb_prop in F. rewrite F, orb_true_iff, andb_true_iff, negb_true_iff, Nat.eqb_neq, existsb_exists.
    split; (intros [H|H]; [left; exact H|right]).
    - destruct H as (x & H1 & H2). apply Nat.eqb_eq in H2. now rewrite H2.
    - exists (code c). split; auto. apply Nat.eqb_refl. }
  split; intros H c Hc; [apply E, H; now apply chars_str_In | apply E, H; now apply chars_str_In].
Qed.

Lemma word_upper c : negb (word_char c) || str_forall word_char (upper_char c) = true.
Proof. by_chars c. Qed.
Lemma word_lower c : negb (word_char c) || word_char (lower_char c) = true.
Proof. by_chars c. Qed.
Lemma word_lower_str s : str_forall word_char s = true -> str_forall word_char (lower s) = true.
Proof.
  induction s; simpl; auto. rewrite !andb_true_iff. intros [H1 H2]. split; [|now apply IHs].
  pose proof (word_lower a) as W. now rewrite H1 in W.
Qed.
Lemma capitalize_word s : str_forall word_char s = true -> str_forall word_char (capitalize s) = true.
Proof.
  destruct s as [|c r]; simpl; auto. rewrite andb_true_iff. intros [H1 H2]. rewrite str_forall_app, word_lower_str by auto.
  rewrite andb_true_r. destruct (Nat.eqb (ord c) 223); auto. pose proof (word_upper c) as W. now rewrite H1 in W.
Qed.
Lemma word_alnum c : negb (is_alpha c || is_numeric c) || word_char c = true.
Proof. by_chars c. Qed.
Lemma camel_loop_word b s : str_forall word_char (camel_loop b s) = true.
Proof.
  revert b. induction s; intros b; simpl; auto. destruct (is_alpha a || is_numeric a) eqn:E; auto.
  rewrite str_forall_app, IHs, andb_true_r. pose proof (word_alnum a) as W. rewrite E in W. simpl in W.
  destruct b; simpl; [|now rewrite W]. pose proof (word_upper a) as U. now rewrite W in U.
Qed.
Lemma lstrip_by_nil p s : lstrip_by p s = "" -> str_forall p s = true.
Proof. induction s; simpl; auto. destruct (p a) eqn:E; [auto | discriminate]. Qed.
Lemma decimal_word c : negb (is_decimal c) || word_char c = true.
Proof. by_chars c. Qed.
Lemma decimal_word_str s : str_forall is_decimal s = true -> str_forall word_char s = true.
Proof. apply str_forall_impl. intros c H. pose proof (decimal_word c) as W. now rewrite H in W. Qed.
Lemma camel_word s : str_forall word_char (to_camel_case s) = true.
Proof.
  unfold to_camel_case, drop_digits. destruct (lstrip_by is_decimal s) eqn:E.
  - apply decimal_word_str. now apply lstrip_by_nil.
  - apply camel_loop_word.
Qed.
Lemma str_of_nat_word n : str_forall word_char (str_of_nat n) = true.
Proof. apply decimal_word_str, str_of_nat_decimal. Qed.

Lemma number_from_app fuel count name used : exists n, number_from fuel count name used = name ++ str_of_nat n.
Proof. revert count. induction fuel; intros; simpl; eauto. destruct (mem _ _); eauto. Qed.
Lemma fresh_name_app name used : fresh_name name used = name \/ exists n, fresh_name name used = name ++ str_of_nat n.
Proof. unfold fresh_name. destruct (mem name used); auto. right. apply number_from_app. Qed.

Lemma compatible_word x : is_compatible x = true -> str_forall word_char x = true.
Proof. rewrite is_compatible_iff. tauto. Qed.
Lemma str_forall_drop f n s : str_forall f s = true -> str_forall f (drop n s) = true.
Proof. revert s. induction n; intros [|c r] H; simpl in *; auto. apply andb_true_iff in H as []. auto. Qed.

(** Classes of characters that are kept by the changes of case. *)
Record closed_class (W : ascii -> bool) : Prop := {
  cc_upper : forall c, negb (W c) || str_forall W (upper_char c) = true;
  cc_lower : forall c, negb (W c) || W (lower_char c) = true;
  cc_decimal : forall c, negb (is_decimal c) || W c = true;
  cc_ss : str_forall W "Ss" = true
}.

Section Good.
  Variable W : ascii -> bool.
  Hypothesis HW : closed_class W.

  Lemma W_lower s : str_forall W s = true -> str_forall W (lower s) = true.
  Proof.
    induction s; simpl; auto. rewrite !andb_true_iff. intros [H1 H2]. split; [|now apply IHs].
    pose proof (cc_lower W HW a) as L. now rewrite H1 in L.
  Qed.
  Lemma W_capitalize s : str_forall W s = true -> str_forall W (capitalize s) = true.
  Proof.
    destruct s as [|c r]; [reflexivity|]. cbn [capitalize]. intros H. simpl in H. apply andb_true_iff in H as [H1 H2].
    rewrite str_forall_app, W_lower by auto. rewrite andb_true_r. destruct (Nat.eqb (PyStr.ord c) 223); [apply HW|].
    pose proof (cc_upper W HW c) as U. now rewrite H1 in U.
  Qed.
  Lemma W_decimal s : str_forall is_decimal s = true -> str_forall W s = true.
  Proof. apply str_forall_impl. intros c H. pose proof (cc_decimal W HW c) as D. now rewrite H in D. Qed.
  Lemma W_camel_loop b s : str_forall W s = true -> str_forall W (camel_loop b s) = true.
  Proof.
    revert b. induction s; intros b; simpl; auto. rewrite andb_true_iff. intros [H1 H2]. destruct (is_alpha a || is_numeric a); auto.
    rewrite str_forall_app, IHs, andb_true_r by auto. destruct b; simpl; [|now rewrite H1].
    pose proof (cc_upper W HW a) as U. now rewrite H1 in U.
  Qed.
  Lemma str_forall_lstrip f p s : str_forall f s = true -> str_forall f (lstrip_by p s) = true.
  Proof. induction s; simpl; auto. rewrite andb_true_iff. intros []. destruct (p a); simpl; auto. now apply andb_true_iff. Qed.
  Lemma W_camel s : str_forall W s = true -> str_forall W (to_camel_case s) = true.
  Proof.
    intros H. unfold to_camel_case, drop_digits. pose proof (str_forall_lstrip W is_decimal s H) as L.
    destruct (lstrip_by is_decimal s) eqn:E; auto. now apply W_camel_loop.
  Qed.

  (** A good name: acceptable, made of characters of the class, and extending a given prefix. *)
  Definition good (p x : string) : Prop := is_compatible x = true /\ str_forall W x = true /\ exists r, x = p ++ r.

  Definition wordW (s : string) : Prop := word_like s /\ str_forall W s = true.

  Lemma good_app p x w : good p x -> str_forall word_char w = true -> str_forall W w = true -> good p (x ++ w).
  Proof.
    intros [H1 [H2 [r ->]]] Hw HW'. split; [now apply is_compatible_app|]. split; [now rewrite str_forall_app, H2|].
    exists (r ++ w). now rewrite app_assoc_s.
  Qed.
  Lemma good_refl p : is_compatible p = true -> str_forall W p = true -> good p p.
  Proof. split; auto. split; auto. exists "". now rewrite app_nil_r_s. Qed.
  Lemma good_trans p q x : good p q -> good q x -> good p x.
  Proof. intros [H1 [_ [r ->]]] [H2 [H3 [r' ->]]]. split; auto. split; auto. exists (r ++ r'). now rewrite app_assoc_s. Qed.
  Lemma good_element p parent v used : good p parent -> wordW (ty_name (type_of v)) ->
    good p (fresh_name (element_name parent v) used).
  Proof.
    intros Hp [Hw Hw']. apply word_like_spec in Hw.
    assert (G : good p (element_name parent v)) by (apply good_app; auto; [now apply capitalize_word | now apply W_capitalize]).
    destruct (fresh_name_app (element_name parent v) used) as [->|(n & ->)]; auto.
    apply good_app; auto. apply str_of_nat_word. apply W_decimal, str_of_nat_decimal.
  Qed.
  Definition keyW (k : key) : Prop :=
    wordW (ty_name (key_type k)) /\ forall s, k = KStr s -> str_forall W (to_camel_case s) = true.
  Lemma good_value p parent k : good p parent -> keyW k -> good p (value_name parent k).
  Proof.
    intros Hp [[Hw Hw'] Hk]. apply word_like_spec in Hw. unfold value_name. destruct k; apply good_app; auto; apply camel_word.
  Qed.
  Lemma good_group p parent t last : good p parent -> wordW (ty_name (i_type (ti t))) -> good p (group_name parent t last).
  Proof.
    intros Hp [Hw Hw']. apply word_like_spec in Hw. unfold group_name. apply good_app; auto; rewrite str_forall_app.
    - rewrite capitalize_word by auto. destruct (find _ last); auto. simpl. apply str_of_nat_word.
    - rewrite W_capitalize by auto. destruct (find _ last); auto. simpl. apply W_decimal, str_of_nat_decimal.
  Qed.
  Lemma good_ren p new n t k : good p new -> all_names (good p) t -> all_names (good p) (ren k new n t).
  Proof.
    intros Hn. apply ren_names; auto. intros x [Hx [Hx' _]]. apply good_app; auto; [now apply str_forall_drop, compatible_word | now apply str_forall_drop].
  Qed.
End Good.
