(** When the construction succeeds, in terms of the parts of the data that are looked at. *)
From Coq Require Import Ascii String List Bool Arith Lia Permutation.
From Verif Require Import PyStr PyStrFacts Utils Strategies Dispatch Values Tree Build TreeFacts SpecNames NamesFacts SpecData SpecMerge BuildFacts BuildInd TotalFacts TreeProofs SeqFacts FloatFacts MergeFacts SpecReached.
Import ListNotations.
Local Open Scope string_scope.
Local Open Scope nat_scope.

Lemma limit_first {A} s (l : list A) : limit s l = first_ones s l.
Proof. unfold limit, effective_limit, first_ones. now destruct (s_max_n s) as [[|n]|]. Qed.
Lemma data_looked s kvs : (if is_td_strategy s then kvs else limit s kvs) = looked_at s MDict kvs.
Proof. unfold is_td_strategy, looked_at. rewrite limit_first. now destruct (s_dict s). Qed.
Lemma first_map {A B} s (f : A -> B) l : first_ones s (map f l) = map f (first_ones s l).
Proof. unfold first_ones. destruct (s_max_n s) as [[|n]|]; auto. apply firstn_map. Qed.
Lemma looked_map s k (f : key * pyval -> key * pyval) kvs : looked_at s k (map f kvs) = map f (looked_at s k kvs).
Proof. unfold looked_at. destruct k, (s_dict s); auto using first_map. Qed.
Lemma looked_incl s k kvs : incl (looked_at s k kvs) kvs.
Proof. unfold looked_at. rewrite <- limit_first. destruct k, (s_dict s); auto using incl_refl, limit_incl. Qed.

Lemma met_trans s x y z : met s x y -> met s y z -> met s x z.
Proof. intros H H'. induction H'; auto; econstructor; eauto. Qed.
Lemma met_exhaust s v x : met s x (exhaust v) -> exists y, met s y v /\ x = exhaust y.
Proof.
  induction v using pyval_ind'; simpl; intros Hx; try (inversion Hx; subst; eexists; split; [apply met_here|reflexivity]; fail).
  - rewrite Forall_forall in H.
    assert (K : forall k, k <> KIter -> met s x (VSeq k t (map exhaust l)) -> exists y, met s y (VSeq k t l) /\ x = exhaust y).
    { intros k' Hk' Hs. inversion Hs as [|? ? ? y Hin Hm|]; subst.
      - exists (VSeq k' t l). split; [constructor|]. destruct k'; try reflexivity. congruence.
      - rewrite first_map in Hin. apply in_map_iff in Hin as (z & <- & Hz). assert (Hl : In z l) by (rewrite <- limit_first in Hz; eapply limit_incl; eauto).
        destruct (H _ Hl Hm) as (w & ? & ?). exists w. split; auto. econstructor; eauto. }
    destruct k; try (apply K; congruence). inversion Hx as [|? ? ? y Hin Hm|]; subst.
    + exists (VSeq KIter t l). split; [constructor | reflexivity].
    + unfold first_ones in Hin. destruct (s_max_n s) as [[|n]|]; destruct Hin.
  - rewrite Forall_forall in H. inversion Hx as [| |? ? ? key y Hin Hd Hm]; subst.
    + exists (VMap k t kvs). split; [constructor | reflexivity].
    + rewrite looked_map in Hin. apply in_map_iff in Hin as ([k2 z] & E & Hz). injection E as -> <-.
      destruct (H _ (looked_incl _ _ _ _ Hz) Hm) as (w & ? & ?). exists w. split; auto. econstructor; eauto.
Qed.

(** ** Success *)
Definition fine (s : strategies) (v : pyval) : Prop :=
  (forall x, element_met s x v -> word_like (ty_name (type_of x))) /\ (forall k, key_met s k v -> word_like (ty_name (key_type k))).
Lemma fine_met s v x : fine s v -> met s x v -> fine s x.
Proof.
  intros [A B] H. split.
  - intros y (k & t & l & M & E). apply A. exists k, t, l. split; auto. eapply met_trans; eauto.
  - intros key (k & t & kvs & y & M & E). apply B. exists k, t, kvs, y. split; auto. eapply met_trans; eauto.
Qed.
Lemma fine_exhaust s v : fine s v -> fine s (exhaust v).
Proof.
  intros [A B]. split.
  - intros x (k & t & l & M & E). apply met_exhaust in M as (y & M & Q). destruct y as [| | | | | | |k' t' l'|]; try discriminate.
    assert (In x (map exhaust (first_ones s l'))).
    { rewrite <- first_map. destruct k'; simpl in Q; injection Q as -> -> ->; auto; unfold first_ones in E; destruct (s_max_n s) as [[|n]|]; destruct E. }
    apply in_map_iff in H as (y & <- & Hy). rewrite type_exhaust. apply A. exists k', t', l'. auto.
  - intros key (k & t & kvs & x & M & E & D). apply met_exhaust in M as (y & M & Q). destruct y as [| | | | | | |k' t' l'|k' t' kvs']; try discriminate; [destruct k'; discriminate|].
    simpl in Q. injection Q as -> -> ->. rewrite looked_map in E. apply in_map_iff in E as ([k2 z] & E & Hz). injection E as -> <-.
    apply B. exists k', t', kvs', z. auto.
Qed.

(** Children of a sequence: their name is accepted, and what a dict node knows comes from dicts among the elements. *)
Definition visible_in (s : strategies) (l : list pyval) (d : list (key * pyval)) : Prop :=
  forall k x, In (k, x) d -> exists ty kvs, In (VMap MDict ty kvs) l /\ In (k, x) (looked_at s MDict kvs).
Definition from_row (s : strategies) (l : list pyval) (t : tree) : Prop :=
  is_compatible (tname t) = true /\ visible_in s l (node_data t) /\ visible_in s l (m_data (node_meta t)) /\
  (forall d m, tkind t = NDict d m -> exists ty kvs, In (VMap MDict ty kvs) l).
Lemma from_row_update s l t o : from_row s l t -> from_row s l o -> from_row s l (update_node t o).
Proof.
  intros (N & C & D & E) (_ & C' & D' & E'). split; [now rewrite update_node_name|].
  unfold update_node. destruct (tkind t) as [| | | | | | | |d1 m1] eqn:Kt; try (split; [exact C|]; split; [exact D|]; rewrite Kt; auto).
  destruct (tkind o) as [| | | | | | | |d2 m2] eqn:Ko; try (split; [exact C|]; split; [exact D|]; rewrite Kt; auto).
  unfold node_meta in D, D'. rewrite Kt in D. rewrite Ko in D'.
  assert (F : visible_in s l (m_data (update_meta m1 m2))).
  { intros k x H. apply update_meta_data in H as [H|H]; auto. }
  unfold node_data, node_meta, tkind. cbn [ti i_kind]. split; [|split]; auto. intros d m' _. eapply E; eauto.
Qed.
Lemma build_row s ord fuel name d r v t l : In v l -> is_compatible name = true -> build s ord fuel name d r v = Ok t -> from_row s l t.
Proof.
  intros Hv Hn H. pose proof (proj2 (build_from_els _ _ _ _ _ _ _ _ H)) as Tn. split; [now rewrite Tn|].
  assert (L : forall k ty, leaf_kind k -> leaf name d r k ty = Ok t -> visible_in s l (node_data t) /\ visible_in s l (m_data (node_meta t)) /\
     (forall d m, tkind t = NDict d m -> exists ty kvs, In (VMap MDict ty kvs) l)).
  { intros k ty Hk F. unfold leaf in F. destruct (is_compatible name); [|discriminate]. injection F as <-.
    unfold node_data, node_meta, tkind. simpl. destruct k; try destruct Hk; repeat split; intros ? ? F; try discriminate F; destruct F. }
  destruct fuel as [|f]; destruct v; cbn [build] in H; try (eapply L; eauto; exact I).
  - destruct (negb (is_compatible name)); discriminate.
  - destruct k; [discriminate|]. destruct (negb (is_compatible name)); discriminate.
  - destruct (negb (is_compatible name)); [discriminate|]. apply bind_Ok in H as (cs & H1 & H2). injection H2 as <-.
    unfold node_data, node_meta, tkind. simpl. repeat split; intros ? ? F; try discriminate F; destruct F.
  - destruct k.
    + apply bind_Ok in H as (cs & H1 & H2). injection H2 as <-. rewrite data_looked.
      unfold node_data, node_meta, tkind. simpl. repeat split.
      * intros k x Hx. exists t0, kvs. auto.
      * intros k x Hx. exists t0, kvs. auto.
      * intros. exists t0, kvs. auto.
    + destruct (negb (is_compatible name)); [discriminate|]. apply bind_Ok in H as (cs & H1 & H2). injection H2 as <-.
      unfold node_data, node_meta, tkind. simpl. repeat split; intros ? ? F; try discriminate F; destruct F.
Qed.

Lemma element_compatible name v used : is_compatible name = true -> word_like (ty_name (type_of v)) ->
  is_compatible (fresh_name (element_name name v) used) = true.
Proof.
  intros H W. eapply (good_element W_all W_all_closed name name v used); [apply good_refl; auto using W_all_str|].
  split; auto using W_all_str.
Qed.
Lemma value_compatible name k : is_compatible name = true -> word_like (ty_name (key_type k)) -> is_compatible (value_name name k) = true.
Proof.
  intros H W. eapply (good_value W_all name name k); [apply good_refl; auto using W_all_str|].
  split; [split; auto using W_all_str|]. intros. apply W_all_str.
Qed.

Section Success.
  Variable s : strategies.
  Variable ord : set_order.
  Hypothesis Hord : set_like ord.
  Hypothesis Hmerge : 1 <= s_merge s.

  Lemma merged_ok f d l trees :
    (forall name v, vdepth v <= f -> fine s v -> is_compatible name = true -> exists t, build s ord f name (S d) false v = Ok t) ->
    (forall v, In v l -> vdepth v <= f) -> (forall v, In v l -> fine s v) -> is_td_strategy s = true ->
    trees <> [] -> (forall t, In t trees -> from_row s l t /\ exists dt m, tkind t = NDict dt m) ->
    exists m, from_multiple (fun n d0 => build s ord f n (S d) false (exhaust (VMap MDict ty_dict d0))) trees = Ok m.
  Proof.
    intros IH Hd Ho TS Hn Ht. unfold from_multiple. destruct trees as [|first rest]; [congruence|].
    set (trees := first :: rest) in *.
    set (name := fold_left (fun n t => str_min n (tname t)) trees (tname first)).
    set (merged := fold_left (fun d t => dupdate d (node_data t)) trees []).
    assert (Hname : is_compatible name = true).
    { unfold name. destruct (str_min_in trees (tname first)) as [->|(t & H & ->)].
      - now destruct (Ht first (or_introl eq_refl)) as ((A & _) & _).
      - now destruct (Ht t H) as ((A & _) & _). }
    assert (Hm : forall k x, In (k, x) merged -> exists ty kvs, In (VMap MDict ty kvs) l /\ In (k, x) (looked_at s MDict kvs)).
    { intros k x H. apply merged_In in H as [[]|(t & H & K)]. destruct (Ht t H) as ((_ & C & _) & _). now apply C. }
    assert (LK : looked_at s MDict merged = merged) by (rewrite <- data_looked, TS; reflexivity).
    destruct (IH name (exhaust (VMap MDict ty_dict merged))) as (t & E).
    - etransitivity; [apply vdepth_exhaust|]. destruct f as [|f].
      + destruct (Ht first (or_introl eq_refl)) as ((_ & _ & _ & Hk) & dt & m & E). destruct (Hk _ _ E) as (ty & kvs & H).
        apply Hd in H. simpl in H. lia.
      + apply vdepth_map_intro. intros k x H. apply Hm in H as (ty & kvs & H & K). apply Hd in H. apply looked_incl in K. eapply vdepth_map in H; eauto.
    - apply fine_exhaust.
      assert (P : forall k x, In (k, x) merged -> ~ doc_key k -> fine s x /\ word_like (ty_name (key_type k))).
      { intros k x H D. destruct (Hm k x H) as (ty & kvs & H1 & K). apply Ho in H1. split.
        - eapply fine_met; [exact H1|]. eapply met_value; eauto. constructor.
        - destruct H1 as [_ H1]. apply H1. exists MDict, ty, kvs, x. split; [constructor|auto]. }
      split.
      + intros x (k & ty & l0 & M & E). inversion M as [|? ? ? ? ? ?|? ? ? key y K D M']; subst. rewrite LK in K. destruct (P _ _ K D) as [[A _] _].
        apply A. exists k, ty, l0. auto.
      + intros key (k & ty & kvs & x & M & E & D). inversion M as [|? ? ? ? ? ?|? ? ? key' y K D' M']; subst.
        * rewrite LK in E. apply (P _ _ E D).
        * rewrite LK in K. destruct (P _ _ K D') as [[_ B] _]. apply B. exists k, ty, kvs, x. auto.
    - exact Hname.
    - rewrite E. simpl. eauto.
  Qed.

  Lemma build_fine : forall fuel name d r v, vdepth v <= fuel -> fine s v -> is_compatible name = true ->
    exists t, build s ord fuel name d r v = Ok t.
  Proof.
    induction fuel as [|f IH]; intros name d r v Hd Ho Hc.
    - destruct v; simpl in Hd; try lia; cbn [build]; unfold leaf; rewrite Hc; eauto.
    - destruct v; cbn [build]; try (unfold leaf; rewrite Hc; eauto; fail).
      + rewrite Hc. cbn [negb].
        assert (Hel : forall v, In v (limit s l) -> vdepth v <= f /\ fine s v /\ word_like (ty_name (type_of v))).
        { intros v Hv. split; [apply limit_incl in Hv; eapply vdepth_seq; eauto|]. rewrite limit_first in Hv. split.
          - eapply fine_met; [exact Ho|]. econstructor; eauto. constructor.
          - apply Ho. exists k, t, l. split; [constructor|auto]. }
        assert (Hok : forall v used, In v (limit s l) -> exists c, build s ord f (fresh_name (element_name name v) used) (S d) false v = Ok c).
        { intros v used Hv. destruct (Hel v Hv) as (A & B & C). apply IH; auto. now apply element_compatible. }
        assert (Hchild : forall v used child, In v (limit s l) -> build s ord f (fresh_name (element_name name v) used) (S d) false v = Ok child ->
                   from_row s (limit s l) child).
        { intros v used child Hv E. apply (build_row s ord f (fresh_name (element_name name v) used) (S d) false v child (limit s l) Hv); [|exact E]. apply element_compatible; auto. now apply Hel. }
        assert (Hfin : forall cs, (exists cs', cs = Ok cs') -> exists t0, bind cs (fun cs => Ok (inner name d r (NSeq k) t cs)) = Ok t0).
        { intros cs (cs' & ->). simpl. eauto. }
        apply Hfin.
        assert (TDn : forall t1, is_td s t1 = true -> is_td_strategy s = true /\ exists dt m, tkind t1 = NDict dt m).
        { intros t1 H2. unfold is_td, node_is_typed_dict in H2. destruct (tkind t1); try discriminate. unfold is_typed_dict in H2. apply andb_true_iff in H2 as [_ H2]. eauto. }
        assert (Hset : exists cs', bind (build_set s (fun n x => build s ord f n (S d) false x) name (limit s l) ([], []))
              (merge_set s ord (fun n d0 => build s ord f n (S d) false (exhaust (VMap MDict ty_dict d0)))) = Ok cs').
        { destruct (build_set_ok s (fun n x => build s ord f n (S d) false x) name (limit s l) ([], [])) as (ch & E); [auto|].
          pose proof E as E'. eapply (build_set_inv _ _ _ (fun _ st => Forall (from_row s (limit s l)) (fst st)) _ []) in E' as (names & I).
          - simpl in I. rewrite Forall_forall in I. rewrite E. cbn [bind]. unfold merge_set.
            destruct (should_merge _ _) eqn:SM; [|eauto].
            apply should_merge_nonnil in SM; auto. apply metas_of_nonnil in SM as (t1 & H1 & H2). destruct (TDn _ H2) as [TS _].
            destruct (merged_ok f d (limit s l) (filter (is_td s) (ord 1 ch))) as (m & Em).
            + intros. now apply IH.
            + intros v Hv. now apply Hel.
            + intros v Hv. now apply Hel.
            + exact TS.
            + intros E0. assert (In t1 (filter (is_td s) (ord 1 ch))).
              { apply filter_In. split; auto. eapply Permutation_in; [apply Hord|]. eapply Permutation_in; [apply Permutation_sym, Hord | exact H1]. }
              rewrite E0 in H. destruct H.
            + intros t2 H3. apply filter_In in H3 as [H3 H4]. apply (Permutation_in _ (Permutation_sym (Hord 1 ch))) in H3. split; [auto|now apply TDn].
            + rewrite Em. cbn [bind]. eauto.
          - intros done [chs names] v child Hv Hi Hb. simpl in *. apply Hchild in Hb; auto. unfold add_child. destruct (existsb (teq s child) chs).
            + destruct (node_is_typed_dict s child); auto. simpl. apply Forall_forall. intros x Hx.
              apply in_map_iff in Hx as (y & <- & Hy). rewrite Forall_forall in Hi. destruct (teq s child y); auto. now apply from_row_update; auto.
            + simpl. apply Forall_app. split; auto.
          - constructor. }
        destruct k; try exact Hset. destruct (s_tuple s) eqn:ET; [|exact Hset].
        destruct (build_list_ok s (fun n x => build s ord f n (S d) false x) name (limit s l) [] []) as (ch & E); [auto|].
        pose proof E as E'. eapply (build_list_inv _ _ _ (fun _ ch added => Forall (from_row s (limit s l)) ch /\ Forall (fun e => is_compatible (snd e) = true) added) _ []) in E' as (names & I & _).
        * rewrite Forall_forall in I. rewrite E. cbn [bind]. unfold merge_list. destruct (should_merge _ _) eqn:SM; [|eauto].
          apply should_merge_nonnil in SM; auto. apply metas_of_nonnil in SM as (t1 & H1 & H2). destruct (TDn _ H2) as [TS _].
          destruct (merged_ok f d (limit s l) (filter (is_td s) ch)) as (m & Em).
          -- intros. now apply IH.
          -- intros v Hv. now apply Hel.
          -- intros v Hv. now apply Hel.
          -- exact TS.
          -- intros E0. assert (In t1 (filter (is_td s) ch)) by (apply filter_In; auto). rewrite E0 in H. destruct H.
          -- intros t2 H3. apply filter_In in H3 as [H3 H4]. split; [auto|now apply TDn].
          -- rewrite Em. cbn [bind]. eauto.
        * intros done chs added v child Hv [Hi Ha] Hb. apply Hchild in Hb; auto.
          unfold lookup_tree. destruct (find _ added) as [[t1 n1]|] eqn:F; simpl.
          -- split; auto. apply Forall_app. split; auto. constructor; auto.
             apply find_some in F as [F _]. rewrite Forall_forall in Ha. specialize (Ha _ F). simpl in Ha.
             destruct Hb as (B1 & B2). split; [now rewrite rename_name|]. unfold rename, node_data, node_meta. now rewrite ren_kind.
          -- split; apply Forall_app; split; auto. constructor; auto. simpl. apply Hb.
        * split; constructor.
      + assert (Hval : forall mk, k = mk -> exists cs, build_values (fun n x => build s ord f n (S d) false x) name (looked_at s mk kvs) = Ok cs).
        { intros mk <-. apply build_values_ok. intros k0 x H Hh. apply hidden_false in Hh. apply IH.
          - apply looked_incl in H. eapply vdepth_map; eauto.
          - eapply fine_met; [exact Ho|]. econstructor; eauto. constructor.
          - apply value_compatible; auto. apply Ho. exists k, t, kvs, x. split; [constructor|auto]. }
        destruct k.
        * rewrite data_looked. destruct (Hval MDict eq_refl) as (cs & ->). simpl. eauto.
        * rewrite Hc. cbn [negb]. destruct (Hval MProxy eq_refl) as (cs & E). unfold looked_at in E. rewrite <- limit_first in E. rewrite E. simpl. eauto.
  Qed.
End Success.

(** ** Failure *)
Lemma capitalize_word_back w : str_forall word_char (capitalize w) = true -> str_forall word_char w = true.
Proof.
  destruct w as [|c r]; auto. unfold capitalize. rewrite str_forall_app, andb_true_iff. intros [H1 H2]. cbn [str_forall]. apply andb_true_iff. split.
  - assert (G : implb (str_forall word_char (if Nat.eqb (ord c) 223 then "Ss" else upper_char c)) (word_char c) = true) by by_chars c.
    rewrite H1 in G. exact G.
  - unfold lower in H2. clear H1. induction r as [|d r IH]; auto. cbn [str_map str_forall] in *. apply andb_true_iff in H2 as [H1 H2].
    rewrite IH by auto. rewrite andb_true_r.
    assert (G : implb (word_char (lower_char d)) (word_char d) = true) by by_chars d. rewrite H1 in G. exact G.
Qed.

Lemma digits_word n : str_forall word_char (str_of_nat n) = true.
Proof. apply str_of_nat_word. Qed.
Lemma element_word name v used : is_compatible (fresh_name (element_name name v) used) = true -> word_like (ty_name (type_of v)).
Proof.
  intros H. apply compatible_word in H. apply word_like_spec, capitalize_word_back.
  destruct (fresh_name_app (element_name name v) used) as [E|(n & E)]; rewrite E in H; unfold element_name in H;
    rewrite !str_forall_app, !andb_true_iff in H; tauto.
Qed.
Lemma build_named s ord fuel name d r v t : build s ord fuel name d r v = Ok t -> is_compatible name = true \/ is_dict v.
Proof.
  assert (L : forall k ty, leaf name d r k ty = Ok t -> is_compatible name = true).
  { intros k ty H. unfold leaf in H. destruct (is_compatible name); [auto|discriminate]. }
  destruct fuel as [|f]; destruct v; cbn [build]; intros H; try (left; eapply L; eauto; fail).
  - destruct (is_compatible name); [auto|discriminate].
  - destruct k; [discriminate|]. destruct (is_compatible name); [auto|discriminate].
  - destruct (is_compatible name); auto. discriminate.
  - destruct k; [right; eexists; eauto|]. destruct (is_compatible name); auto. discriminate.
Qed.
Lemma build_set_each s bld parent els : forall st cs, build_set s bld parent els st = Ok cs ->
  forall v, In v els -> exists used c, bld (fresh_name (element_name parent v) used) v = Ok c.
Proof.
  induction els as [|x els IH]; intros st cs H v Hv; [destruct Hv|]. cbn [build_set] in H. apply bind_Ok in H as (c & H1 & H2).
  destruct Hv as [<-|Hv]; [eauto|]. eapply IH; eauto.
Qed.
Lemma build_list_each s bld parent els : forall ch added cs, build_list s bld parent els ch added = Ok cs ->
  forall v, In v els -> exists used c, bld (fresh_name (element_name parent v) used) v = Ok c.
Proof.
  induction els as [|x els IH]; intros ch added cs H v Hv; [destruct Hv|]. cbn [build_list] in H. apply bind_Ok in H as (c & H1 & H2).
  destruct Hv as [<-|Hv]; [eauto|]. destruct (lookup_tree s c added); eapply IH; eauto.
Qed.
Lemma build_values_each bld parent kvs : forall cs, build_values bld parent kvs = Ok cs ->
  forall k v, In (k, v) kvs -> is_hidden k = false -> exists c, bld (value_name parent k) v = Ok c.
Proof.
  induction kvs as [|[k' x] kvs IH]; intros cs H k v Hv Hh; [destruct Hv|]. cbn [build_values] in H.
  destruct Hv as [E|Hv].
  - injection E as -> ->. rewrite Hh in H. apply bind_Ok in H as (c & H1 & _). eauto.
  - destruct (is_hidden k'); [eapply IH; eauto|]. apply bind_Ok in H as (c & _ & H). apply bind_Ok in H as (cs' & H & _). eapply IH; eauto.
Qed.

(** Every value that is met has been built. *)
Lemma build_met s ord x v : met s x v -> forall fuel name d r t, build s ord fuel name d r v = Ok t ->
  exists fuel' name' d' r' t', build s ord fuel' name' d' r' x = Ok t'.
Proof.
  induction 1 as [|k ty l y Hy M IH|k ty kvs key y Hy D M IH]; intros fuel name d r t H; [eauto 6| |].
  - destruct fuel as [|f]; cbn [build] in H; (destruct (negb (is_compatible name)); [discriminate|]); [discriminate|].
    apply bind_Ok in H as (cs & H & _). rewrite <- limit_first in Hy.
    assert (E : exists used c, build s ord f (fresh_name (element_name name y) used) (S d) false y = Ok c).
    { destruct k; try (apply bind_Ok in H as (ch & H & _); eapply (build_set_each _ _ _ _ _ _ H); eauto; fail).
      destruct (s_tuple s); apply bind_Ok in H as (ch & H & _); [eapply (build_list_each _ _ _ _ _ _ _ H)|eapply (build_set_each _ _ _ _ _ _ H)]; eauto. }
    destruct E as (used & c & E). eapply IH; eauto.
  - apply hidden_false in D. destruct fuel as [|f]; cbn [build] in H; destruct k; try discriminate; try (destruct (negb (is_compatible name)); discriminate).
    + rewrite data_looked in H. apply bind_Ok in H as (cs & H & _). destruct (build_values_each _ _ _ _ H _ _ Hy D) as (c & E). eapply IH; eauto.
    + destruct (negb (is_compatible name)); [discriminate|]. apply bind_Ok in H as (cs & H & _). rewrite limit_first in H.
      destruct (build_values_each _ _ _ _ H _ _ Hy D) as (c & E). eapply IH; eauto.
Qed.
Lemma build_elements s ord fuel name d r v t x : build s ord fuel name d r v = Ok t -> element_met s x v -> ~ is_dict x ->
  word_like (ty_name (type_of x)).
Proof.
  intros H (k & ty & l & M & Hx) N. destruct (build_met s ord _ _ M _ _ _ _ _ H) as (f' & n' & d' & r' & t' & B). clear H M.
  destruct f' as [|f]; cbn [build] in B; (destruct (negb (is_compatible n')); [discriminate|]); [discriminate|].
  apply bind_Ok in B as (cs & B & _). rewrite <- limit_first in Hx.
  assert (E : exists used c, build s ord f (fresh_name (element_name n' x) used) (S d') false x = Ok c).
  { destruct k; try (apply bind_Ok in B as (ch & H & _); eapply (build_set_each _ _ _ _ _ _ H); eauto; fail).
    destruct (s_tuple s); apply bind_Ok in B as (ch & H & _); [eapply (build_list_each _ _ _ _ _ _ _ H)|eapply (build_set_each _ _ _ _ _ _ H)]; eauto. }
  destruct E as (used & c & E). apply build_named in E as [E|E]; [|contradiction]. now apply element_word in E.
Qed.
