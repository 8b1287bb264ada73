(** Equality of typed dict nodes and names of siblings in sequences. *)
From Coq Require Import Ascii String List Bool Arith Lia Permutation.
From Verif Require Import PyStr PyStrFacts Utils Strategies Dispatch Values Tree Build TreeFacts SpecNames NamesFacts SpecData BuildFacts BuildInd TotalFacts TreeProofs.
Import ListNotations.
Local Open Scope string_scope.

Lemma NoDup_snoc {A} (l : list A) x : NoDup l -> ~ In x l -> NoDup (l ++ [x])%list.
Proof.
  induction l as [|y l IH]; simpl; intros H Hx; [constructor; auto; constructor|]. inversion H; subst. constructor.
  - rewrite in_app_iff. simpl. intuition.
  - apply IH; auto.
Qed.

Section Seq.
  Variable s : strategies.
  Variable ord : set_order.
  Hypothesis Hord : set_like ord.

  (** A dict node that is not a typed dict although typed dicts are requested has children. *)
  Definition has_cs (t : tree) : Prop :=
    forall d m, tkind t = NDict d m -> is_typed_dict s m = false -> is_td_strategy s = true -> tcs t <> [].

  Lemma all_str_spec {A} (d : list (key * A)) : all_str d = true <-> forall k x, In (k, x) d -> is_str_key k = true.
  Proof.
    unfold all_str. rewrite forallb_forall. split.
    - intros H k x Hx. apply (H (k, x) Hx).
    - intros H [k x] Hx. apply (H k x Hx).
  Qed.
  Lemma all_str_keys {A B} (d : list (key * A)) (e : list (key * B)) : (forall k, In k (map fst d) <-> In k (map fst e)) -> all_str d = all_str e.
  Proof.
    intros H. assert (G : forall (A B : Type) (d : list (key * A)) (e : list (key * B)), (forall k, In k (map fst e) -> In k (map fst d)) -> all_str d = true -> all_str e = true).
    { clear. intros A B d e H. rewrite !all_str_spec. intros G k x Hx. apply (in_map fst) in Hx. apply H in Hx. apply in_map_iff in Hx as ([k' y] & E & Hy). simpl in E. subst. eauto. }
    destruct (all_str d) eqn:E; symmetry.
    - eapply G; [|exact E]. intros k. apply H.
    - apply not_true_iff_false. intros F. assert (all_str d = true); [|congruence]. eapply G; [|exact F]. intros k. apply H.
  Qed.

  Lemma build_has_cs fuel name d r v t : build s ord fuel name d r v = Ok t -> has_cs t.
  Proof.
    assert (L : forall k ty, leaf_kind k -> leaf name d r k ty = Ok t -> has_cs t).
    { intros k ty Hk H. unfold leaf in H. destruct (is_compatible name); [|discriminate]. injection H as <-. intros dt m E. unfold tkind in E. simpl in E. subst. destruct Hk. }
    destruct fuel as [|f]; destruct v; cbn [build]; intros H; try (eapply L; [|exact H]; exact I).
    - destruct (negb (is_compatible name)); discriminate.
    - destruct k; [discriminate|]. destruct (negb (is_compatible name)); discriminate.
    - destruct (negb (is_compatible name)); [discriminate|]. apply bind_Ok in H as (cs & H1 & H2). injection H2 as <-. intros dt m E. discriminate.
    - destruct k.
      + apply bind_Ok in H as (cs & H1 & H2). injection H2 as <-. intros dt m E. unfold tkind in E. simpl in E. injection E as <- <-.
        unfold is_typed_dict. cbn [m_data init_meta]. intros E1 E2. rewrite E2 in *. rewrite andb_true_r in E1.
        simpl. intros E3. apply (f_equal (map ekey)) in E3. rewrite share_groups_keys in E3. apply map_eq_nil in E3. subst cs.
        apply not_true_iff_false in E1. apply E1. apply all_str_spec. intros k x Hx. destruct (is_str_key k) eqn:Ek; auto. exfalso.
        apply build_values_spec in H1. inversion H1 as [E|]. assert (In (k, x) (filter (fun kv => negb (is_hidden (fst kv))) kvs)) as F.
        { apply filter_In. split; auto. destruct k; try discriminate; reflexivity. }
        rewrite <- E in F. destruct F.
      + destruct (negb (is_compatible name)); [discriminate|]. apply bind_Ok in H as (cs & H1 & H2). injection H2 as <-. intros dt m E. discriminate.
  Qed.

  Lemma td_teq a b : has_cs b -> is_td s a = true -> teq s a b = true -> is_td s b = true.
  Proof.
    unfold is_td, node_is_typed_dict, teq. intros Hb Ha E. apply andb_true_iff in E as [E1 E2]. destruct (tkind a) as [| | | | | | | |da ma] eqn:Ka; try discriminate.
    apply Nat.eqb_eq in E1. destruct (tkind b) as [| | | | | |kb| |db mb] eqn:Kb; try discriminate; [destruct kb; discriminate|].
    destruct (is_typed_dict s mb) eqn:F; auto. exfalso.
    destruct a as [ia csa], b as [ib csb]. unfold tkind in *. simpl in Ka, Kb. cbn [thash] in E2. rewrite Ka, Kb, Ha, F in E2.
    apply heq_set in E2 as [_ E2]. assert (csb <> []).
    { apply (Hb db mb); auto. unfold is_typed_dict in Ha. now apply andb_true_iff in Ha. }
    destruct csb as [|e csb]; [congruence|]. destruct (E2 _ (or_introl eq_refl)) as (x & Hx & Ex).
    apply in_map_iff in Hx as (y & <- & _). discriminate.
  Qed.

  Lemma update_meta_keys m m' k : In k (map fst (m_data (update_meta m m'))) <-> In k (map fst (m_data m)) \/ In k (map fst (m_data m')).
  Proof.
    unfold update_meta. cbn [m_data]. generalize (m_data m'), (m_data m). intros l. induction l as [|[k' a] l IH]; intros d; simpl; [tauto|].
    rewrite IH. destruct (dmem k' d) eqn:E.
    - apply dmem_spec in E. split; [tauto|]. intros [H|[->|H]]; auto.
    - rewrite dset_In. intuition.
  Qed.
  Lemma update_meta_td m m' : is_typed_dict s m = true -> is_typed_dict s m' = true -> is_typed_dict s (update_meta m m') = true.
  Proof.
    unfold is_typed_dict. rewrite !andb_true_iff. intros [A B] [C _]. split; auto. rewrite all_str_spec in *.
    intros k x Hx. apply (in_map fst) in Hx. apply update_meta_keys in Hx as [Hx|Hx]; apply in_map_iff in Hx as ([k' y] & E & Hy); simpl in E; subst; eauto.
  Qed.
  Lemma update_node_td t o : is_td s t = true -> is_td s o = true -> is_td s (update_node t o) = true.
  Proof.
    unfold is_td, node_is_typed_dict, update_node. destruct (tkind t) eqn:E; try discriminate. destruct (tkind o) eqn:F; try discriminate.
    intros. unfold tkind. simpl. now apply update_meta_td.
  Qed.
  Lemma thash_update t o : is_td s t = true -> is_td s o = true -> thash s (update_node t o) = thash s t.
  Proof.
    intros H1 H2. assert (H3 := update_node_td t o H1 H2). unfold is_td, node_is_typed_dict, update_node in *.
    destruct (tkind t) eqn:E; try discriminate. destruct (tkind o) eqn:F; try discriminate.
    destruct t as [i cs]. unfold tkind in *. simpl in E. cbn [thash]. simpl in H3. cbn [i_kind ti] in *. rewrite H3, E, H1. reflexivity.
  Qed.
  Lemma teq_update t o x : is_td s t = true -> is_td s o = true -> teq s (update_node t o) x = teq s t x.
  Proof.
    intros H1 H2. unfold teq. rewrite thash_update by auto. f_equal.
    unfold is_td, node_is_typed_dict, update_node in *. destruct (tkind t) eqn:E; try discriminate. destruct (tkind o); try discriminate. reflexivity.
  Qed.
  Lemma tcs_update t o : tcs (update_node t o) = tcs t.
  Proof. destruct (update_node_cases t o) as [->|(?&?&?&?&?&->)]; reflexivity. Qed.
  Lemma has_cs_update t o : has_cs t -> is_td s t = true -> is_td s o = true -> has_cs (update_node t o).
  Proof.
    intros H H1 H2 d m E F. assert (G := update_node_td t o H1 H2). unfold is_td, node_is_typed_dict in G. rewrite E in G. congruence.
  Qed.
  Lemma has_cs_ren k new n t : has_cs t -> has_cs (ren k new n t).
  Proof.
    intros H d m. rewrite ren_kind, ren_cs. intros A B C D. apply map_eq_nil in D. now apply (H d m).
  Qed.

  (** Children of a list, set or iterator before merging. *)
  Definition set_inv (st : list tree * list string) : Prop :=
    map tname (fst st) = snd st /\ NoDup (snd st) /\ Forall has_cs (fst st) /\
    (forall a b, In a (fst st) -> In b (fst st) -> teq s a b = true -> a = b).

  Lemma add_child_inv child st name : tname child = name -> ~ In name (snd st) -> has_cs child -> set_inv st -> set_inv (add_child s child name st).
  Proof.
    intros Hn Hf Hc (A & B & C & D). destruct st as [chs names]. simpl in *. unfold add_child. destruct (existsb (teq s child) chs) eqn:E.
    - destruct (node_is_typed_dict s child) eqn:T; [|repeat split; auto]. repeat split; simpl; auto.
      + rewrite <- A, map_map. apply map_ext_in. intros a Ha. destruct (teq s child a); auto. apply update_node_name.
      + apply Forall_forall. intros a Ha. apply in_map_iff in Ha as (b & <- & Hb). rewrite Forall_forall in C. specialize (C b Hb).
        destruct (teq s child b) eqn:Eb; auto. assert (is_td s b = true) by now apply (td_teq child b). now apply has_cs_update.
      + rewrite Forall_forall in C.
        assert (G : forall a x, In a chs -> teq s (if teq s child a then update_node a child else a) x = teq s a x).
        { intros a x Ha. destruct (teq s child a) eqn:Ea; auto. apply teq_update; auto. apply (td_teq child a); auto. }
        intros a b Ha Hb Hab. apply in_map_iff in Ha as (a' & <- & Ha). apply in_map_iff in Hb as (b' & <- & Hb).
        rewrite G, teq_sym, G, teq_sym in Hab by auto. apply D in Hab; auto. now subst.
    - repeat split; simpl.
      + now rewrite map_app, A, <- Hn.
      + apply NoDup_snoc; auto.
      + apply Forall_app. auto.
      + assert (N : forall a, In a chs -> teq s child a = false).
        { intros a Ha. apply not_true_iff_false. intros F. apply not_true_iff_false in E. apply E. apply existsb_exists. eauto. }
        intros a b Ha Hb Hab. apply in_app_iff in Ha as [Ha|[<-|[]]]; apply in_app_iff in Hb as [Hb|[<-|[]]]; auto.
        * rewrite teq_sym, N in Hab; [discriminate | auto].
        * rewrite N in Hab; [discriminate | auto].
  Qed.

  Lemma fold_meta_td trees m : is_typed_dict s m = true -> (forall t, In t trees -> is_td s t = true) ->
    is_typed_dict s (fold_left (fun m t => update_meta m (node_meta t)) trees m) = true.
  Proof.
    revert m. induction trees as [|t trees IH]; intros m Hm Ht; simpl; auto. apply IH; [|intros; apply Ht; simpl; auto].
    apply update_meta_td; auto. specialize (Ht t (or_introl eq_refl)). unfold is_td, node_is_typed_dict, node_meta in *. destruct (tkind t); auto; discriminate.
  Qed.
  Lemma from_multiple_facts f d trees m :
    from_multiple (fun n d0 => build s ord f n d false (exhaust (VMap MDict ty_dict d0))) trees = Ok m ->
    (forall t, In t trees -> is_td s t = true) ->
    is_td s m = true /\ exists t, In t trees /\ tname m = tname t.
  Proof.
    intros H Ht. apply from_multiple_Ok in H as (first & rest & t0 & -> & H & ->). split.
    - assert (exists d1 m1, tkind t0 = NDict d1 m1) as (d1 & m1 & E).
      { destruct f as [|f]; cbn [build exhaust] in H; [discriminate|]. apply bind_Ok in H as (cs & _ & H). injection H as <-. unfold tkind. simpl. eauto. }
      unfold is_td, node_is_typed_dict, set_meta. rewrite E. unfold tkind. cbn [ti i_kind]. apply fold_meta_td; auto.
      specialize (Ht first (or_introl eq_refl)). unfold is_td, node_is_typed_dict, node_meta in *. destruct (tkind first); auto; discriminate.
    - apply build_from_els in H as [_ H].
      assert (tname (set_meta (fold_left (fun m t => update_meta m (node_meta t)) (first :: rest) (node_meta first)) t0) = tname t0) as ->.
      { unfold set_meta. destruct (tkind t0); reflexivity. }
      rewrite H. destruct (str_min_in (first :: rest) (tname first)) as [->|(t & Hin & ->)]; eauto. exists first. simpl. auto.
  Qed.

  Lemma td_not_teq_rest m c : is_td s m = true -> has_cs c -> is_td s c = false -> teq s m c = false.
  Proof. intros A B C. apply not_true_iff_false. intros E. rewrite (td_teq m c) in C; auto. discriminate. Qed.

  Definition distinct_siblings (cs : list (key * nat * tree)) : Prop :=
    NoDup (map (fun e => tname (etree e)) cs) /\
    forall e e', In e cs -> In e' cs -> teq s (etree e) (etree e') = true -> etree e = etree e'.

  Lemma NoDup_map_filter {A B} (f : A -> B) p l : NoDup (map f l) -> NoDup (map f (filter p l)).
  Proof.
    induction l as [|x l IH]; simpl; intros H; auto. inversion H; subst. destruct (p x); simpl; auto. constructor; auto.
    intros F. apply H2. apply in_map_iff in F as (y & E & Hy). apply filter_In in Hy as [Hy _]. rewrite <- E. now apply in_map.
  Qed.

  Lemma merge_set_distinct f d chs cs : set_inv (chs, map tname chs) ->
    merge_set s ord (fun n d0 => build s ord f n d false (exhaust (VMap MDict ty_dict d0))) chs = Ok cs -> distinct_siblings cs.
  Proof.
    intros (_ & B & C & D) H. simpl in *. rewrite Forall_forall in C. apply merge_set_spec in H; auto.
    assert (G : forall l l', Permutation l l' -> NoDup (map tname l) -> (forall a b, In a l -> In b l -> teq s a b = true -> a = b) -> distinct_siblings (no_sharing l')).
    { intros l l' P N E. split.
      - unfold no_sharing. rewrite map_map. eapply Permutation_NoDup; [|exact N]. apply (Permutation_map tname) in P. exact P.
      - intros e e' He He'. apply in_map_iff in He as (a & <- & Ha). apply in_map_iff in He' as (b & <- & Hb). unfold etree. simpl.
        apply E; eapply Permutation_in; try (apply Permutation_sym; exact P); auto. }
    destruct H as [(_ & l & P & ->)|(_ & trees & m & l & P & Hm & P' & ->)].
    - eapply G; eauto.
    - apply from_multiple_facts in Hm as (Tm & t & Ht & Et); [|intros t Ht; apply (Permutation_in _ (Permutation_sym P)) in Ht; now apply filter_In in Ht].
      apply (Permutation_in _ (Permutation_sym P)) in Ht. apply filter_In in Ht as [Ht Htd].
      assert (N : forall c, In c (filter (fun c => negb (is_td s c)) chs) -> teq s m c = false).
      { intros c Hc. apply filter_In in Hc as [Hc Hc']. apply negb_true_iff in Hc'. apply td_not_teq_rest; auto. }
      cbv zeta in P'. replace (existsb (teq s m) (filter (fun c => negb (is_td s c)) chs)) with false in P'.
      2: { symmetry. apply not_true_iff_false. intros E. apply existsb_exists in E as (c & Hc & E). rewrite N in E; [discriminate | auto]. }
      apply (G _ _ P').
      + rewrite map_app. simpl. apply NoDup_snoc; [now apply NoDup_map_filter|]. rewrite Et. intros F. apply in_map_iff in F as (c & E & Hc).
        apply filter_In in Hc as [Hc Hc']. assert (c = t).
        { clear - B Hc Ht E. revert B. induction chs as [|x l IH]; [destruct Hc|]. simpl. intros B. inversion B; subst.
          destruct Hc as [->|Hc], Ht as [->|Ht]; auto.
          - exfalso. apply H1. rewrite E. now apply in_map.
          - exfalso. apply H1. rewrite <- E. now apply in_map. }
        subst. rewrite Htd in Hc'. discriminate.
      + intros a b Ha Hb Hab. apply in_app_iff in Ha as [Ha|[<-|[]]]; apply in_app_iff in Hb as [Hb|[<-|[]]]; auto.
        * apply filter_In in Ha as [Ha _]. apply filter_In in Hb as [Hb _]. auto.
        * rewrite teq_sym, N in Hab; [discriminate | auto].
        * rewrite N in Hab; [discriminate | auto].
  Qed.

  (** Fixed size tuples. *)
  Definition list_inv (chs : list tree) (added : list (tree * string)) : Prop :=
    Forall has_cs chs /\ Forall (fun e => has_cs (fst e)) added /\
    NoDup (map snd added) /\ (forall a n, In (a, n) added -> tname a = n) /\
    (forall a b, In a added -> In b added -> teq s (fst a) (fst b) = true -> a = b) /\
    (forall c, In c chs -> exists a, In a added /\ teq s c (fst a) = true /\ tname c = snd a).

  Definition tuple_siblings (cs : list (key * nat * tree)) : Prop :=
    forall e e', In e cs -> In e' cs -> (teq s (etree e) (etree e') = true <-> tname (etree e) = tname (etree e')).

  Lemma ren_tname new t : tname (rename new t) = if i_root (ti t) then new else new ++ drop (String.length (tname t)) (tname t).
  Proof. destruct t as [i cs]. reflexivity. Qed.
  Lemma drop_all x : drop (String.length x) x = "".
  Proof. induction x; simpl; auto. Qed.
  Lemma rename_name new t : tname (rename new t) = new.
  Proof. rewrite ren_tname, drop_all, app_nil_r_s. now destruct (i_root (ti t)). Qed.

  Lemma list_inv_step chs added child : list_inv chs added -> has_cs child -> ~ In (tname child) (map snd added) ->
    match lookup_tree s child added with
    | Some n => list_inv (chs ++ [rename n child])%list added
    | None => list_inv (chs ++ [child])%list (added ++ [(child, tname child)])%list
    end.
  Proof.
    intros (A & B & C & D & E & F) Hc Hn. unfold lookup_tree. destruct (find _ added) as [[a n]|] eqn:Fi; simpl.
    - apply find_some in Fi as [F1 F2]. simpl in F2. repeat split; auto.
      + apply Forall_app. split; auto. constructor; auto. now apply has_cs_ren.
      + intros c Hc'. apply in_app_iff in Hc' as [Hc'|[<-|[]]]; auto. exists (a, n). split; auto. simpl. split; [|apply rename_name].
        unfold rename. now rewrite teq_ren_l.
    - assert (N : forall a, In a added -> teq s child (fst a) = false) by (intros a Ha; exact (find_none _ _ Fi a Ha)).
      repeat split.
      + apply Forall_app. auto.
      + apply Forall_app. auto.
      + rewrite map_app. now apply NoDup_snoc.
      + intros a n Ha. apply in_app_iff in Ha as [Ha|[Ha|[]]]; auto. now injection Ha as <- <-.
      + intros a b Ha Hb Hab. apply in_app_iff in Ha as [Ha|[<-|[]]]; apply in_app_iff in Hb as [Hb|[<-|[]]]; auto.
        * rewrite teq_sym in Hab. simpl in Hab. rewrite N in Hab; [discriminate | auto].
        * simpl in Hab. rewrite N in Hab; [discriminate | auto].
      + intros c Hc'. apply in_app_iff in Hc' as [Hc'|[<-|[]]].
        * destruct (F c Hc') as (a & Ha & ?). exists a. split; auto. apply in_app_iff. auto.
        * exists (child, tname child). split; [apply in_app_iff; simpl; auto|]. simpl. split; auto. apply teq_refl.
  Qed.

  Lemma merge_list_siblings f d chs added cs : list_inv chs added ->
    merge_list s (fun n d0 => build s ord f n d false (exhaust (VMap MDict ty_dict d0))) chs = Ok cs -> tuple_siblings cs.
  Proof.
    intros (A & B & C & D & E & F) H.
    assert (G : forall a b, In a chs -> In b chs -> (teq s a b = true <-> tname a = tname b)).
    { intros a b Ha Hb. destruct (F a Ha) as (x & Hx & Tx & Nx). destruct (F b Hb) as (y & Hy & Ty & Ny). split; intros T.
      - rewrite Nx, Ny. f_equal. apply E; auto. apply (teq_trans s _ a); [now rewrite teq_sym|]. now apply (teq_trans s _ b).
      - assert (x = y).
        { rewrite Nx, Ny in T. clear - C Hx Hy T. revert C. induction added as [|z l IH]; [destruct Hx|]. simpl. intros C. inversion C; subst.
          destruct Hx as [->|Hx], Hy as [->|Hy]; auto.
          - exfalso. apply H1. rewrite T. now apply in_map.
          - exfalso. apply H1. rewrite <- T. now apply in_map. }
        subst. apply (teq_trans s _ (fst y)); auto. now rewrite teq_sym. }
    apply merge_list_spec in H as [(_ & ->)|(_ & m & Hm & ->)].
    - intros e e' He He'. apply in_map_iff in He as (a & <- & Ha). apply in_map_iff in He' as (b & <- & Hb). now apply G.
    - apply from_multiple_facts in Hm as (Tm & t & Ht & Et); [|intros t Ht; now apply filter_In in Ht].
      apply filter_In in Ht as [Ht Htd]. rewrite Forall_forall in A.
      assert (K : forall c, In c chs -> is_td s c = false -> (teq s m c = true <-> tname m = tname c)).
      { intros c Hc Hc'. rewrite td_not_teq_rest by auto. split; [discriminate|]. intros T. rewrite Et in T. apply G in T; auto.
        apply td_teq in T; auto. congruence. }
      intros e e' He He'. apply in_map_iff in He as (a & <- & Ha). apply in_map_iff in He' as (b & <- & Hb).
      destruct (is_td s a) eqn:Ea, (is_td s b) eqn:Eb; unfold etree; simpl.
      + rewrite teq_refl. tauto.
      + now apply K.
      + rewrite teq_sym. rewrite K by auto. split; auto.
      + now apply G.
  Qed.

  Lemma build_siblings fuel name d r k ty l t : build s ord fuel name d r (VSeq k ty l) = Ok t ->
    match k, s_tuple s with KTuple, TFixed => tuple_siblings (tcs t) | _, _ => distinct_siblings (tcs t) end.
  Proof.
    destruct fuel as [|f]; cbn [build]; intros H; destruct (negb (is_compatible name)); try discriminate.
    apply bind_Ok in H as (cs & H & E). injection E as <-. cbn [inner tcs].
    assert (Gset : bind (build_set s (fun n x => build s ord f n (S d) false x) name (limit s l) ([], []))
              (merge_set s ord (fun n d0 => build s ord f n (S d) false (exhaust (VMap MDict ty_dict d0)))) = Ok cs -> distinct_siblings cs).
    { clear H. intros H. apply bind_Ok in H as (chs & H1 & H2). eapply (build_set_inv _ _ _ (fun _ st => set_inv st) _ []) in H1 as (names & H1).
      - eapply merge_set_distinct; eauto. destruct H1 as (E & ?). simpl in E. subst. split; auto.
      - intros done st v child Hv Hi Hb. apply add_child_inv; auto.
        + now apply build_from_els in Hb.
        + apply fresh_name_fresh.
        + now apply build_has_cs in Hb.
      - repeat split; try constructor. intros a b []. }
    destruct k; try (apply Gset; exact H). destruct (s_tuple s) eqn:ET; [|apply Gset; exact H].
    apply bind_Ok in H as (chs & H1 & H2). eapply (build_list_inv _ _ _ (fun _ chs added => list_inv chs added) _ []) in H1 as (added & H1).
    - eapply merge_list_siblings; eauto.
    - intros done chs0 added v child Hv Hi Hb. apply list_inv_step; auto.
      + now apply build_has_cs in Hb.
      + apply build_from_els in Hb as [_ ->]. apply fresh_name_fresh.
    - repeat split; try constructor; intros a; try (intros ? []); intros [].
  Qed.
End Seq.
