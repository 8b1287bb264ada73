(** Every entry of the data and the metadata of dict nodes is an entry of the input, up to the contents of iterators. *)
From Coq Require Import Ascii String List Bool Arith Lia Permutation.
From Verif Require Import PyStr PyStrFacts Utils Strategies Dispatch Values Tree Build TreeFacts SpecNames NamesFacts SpecData SpecMerge BuildFacts BuildInd TotalFacts TreeProofs SeqFacts FloatFacts MergeFacts GroupFacts Provenance.
Import ListNotations.
Local Open Scope string_scope.

Section Source.
  Variable s : strategies.
  Variable ord : set_order.
  Hypothesis Hord : set_like ord.
  Variable E : key -> pyval -> Prop.
  Hypothesis E_exhaust : forall k x, E k x -> E k (exhaust x).

  Definition values_e (v : pyval) : Prop := forall mk t d, sub (VMap mk t d) v -> forall k x, In (k, x) d -> E k x.
  Definition data_e (d : list (key * pyval)) : Prop := forall k x, In (k, x) d -> E k x /\ values_e x.
  Lemma values_el k t l x : values_e (VSeq k t l) -> In x l -> values_e x.
  Proof. intros H Hx mk t0 d Hs. apply (H mk t0). econstructor; eauto. Qed.
  Lemma values_kvs k t d : values_e (VMap k t d) -> data_e d.
  Proof.
    intros H key x Hx. split; [eapply (H k t d); [constructor|exact Hx]|]. intros mk t0 d0 Hs. apply (H mk t0). econstructor; eauto.
  Qed.
  Lemma values_map k t d : data_e d -> values_e (VMap k t d).
  Proof.
    intros H mk t0 d0 Hs key x Hx. inversion Hs as [|? ? ? ? Hin Hs'|? ? ? k0 y Hin Hs']; subst; [now apply H|]. destruct (H _ _ Hin) as [_ V]. eapply V; eauto.
  Qed.
  Lemma values_exhaust v : values_e v -> values_e (exhaust v).
  Proof.
    intros H mk t d Hs k x Hx. apply sub_exhaust in Hs as (y & Hy & Ey). destruct y as [| | | | | | |k0 ? ?|k0 t0 kvs]; try (cbn in Ey; discriminate); [destruct k0; cbn in Ey; discriminate|].
    cbn in Ey. assert (Ed : d = map (fun kv => (fst kv, exhaust (snd kv))) kvs) by congruence. subst d.
    apply in_map_iff in Hx as ([k1 x1] & E1 & Hx). assert (k1 = k /\ exhaust x1 = x) as [-> <-] by (cbn [fst snd] in E1; split; congruence). apply E_exhaust. eapply H; eauto.
  Qed.
  Lemma data_limit d : data_e d -> data_e (limit s d).
  Proof. intros H k x Hx. apply H. now apply limit_incl in Hx. Qed.
  Definition node_e (n : tree) : Prop := data_e (node_data n) /\ data_e (m_data (node_meta n)).
  Definition tree_e (t : tree) : Prop := forall n, node_of n t -> node_e n.
  Lemma tree_e_node i cs : tree_e (Node i cs) <-> node_e (Node i cs) /\ forall e, In e cs -> tree_e (snd e).
  Proof.
    split.
    - intros H. split; [apply H; constructor|]. intros e He n Hn. apply H. econstructor; eauto.
    - intros [A B] n Hn. apply node_of_inv in Hn as [->|(e & He & Hn)]; auto. apply (B e He _ Hn).
  Qed.
  Lemma tree_e_ren t k new n : tree_e t -> tree_e (ren k new n t).
  Proof. intros H m Hm. apply node_of_ren in Hm as (m' & k' & Hm & ->). specialize (H _ Hm). unfold node_e, node_data, node_meta in *. now rewrite ren_kind. Qed.
  Lemma tree_e_dict i cs d' m' : data_e d' -> data_e (m_data m') -> tree_e (Node i cs) -> tree_e (Node (with_kind i (NDict d' m')) cs).
  Proof. intros Hd Hm H. apply tree_e_node in H as [_ H]. apply tree_e_node. split; auto. split; assumption. Qed.
  Lemma data_update m m' : data_e (m_data m) -> data_e (m_data m') -> data_e (m_data (update_meta m m')).
  Proof. intros A B k x H. apply update_meta_data in H as [H|H]; auto. Qed.
  Lemma tree_e_meta t : tree_e t -> data_e (m_data (node_meta t)).
  Proof. intros H. now destruct (H t (node_refl t)). Qed.
  Lemma tree_e_data t : tree_e t -> data_e (node_data t).
  Proof. intros H. now destruct (H t (node_refl t)). Qed.
  Lemma tree_e_update t o : tree_e t -> tree_e o -> tree_e (update_node t o).
  Proof.
    intros Ht Ho. pose proof (tree_e_meta t Ht) as Mt. pose proof (tree_e_meta o Ho) as Mo. unfold update_node, node_meta in *.
    destruct t as [i cs]. unfold tkind in *. cbn [ti] in *. destruct (i_kind i) as [| | | | | | | |d m] eqn:Ek; auto.
    destruct (i_kind (ti o)) as [| | | | | | | |d' m'] eqn:Eo; auto. pose proof (data_update m m' Mt Mo).
    apply (tree_e_dict i cs (m_data (update_meta m m')) (update_meta m m')); auto.
  Qed.
  Lemma merged_values ts : (forall t, In t ts -> tree_e t) -> values_e (exhaust (VMap MDict ty_dict (fold_left (fun d t => dupdate d (node_data t)) ts []))).
  Proof.
    intros Ht. apply values_exhaust, values_map. intros k x Hx. apply merged_In in Hx as [[]|(t & Hi & Hx)]. apply (tree_e_data t (Ht t Hi) _ _ Hx).
  Qed.
  Lemma from_multiple_e f d trees m :
    (forall name v t, values_e v -> build s ord f name (S d) false v = Ok t -> tree_e t) ->
    (forall t, In t trees -> tree_e t) ->
    from_multiple (fun n d0 => build s ord f n (S d) false (exhaust (VMap MDict ty_dict d0))) trees = Ok m -> tree_e m.
  Proof.
    intros IH Ht H. unfold from_multiple in H. destruct trees as [|first rest]; [discriminate|]. apply bind_Ok in H as (t0 & H1 & H2). injection H2 as <-.
    set (ts := first :: rest) in *.
    assert (M : data_e (m_data (fold_left (fun m t => update_meta m (node_meta t)) ts (node_meta first)))).
    { assert (G : forall l m, (forall t, In t l -> tree_e t) -> data_e (m_data m) -> data_e (m_data (fold_left (fun m t => update_meta m (node_meta t)) l m))).
      { induction l as [|t l IHl]; intros m Hl Hm; cbn [fold_left]; auto. apply IHl; [intros; apply Hl; now right|].
        apply data_update; auto. apply tree_e_meta, Hl. now left. }
      apply G; auto. apply tree_e_meta, Ht. now left. }
    apply IH in H1; [|now apply merged_values].
    unfold set_meta. destruct t0 as [i cs]. unfold tkind. cbn [ti]. destruct (i_kind i) as [| | | | | | | |d1 m1] eqn:Ek; auto.
    eapply tree_e_dict; eauto. apply tree_e_data in H1. unfold node_data, tkind in H1. cbn [ti] in H1. now rewrite Ek in H1.
  Qed.
  Lemma leaf_e name d r k ty t : leaf name d r k ty = Ok t -> leaf_kind k -> tree_e t.
  Proof.
    intros H Lk. unfold leaf in H. destruct (is_compatible name); [|discriminate]. injection H as <-.
    apply tree_e_node. split; [|intros e []]. unfold node_e, node_data, node_meta, tkind. cbn [ti i_kind]. destruct k; try destruct Lk; split; intros ? ? [].
  Qed.
  Lemma build_source : forall fuel name d r v t, values_e v -> build s ord fuel name d r v = Ok t -> tree_e t.
  Proof.
    induction fuel as [|f IH]; intros name d r v t Hv H.
    - destruct v; cbn [build] in H; try (eapply leaf_e; [exact H | exact I]).
      + destruct (negb (is_compatible name)); discriminate.
      + destruct k; [discriminate|]. destruct (negb (is_compatible name)); discriminate.
    - assert (IH' : forall name v t, values_e v -> build s ord f name (S d) false v = Ok t -> tree_e t) by (intros; eapply IH; eauto).
      destruct v; cbn [build] in H; try (eapply leaf_e; [exact H | exact I]).
      + destruct (negb (is_compatible name)); [discriminate|]. apply bind_Ok in H as (cs & H1 & H2). injection H2 as <-.
        assert (El : forall x, In x (limit s l) -> values_e x) by (intros x Hx; eapply values_el; [exact Hv | eapply limit_incl; exact Hx]).
        assert (G : Forall (fun e => tree_e (etree e)) cs).
        { assert (Gset : bind (build_set s (fun n x => build s ord f n (S d) false x) name (limit s l) ([], []))
              (merge_set s ord (fun n d0 => build s ord f n (S d) false (exhaust (VMap MDict ty_dict d0)))) = Ok cs -> Forall (fun e => tree_e (etree e)) cs).
          { clear H1. intros H1. apply bind_Ok in H1 as (ch & H1 & H2).
            eapply (build_set_inv _ _ _ (fun _ st => Forall tree_e (fst st)) _ []) in H1 as (names & H1).
            - cbn [fst] in H1. rewrite Forall_forall in H1. apply Forall_forall.
              destruct (merge_set_spec s ord _ ch cs Hord H2) as [(_ & l' & P & ->)|(_ & trees & m & l' & P & Hm & P' & ->)];
                intros e He; unfold no_sharing in He; apply in_map_iff in He as (x & <- & Hx); unfold etree; cbn [snd].
              + apply H1. eapply Permutation_in; [symmetry; exact P | auto].
              + assert (Tm : tree_e m).
                { apply (from_multiple_e f d trees m IH'); [|exact Hm]. intros u Hu. apply (Permutation_in _ (Permutation_sym P)) in Hu.
                  apply filter_In in Hu as [Hu _]. auto. }
                apply (Permutation_in x (Permutation_sym P')) in Hx.
                assert (In x (filter (fun c => negb (is_td s c)) ch) \/ x = m) as [Kx|Kx].
                { cbv zeta in Hx. destruct (existsb _ _); auto. apply in_app_iff in Hx as [?|[?|[]]]; auto. }
                * apply filter_In in Kx as [Kx _]. now apply H1.
                * now subst.
            - intros done [chs names] v child Hin Hi Hb. cbn [fst] in *. apply IH' in Hb; [|now apply El]. unfold add_child.
              rewrite Forall_forall in Hi. destruct (existsb (teq s child) chs).
              + destruct (node_is_typed_dict s child); cbn [fst]; [|now apply Forall_forall]. apply Forall_forall. intros x Hx.
                apply in_map_iff in Hx as (y & <- & Hy). destruct (teq s child y); auto. now apply tree_e_update; [apply Hi|].
              + cbn [fst]. apply Forall_app. split; [now apply Forall_forall|]. now constructor.
            - constructor. }
          destruct k; try (apply Gset; exact H1). destruct (s_tuple s) eqn:ET; [|apply Gset; exact H1].
          apply bind_Ok in H1 as (ch & H1 & H2).
          eapply (build_list_inv _ _ _ (fun _ ch _ => Forall tree_e ch) _ []) in H1 as (names & H1).
          - rewrite Forall_forall in H1. apply Forall_forall.
            apply merge_list_spec in H2 as [(_ & ->)|(_ & m & Hm & ->)]; intros e He; apply in_map_iff in He as (x & <- & Hx).
            + cbn. auto.
            + assert (Tm : tree_e m).
              { apply (from_multiple_e f d _ m IH') in Hm; auto. intros u Hu. apply filter_In in Hu as [Hu _]. auto. }
              destruct (is_td s x); cbn; auto.
          - intros done chs added v child Hin Hi Hb. apply IH' in Hb; [|now apply El].
            destruct (lookup_tree s child added); apply Forall_app; split; auto. constructor; auto. now apply tree_e_ren.
          - constructor. }
        rewrite Forall_forall in G. apply tree_e_node. split; [|intros e He; now apply G]. split; intros ? ? [].
      + assert (GV : forall kvs' cs, data_e kvs' -> build_values (fun n x => build s ord f n (S d) false x) name kvs' = Ok cs -> Forall (fun e => tree_e (etree e)) (share_groups s name cs)).
        { intros kvs' cs Hd Hb. apply Forall_forall; intros e He; apply share_groups_trees in He as (He1 & k0 & t1 & He2 & He3).
          destruct (build_values_In _ _ _ _ _ _ Hb He2) as (A & x & Hin & B). destruct (Hd _ _ Hin) as [_ Vx]. apply IH' in B; auto.
          destruct He3 as [->|(last & ->)]; auto. now apply tree_e_ren. }
        pose proof (values_kvs _ _ _ Hv) as Dk. destruct k.
        * apply bind_Ok in H as (cs & H1 & H2). injection H2 as <-. set (data := if is_td_strategy s then kvs else limit s kvs) in *.
          assert (Dd : data_e data) by (unfold data; destruct (is_td_strategy s); auto using data_limit).
          apply GV in H1; auto. rewrite Forall_forall in H1. apply tree_e_node. split; [|intros e He; now apply H1]. split; exact Dd.
        * destruct (negb (is_compatible name)); [discriminate|]. apply bind_Ok in H as (cs & H1 & H2). injection H2 as <-.
          apply GV in H1; auto using data_limit. rewrite Forall_forall in H1. apply tree_e_node. split; [|intros e He; now apply H1]. split; intros ? ? [].
  Qed.
End Source.
