(** Where the contents of the nodes come from. *)
From Coq Require Import Ascii String List Bool Arith Lia Permutation.
From Verif Require Import PyStr PyStrFacts Utils Strategies Dispatch Values Tree Build TreeFacts SpecNames NamesFacts SpecData BuildFacts BuildInd TotalFacts TreeProofs.
Import ListNotations.
Local Open Scope string_scope.

(** The class and the type of a node are those of the value. *)
Definition made_from (x : pyval) (n : tree) : Prop :=
  i_type (ti n) = type_of x /\
  match x with
  | VStr _ | VInst _ => tkind n = NInst
  | VFun f => tkind n = NFun f
  | VClass _ c => tkind n = NClass c
  | VModule _ => tkind n = NModule
  | VIO _ => tkind n = NIO
  | VNdarray _ d => tkind n = NNumpy d
  | VSeq k _ _ => tkind n = NSeq k
  | VMap MProxy _ _ => tkind n = NProxy
  | VMap MDict _ _ => exists d m, tkind n = NDict d m
  end.

Section Prov.
  Variable s : strategies.
  Variable ord : set_order.
  Hypothesis Hord : set_like ord.
  Variable T : pyval -> Prop.
  Variable K : key -> Prop.
  Hypothesis T_exhaust : forall x, T x -> T (exhaust x).
  (** The data of merged dicts has every key once. *)
  Hypothesis T_dict : forall d, NoDup (map fst d) -> T (VMap MDict ty_dict d).

  Definition values_ok (v : pyval) : Prop := (forall x, sub x v -> T x) /\ (forall k, key_in k v -> K k).
  Definition data_ok (d : list (key * pyval)) : Prop := forall k x, In (k, x) d -> K k /\ values_ok x.

  Lemma values_ok_root v : values_ok v -> T v.
  Proof. intros [A _]. apply A. constructor. Qed.
  Lemma values_ok_el k t l x : values_ok (VSeq k t l) -> In x l -> values_ok x.
  Proof.
    intros [A B] H. split.
    - intros y Hy. apply A. econstructor; eauto.
    - intros k0 (mk & t0 & kvs & y & Hs & Hk). apply B. exists mk, t0, kvs, y. split; auto. econstructor; eauto.
  Qed.
  Lemma values_ok_kvs k t kvs : values_ok (VMap k t kvs) -> data_ok kvs.
  Proof.
    intros [A B] k0 x H. split; [apply B; exists k, t, kvs, x; split; auto; constructor|]. split.
    - intros y Hy. apply A. econstructor; eauto.
    - intros k1 (mk & t0 & kvs1 & y & Hs & Hk). apply B. exists mk, t0, kvs1, y. split; auto. econstructor; eauto.
  Qed.
  Lemma values_ok_map t d : data_ok d -> T (VMap MDict t d) -> values_ok (VMap MDict t d).
  Proof.
    intros H HT. split.
    - intros x Hx. inversion Hx as [|? ? ? ? Hin Hs|? ? ? ? ? Hin Hs]; subst; auto. destruct (H _ _ Hin) as [_ [A _]]. now apply A.
    - intros k (mk & t0 & kvs & y & Hs & Hk). inversion Hs as [|? ? ? ? Hin Hs'|? ? ? ? ? Hin Hs']; subst.
      + now destruct (H _ _ Hk).
      + destruct (H _ _ Hin) as [_ [_ B]]. apply B. exists mk, t0, kvs, y. auto.
  Qed.
  Lemma values_ok_exhaust v : values_ok v -> values_ok (exhaust v).
  Proof.
    intros [A B]. split.
    - intros x Hx. apply sub_exhaust in Hx as (y & Hy & ->). auto.
    - intros k (mk & t0 & kvs & x & Hs & Hk). apply sub_exhaust in Hs as (y & Hy & E).
      destruct y as [| | | | | | |k1 t1 l1|k1 t1 d1]; try discriminate; [destruct k1; discriminate|]. cbn [exhaust] in E. injection E as -> -> ->.
      apply in_map_iff in Hk as ([k2 y2] & E & Hk). injection E as -> _. apply B. exists k1, t1, d1, y2. auto.
  Qed.
  Lemma data_ok_limit d : data_ok d -> data_ok (limit s d).
  Proof. intros H k x Hx. apply H. now apply limit_incl in Hx. Qed.

  Definition node_ok (n : tree) : Prop :=
    (exists x, T x /\ made_from x n) /\ (forall e, In e (tcs n) -> K (ekey e) \/ ekey e = no_key) /\
    data_ok (node_data n) /\ data_ok (m_data (node_meta n)).
  Definition tree_ok (t : tree) : Prop := forall n, node_of n t -> node_ok n.

  Lemma tree_ok_node i cs : tree_ok (Node i cs) <-> node_ok (Node i cs) /\ forall e, In e cs -> tree_ok (snd e).
  Proof.
    split.
    - intros H. split; [apply H; constructor|]. intros e He n Hn. apply H. econstructor; eauto.
    - intros [A B] n Hn. apply node_of_inv in Hn as [->|(e & He & Hn)]; auto. apply (B e He _ Hn).
  Qed.
  Lemma made_from_kind x i cs i' cs' : made_from x (Node i cs) -> i_type i' = i_type i ->
    (i_kind i' = i_kind i \/ exists d m d' m', i_kind i = NDict d m /\ i_kind i' = NDict d' m') -> made_from x (Node i' cs').
  Proof.
    unfold made_from, tkind. cbn [ti]. intros [A B] Et [Ek|(d & m & d' & m' & E1 & E2)].
    - rewrite Et, Ek. auto.
    - rewrite Et. split; auto. rewrite E1 in B. rewrite E2. destruct x as [| | | | | | | |[]]; try discriminate; eauto.
  Qed.
  Lemma node_ok_ren n k new len : node_ok n -> node_ok (ren k new len n).
  Proof.
    destruct n as [i cs]. intros ((x & A & B) & C & D & E). unfold node_ok, node_data, node_meta in *. rewrite ren_kind. split; [|split; [|split]]; auto.
    - exists x. split; auto.
    - rewrite ren_cs. intros e He. apply in_map_iff in He as (e' & <- & He). apply C in He. exact He.
  Qed.
  Lemma tree_ok_ren t k new n : tree_ok t -> tree_ok (ren k new n t).
  Proof. intros H m Hm. apply node_of_ren in Hm as (m' & k' & Hm & ->). now apply node_ok_ren, H. Qed.
  Lemma tree_ok_dict i cs d m d' m' : i_kind i = NDict d m -> data_ok d' -> data_ok (m_data m') -> tree_ok (Node i cs) ->
    tree_ok (Node (with_kind i (NDict d' m')) cs).
  Proof.
    intros Ek Hd Hm H. apply tree_ok_node in H as [((x & A & B) & C & _) H]. apply tree_ok_node. split; auto.
    split; [|split; [exact C|split; [exact Hd | exact Hm]]]. exists x. split; auto. eapply made_from_kind; eauto. right. repeat eexists; eauto.
  Qed.
  Lemma data_ok_update m m' : data_ok (m_data m) -> data_ok (m_data m') -> data_ok (m_data (update_meta m m')).
  Proof. intros A B k x H. apply update_meta_data in H as [H|H]; auto. Qed.
  Lemma tree_ok_meta t : tree_ok t -> data_ok (m_data (node_meta t)).
  Proof. intros H. destruct (H t (node_refl t)) as (_ & _ & _ & A). exact A. Qed.
  Lemma tree_ok_data t : tree_ok t -> data_ok (node_data t).
  Proof. intros H. destruct (H t (node_refl t)) as (_ & _ & A & _). exact A. Qed.
  Lemma tree_ok_update t o : tree_ok t -> tree_ok o -> tree_ok (update_node t o).
  Proof.
    intros Ht Ho. pose proof (tree_ok_meta t Ht) as Mt. pose proof (tree_ok_meta o Ho) as Mo. unfold update_node, node_meta in *.
    destruct t as [i cs]. unfold tkind in *. cbn [ti] in *. destruct (i_kind i) as [| | | | | | | |d m] eqn:Ek; auto.
    destruct (i_kind (ti o)) as [| | | | | | | |d' m'] eqn:Eo; auto. pose proof (data_ok_update m m' Mt Mo).
    apply (tree_ok_dict i cs d m (m_data (update_meta m m')) (update_meta m m')); auto.
  Qed.

  Lemma merged_NoDup (ts : list tree) : NoDup (map fst (fold_left (fun d t => dupdate d (node_data t)) ts [])).
  Proof.
    assert (G : forall d, NoDup (map fst d) -> NoDup (map fst (fold_left (fun d t => dupdate d (node_data t)) ts d))).
    { induction ts as [|t ts IHt]; intros d Hd; cbn [fold_left]; auto. apply IHt. now apply dupdate_NoDup. }
    apply G. constructor.
  Qed.
  Lemma merged_values_ok ts : (forall t, In t ts -> tree_ok t) ->
    values_ok (exhaust (VMap MDict ty_dict (fold_left (fun d t => dupdate d (node_data t)) ts []))).
  Proof.
    intros Ht. apply values_ok_exhaust, values_ok_map; [|apply T_dict, merged_NoDup].
    intros k x Hx. apply merged_In in Hx as [[]|(t & Hi & Hx)]. apply (tree_ok_data t (Ht t Hi) _ _ Hx).
  Qed.

  Lemma from_multiple_ok f d trees m :
    (forall name v t, values_ok v -> build s ord f name (S d) false v = Ok t -> tree_ok t) ->
    (forall t, In t trees -> tree_ok t) ->
    from_multiple (fun n d0 => build s ord f n (S d) false (exhaust (VMap MDict ty_dict d0))) trees = Ok m -> tree_ok m.
  Proof.
    intros IH Ht H. unfold from_multiple in H. destruct trees as [|first rest]; [discriminate|]. apply bind_Ok in H as (t0 & H1 & H2). injection H2 as <-.
    set (ts := first :: rest) in *.
    assert (M : data_ok (m_data (fold_left (fun m t => update_meta m (node_meta t)) ts (node_meta first)))).
    { assert (G : forall l m, (forall t, In t l -> tree_ok t) -> data_ok (m_data m) -> data_ok (m_data (fold_left (fun m t => update_meta m (node_meta t)) l m))).
      { induction l as [|t l IHl]; intros m Hl Hm; cbn [fold_left]; auto. apply IHl; [intros; apply Hl; now right|].
        apply data_ok_update; auto. apply tree_ok_meta, Hl. now left. }
      apply G; auto. apply tree_ok_meta, Ht. now left. }
    apply IH in H1; [|now apply merged_values_ok].
    unfold set_meta. destruct t0 as [i cs]. unfold tkind. cbn [ti]. destruct (i_kind i) as [| | | | | | | |d1 m1] eqn:Ek; auto.
    eapply tree_ok_dict; eauto. apply tree_ok_data in H1. unfold node_data, tkind in H1. cbn [ti] in H1. now rewrite Ek in H1.
  Qed.

  Lemma leaf_ok name d r k t x : T x -> leaf name d r k (type_of x) = Ok t ->
    (forall i, i_kind i = k -> i_type i = type_of x -> made_from x (Node i [])) -> leaf_kind k -> tree_ok t.
  Proof.
    intros HT H M Lk. unfold leaf in H. destruct (is_compatible name); [|discriminate]. injection H as <-.
    apply tree_ok_node. split; [|intros e []]. split; [exists x; split; auto|]. split; [intros e []|].
    unfold node_data, node_meta, tkind. cbn [ti i_kind]. destruct k; try destruct Lk; split; intros ? ? [].
  Qed.

  Lemma build_prov : forall fuel name d r v t, values_ok v -> build s ord fuel name d r v = Ok t -> tree_ok t.
  Proof.
    assert (Lf : forall name d r v t, values_ok v ->
      match v with VSeq _ _ _ | VMap _ _ _ => False | _ => True end ->
      (match v with
       | VFun f => leaf name d r (NFun f) (type_of v) | VClass _ n => leaf name d r (NClass n) (type_of v)
       | VModule _ => leaf name d r NModule (type_of v) | VIO _ => leaf name d r NIO (type_of v)
       | VNdarray _ dt => leaf name d r (NNumpy dt) (type_of v) | _ => leaf name d r NInst (type_of v) end) = Ok t -> tree_ok t).
    { intros name d r v t Hv Hc H. apply values_ok_root in Hv.
      destruct v; try destruct Hc; (eapply leaf_ok; [exact Hv | exact H | intros i E1 E2; unfold made_from, tkind; cbn [ti]; rewrite E1, E2; auto | exact I]). }
    induction fuel as [|f IH]; intros name d r v t Hv H.
    - destruct v; cbn [build] in H; try (eapply Lf; [exact Hv | exact I | exact H]).
      + destruct (negb (is_compatible name)); discriminate.
      + destruct k; [discriminate|]. destruct (negb (is_compatible name)); discriminate.
    - assert (IH' : forall name v t, values_ok v -> build s ord f name (S d) false v = Ok t -> tree_ok t) by (intros; eapply IH; eauto).
      destruct v; cbn [build] in H; try (eapply Lf; [exact Hv | exact I | exact H]).
      + destruct (negb (is_compatible name)); [discriminate|]. apply bind_Ok in H as (cs & H1 & H2). injection H2 as <-.
        assert (El : forall x, In x (limit s l) -> values_ok x) by (intros x Hx; eapply values_ok_el; [exact Hv | eapply limit_incl; exact Hx]).
        assert (G : Forall (fun e => ekey e = no_key /\ tree_ok (etree e)) cs).
        { assert (Gset : bind (build_set s (fun n x => build s ord f n (S d) false x) name (limit s l) ([], []))
              (merge_set s ord (fun n d0 => build s ord f n (S d) false (exhaust (VMap MDict ty_dict d0)))) = Ok cs ->
              Forall (fun e => ekey e = no_key /\ tree_ok (etree e)) cs).
          { clear H1. intros H1. apply bind_Ok in H1 as (ch & H1 & H2).
            eapply (build_set_inv _ _ _ (fun _ st => Forall tree_ok (fst st)) _ []) in H1 as (names & H1).
            - cbn [fst] in H1. rewrite Forall_forall in H1. apply Forall_forall.
              destruct (merge_set_spec s ord _ ch cs Hord H2) as [(_ & l' & P & ->)|(_ & trees & m & l' & P & Hm & P' & ->)];
                intros e He; unfold no_sharing in He; apply in_map_iff in He as (x & <- & Hx); split; auto; unfold etree; cbn [snd].
              + apply H1. eapply Permutation_in; [symmetry; exact P | auto].
              + assert (Tm : tree_ok m).
                { apply (from_multiple_ok f d trees m IH'); [|exact Hm]. intros u Hu. apply (Permutation_in _ (Permutation_sym P)) in Hu.
                  apply filter_In in Hu as [Hu _]. auto. }
                apply (Permutation_in x (Permutation_sym P')) in Hx.
                assert (In x (filter (fun c => negb (is_td s c)) ch) \/ x = m) as [Kx|Kx].
                { cbv zeta in Hx. destruct (existsb _ _); auto. apply in_app_iff in Hx as [?|[?|[]]]; auto. }
                * apply filter_In in Kx as [Kx _]. now apply H1.
                * now subst.
            - intros done [chs names] v child Hin Hi Hb. cbn [fst] in *. apply IH' in Hb; [|now apply El]. unfold add_child.
              rewrite Forall_forall in Hi. destruct (existsb (teq s child) chs).
              + destruct (node_is_typed_dict s child); cbn [fst]; [|now apply Forall_forall]. apply Forall_forall. intros x Hx.
                apply in_map_iff in Hx as (y & <- & Hy). destruct (teq s child y); auto. now apply tree_ok_update; [apply Hi|].
              + cbn [fst]. apply Forall_app. split; [now apply Forall_forall|]. now constructor.
            - constructor. }
          destruct k; try (apply Gset; exact H1). destruct (s_tuple s) eqn:ET; [|apply Gset; exact H1].
          apply bind_Ok in H1 as (ch & H1 & H2).
          eapply (build_list_inv _ _ _ (fun _ ch _ => Forall tree_ok ch) _ []) in H1 as (names & H1).
          - rewrite Forall_forall in H1. apply Forall_forall.
            apply merge_list_spec in H2 as [(_ & ->)|(_ & m & Hm & ->)]; intros e He; apply in_map_iff in He as (x & <- & Hx).
            + split; [reflexivity|]. cbn. auto.
            + assert (Tm : tree_ok m).
              { apply (from_multiple_ok f d _ m IH') in Hm; auto. intros u Hu. apply filter_In in Hu as [Hu _]. auto. }
              destruct (is_td s x); split; try reflexivity; cbn; auto.
          - intros done chs added v child Hin Hi Hb. apply IH' in Hb; [|now apply El].
            destruct (lookup_tree s child added); apply Forall_app; split; auto. constructor; auto. now apply tree_ok_ren.
          - constructor. }
        rewrite Forall_forall in G. apply tree_ok_node. split; [|intros e He; now apply G].
        split; [exists (VSeq k t0 l); split; [now apply values_ok_root | split; reflexivity]|].
        split; [intros e He; right; now apply G|]. split; intros ? ? [].
      + assert (GV : forall kvs' cs, data_ok kvs' -> build_values (fun n x => build s ord f n (S d) false x) name kvs' = Ok cs ->
          Forall (fun e => K (ekey e) /\ tree_ok (etree e)) (share_groups s name cs)).
        { intros kvs' cs Hd Hb.
          assert (F : forall k0 t0, In (k0, t0) cs -> K k0 /\ tree_ok t0).
          { intros k0 u0 Hk. destruct (build_values_In _ _ _ _ _ _ Hb Hk) as (A & x & Hin & B). destruct (Hd _ _ Hin). eauto. }
          apply Forall_forall; intros e He; apply share_groups_trees in He as (He1 & k0 & t1 & He2 & He3). split.
          - apply in_map_iff in He1 as ([k1 t2] & E & He1). apply F in He1 as [He1 _]. cbn [fst] in E. now rewrite <- E.
          - apply F in He2 as [_ He2]. destruct He3 as [->|(last & ->)]; auto. now apply tree_ok_ren. }
        pose proof (values_ok_kvs _ _ _ Hv) as Dk.
        destruct k.
        * apply bind_Ok in H as (cs & H1 & H2). injection H2 as <-. set (data := if is_td_strategy s then kvs else limit s kvs) in *.
          assert (Dd : data_ok data) by (unfold data; destruct (is_td_strategy s); auto using data_ok_limit).
          apply GV in H1; auto. rewrite Forall_forall in H1. apply tree_ok_node. split; [|intros e He; now apply H1].
          split; [exists (VMap MDict t0 kvs); split; [now apply values_ok_root | split; [reflexivity | repeat eexists]]|].
          split; [intros e He; left; now apply H1|]. split; exact Dd.
        * destruct (negb (is_compatible name)); [discriminate|]. apply bind_Ok in H as (cs & H1 & H2). injection H2 as <-.
          apply GV in H1; auto using data_ok_limit. rewrite Forall_forall in H1. apply tree_ok_node. split; [|intros e He; now apply H1].
          split; [exists (VMap MProxy t0 kvs); split; [now apply values_ok_root | split; reflexivity]|].
          split; [intros e He; left; now apply H1|]. split; intros ? ? [].
  Qed.
End Prov.
