(** The dicts behind each typed dict node of a sequence. *)
From Coq Require Import Ascii String List Bool Arith ZArith Lia Permutation.
From Verif Require Import PyStr PyStrFacts Utils Strategies Dispatch Values Tree Build TreeFacts SpecNames NamesFacts SpecData SpecMerge BuildFacts BuildInd TotalFacts TreeProofs SeqFacts FloatFacts MergeFacts.
Import ListNotations.
Local Open Scope string_scope.
Local Open Scope nat_scope.

Section Groups.
  Variable s : strategies.
  Variable ord : set_order.
  Hypothesis Hord : set_like ord.

  Definition child_key (c : tree) (k : key) : Prop := In k (map ekey (tcs c)).
  (** A typed dict node that stands for dicts with the same visible keys. *)
  Definition pre (c : tree) (ds : list dict) : Prop :=
    ds <> [] /\ (forall d, In d ds -> string_keys d /\ forall k, ~ doc_key k -> (has_key k d <-> child_key c k)) /\
    exists D m, tkind c = NDict D m /\ is_typed_dict s m = true /\
      (forall k, child_key c k -> ~ doc_key k) /\
      (forall k, ~ doc_key k -> (has_key k D <-> child_key c k)) /\ meta_ok m (child_key c) (child_key c) (child_key c) /\
      ((forall d, In d ds -> NoDup (map fst d)) -> NoDup (map fst (m_data m))) /\
      (forall k x, In (k, x) (m_data m) -> exists d, In d ds /\ In (k, x) d).

  Lemma string_keys_all d : all_str d = true <-> string_keys d.
  Proof.
    rewrite all_str_spec. unfold string_keys, has_key. split.
    - intros H k Hk. apply in_map_iff in Hk as ([k' x] & E & Hx). simpl in E. subst. specialize (H _ _ Hx). destruct k; try discriminate. eauto.
    - intros H k x Hx. apply (in_map fst) in Hx. destruct (H _ Hx) as (y & E). simpl in E. now subst.
  Qed.
  Lemma build_td_dict fuel name d r v c : build s ord fuel name d r v = Ok c -> is_td s c = true -> exists ty kvs, v = VMap MDict ty kvs.
  Proof.
    assert (L : forall k ty, leaf_kind k -> leaf name d r k ty = Ok c -> is_td s c = true -> exists ty' kvs, v = VMap MDict ty' kvs).
    { intros k ty Hk H T. unfold leaf in H. destruct (is_compatible name); [|discriminate]. injection H as <-. unfold is_td, node_is_typed_dict, tkind in T. simpl in T.
      destruct k; try discriminate; destruct Hk. }
    destruct fuel as [|f]; destruct v; cbn [build]; intros H T; try (eapply L; [|exact H|exact T]; exact I).
    - destruct (negb (is_compatible name)); discriminate.
    - destruct k; [discriminate|]. destruct (negb (is_compatible name)); discriminate.
    - destruct (negb (is_compatible name)); [discriminate|]. apply bind_Ok in H as (cs & H1 & H2). injection H2 as <-. discriminate T.
    - destruct k; [eauto|]. destruct (negb (is_compatible name)); [discriminate|]. apply bind_Ok in H as (cs & H1 & H2). injection H2 as <-. discriminate T.
  Qed.
  Lemma build_values_keys bld parent kvs cs : build_values bld parent kvs = Ok cs -> map fst cs = visible_keys kvs.
  Proof.
    intros H. apply build_values_spec in H. unfold visible_keys.
    replace (filter (fun k => negb (is_hidden k)) (map fst kvs)) with (map fst (filter (fun kv => negb (is_hidden (fst kv))) kvs)).
    - induction H as [|x y l l' [E _] H IH]; simpl; auto. now rewrite E, IH.
    - clear. induction kvs as [|[k x] kvs IH]; simpl; auto. destruct (is_hidden k); simpl; now rewrite IH.
  Qed.
  Lemma build_dict_node fuel name d r ty kvs c : is_td_strategy s = true -> build s ord fuel name d r (VMap MDict ty kvs) = Ok c ->
    tkind c = NDict kvs (init_meta kvs) /\ map ekey (tcs c) = visible_keys kvs.
  Proof.
    intros T H. destruct fuel as [|f]; cbn [build] in H; [discriminate|]. rewrite T in H. apply bind_Ok in H as (cs & H1 & H2). injection H2 as <-.
    split; [reflexivity|]. cbn [inner tcs]. rewrite share_groups_keys. now apply build_values_keys in H1.
  Qed.
  Lemma td_is_strategy c : is_td s c = true -> is_td_strategy s = true.
  Proof. unfold is_td, node_is_typed_dict. destruct (tkind c); try discriminate. unfold is_typed_dict. rewrite andb_true_iff. tauto. Qed.
  Lemma pre_build fuel name d r ty kvs c : build s ord fuel name d r (VMap MDict ty kvs) = Ok c -> is_td s c = true -> pre c [kvs].
  Proof.
    intros H T. pose proof (td_is_strategy _ T) as S. apply build_dict_node in H as [K C]; auto.
    assert (CK : forall k, ~ doc_key k -> (has_key k kvs <-> child_key c k)).
    { intros k Hk. unfold child_key. rewrite C, visible_In. tauto. }
    unfold is_td, node_is_typed_dict in T. rewrite K in T. pose proof T as T'. unfold is_typed_dict in T'. apply andb_true_iff in T' as [T' _].
    split; [discriminate|]. split.
    - intros d' [<-|[]]. split; [now apply string_keys_all|exact CK].
    - exists kvs, (init_meta kvs). split; auto. split; auto. split; [|split; auto].
      + intros k. unfold child_key. rewrite C, visible_In. tauto.
      + split; [eapply meta_ok_ext; [|apply meta_ok_init]; intros k Hk; rewrite (CK k Hk); tauto|]. split.
        * intros H. apply H. simpl; auto.
        * intros k x H. exists kvs. simpl; auto.
  Qed.
  Lemma build_is_td fuel name d r ty kvs c : is_td_strategy s = true -> build s ord fuel name d r (VMap MDict ty kvs) = Ok c -> string_keys kvs -> is_td s c = true.
  Proof.
    intros T H Hk. apply build_dict_node in H as [K C]; auto. unfold is_td, node_is_typed_dict. rewrite K. unfold is_typed_dict. rewrite T, andb_true_r. now apply string_keys_all.
  Qed.
  Lemma pre_td c ds : pre c ds -> is_td s c = true.
  Proof. intros (_ & _ & D & m & E & T & _). unfold is_td, node_is_typed_dict. now rewrite E. Qed.

  Lemma td_teq_keys a b : is_td s a = true -> is_td s b = true -> teq s a b = true -> forall k, child_key a k <-> child_key b k.
  Proof.
    assert (G : forall a b k, is_td s a = true -> is_td s b = true -> teq s a b = true -> child_key a k -> child_key b k).
    { clear. intros [ia csa] [ib csb] k A B E H. unfold is_td, node_is_typed_dict, teq, tkind in *. simpl ti in *.
      apply andb_true_iff in E as [_ E]. cbn [thash] in E. destruct (i_kind ia); try discriminate. destruct (i_kind ib); try discriminate. rewrite A, B in E.
      apply heq_set in E as [E _]. unfold child_key in *. cbn [tcs] in *. apply in_map_iff in H as (e & <- & He).
      destruct (E _ (in_map (fun e => HTd (fst (fst e)) (thash s (snd e))) _ _ He)) as (x & Hx & Ex). apply in_map_iff in Hx as (e' & <- & He').
      simpl in Ex. apply andb_true_iff in Ex as [Ex _]. apply key_eqb_spec in Ex. unfold ekey. rewrite Ex. apply (in_map ekey _ _ He'). }
    intros A B E k. split; apply G; auto. now rewrite teq_sym.
  Qed.
  Lemma update_meta_NoDup m m' : NoDup (map fst (m_data m)) -> NoDup (map fst (m_data (update_meta m m'))).
  Proof.
    unfold update_meta. cbn [m_data]. generalize (m_data m'), (m_data m). intros l. induction l as [|[k x] l IH]; intros d H; simpl; auto.
    apply IH. destruct (dmem k d); auto. now apply dset_NoDup.
  Qed.
  Lemma pre_update c ds c' ds' : pre c ds -> pre c' ds' -> teq s c' c = true -> pre (update_node c c') (ds ++ ds').
  Proof.
    intros P P' E. pose proof (td_teq_keys _ _ (pre_td _ _ P') (pre_td _ _ P) E) as KK.
    destruct P as (N & U & D & m & Ek & T & V & H & M & ND & VS). destruct P' as (N' & U' & D' & m' & Ek' & T' & V' & H' & M' & ND' & VS').
    assert (CK : forall k, child_key (update_node c c') k <-> child_key c k) by (intros k; unfold child_key; now rewrite tcs_update).
    split; [intros F; apply app_eq_nil in F; tauto|]. split.
    - intros d Hd. apply in_app_iff in Hd as [Hd|Hd].
      + destruct (U d Hd) as [A B]. split; auto. intros k Hk. rewrite CK. auto.
      + destruct (U' d Hd) as [A B]. split; auto. intros k Hk. rewrite CK, <- KK. auto.
    - unfold update_node. rewrite Ek, Ek'. cbn [tkind ti i_kind]. eexists _, _. split; [reflexivity|]. split; [now apply update_meta_td|].
      change (forall k, child_key c k -> ~ doc_key k) in V. split; [exact V|].
      assert (MU : meta_ok (update_meta m m') (child_key c) (child_key c) (child_key c)).
      { eapply meta_ok_ext; [|eapply meta_ok_update; [|exact M|exact M']].
        - intros k Hk. specialize (KK k). tauto.
        - tauto. }
      split; [|split; [exact MU|split]].
      + intros k Hk. destruct MU as [MU _]. now destruct (MU k Hk) as (_ & ? & _).
      + intros Hd. apply update_meta_NoDup. apply ND. intros d Hdd. apply Hd, in_app_iff. auto.
      + intros k x Hx. apply update_meta_data in Hx as [Hx|Hx]; [destruct (VS _ _ Hx) as (d & ? & ?)|destruct (VS' _ _ Hx) as (d & ? & ?)]; exists d; split; auto; apply in_app_iff; auto.
  Qed.
  Lemma pre_ren c ds k new n : pre c ds -> pre (ren k new n c) ds.
  Proof.
    assert (CK : forall x, child_key (ren k new n c) x <-> child_key c x).
    { intros x. unfold child_key. rewrite ren_cs, map_map. rewrite (map_ext (fun e => ekey (ren_entry k new n e)) ekey); [tauto|]. intros [[? ?] ?]. reflexivity. }
    intros (N & U & D & m & Ek & T & V & H & M & ND). split; auto. split.
    - intros d Hd. destruct (U d Hd) as [A B]. split; auto. intros x Hx. rewrite CK. auto.
    - exists D, m. rewrite ren_kind. split; auto. split; auto. split; [intros x; rewrite CK; auto|]. split.
      + intros x Hx. rewrite CK. auto.
      + split; [eapply meta_ok_ext; [|exact M]; intros x _; rewrite CK; tauto | exact ND].
  Qed.

  (** ** Children before the merge, each with its dicts *)
  Definition grouped (l : list pyval) (gs : list (tree * list dict)) : Prop :=
    (forall c ds, In (c, ds) gs -> has_cs s c /\ (is_td s c = true -> pre c ds) /\
        forall d, In d ds -> is_td s c = true /\ exists ty, In (VMap MDict ty d) l) /\
    (forall ty d, In (VMap MDict ty d) l -> string_keys d -> exists c ds, In (c, ds) gs /\ In d ds).

  Definition dicts_of (c : tree) (v : pyval) : list dict := match v with VMap MDict _ d => if is_td s c then [d] else [] | _ => [] end.
  Lemma dicts_of_build fuel name d r v c : build s ord fuel name d r v = Ok c -> is_td s c = true -> pre c (dicts_of c v).
  Proof.
    intros H T. destruct (build_td_dict _ _ _ _ _ _ H T) as (ty & kvs & ->). unfold dicts_of. rewrite T. eapply pre_build; eauto.
  Qed.
  Lemma dicts_of_In c v d : In d (dicts_of c v) -> is_td s c = true /\ exists ty, v = VMap MDict ty d.
  Proof. unfold dicts_of. destruct v; try (intros []); destruct k; try (intros []). destruct (is_td s c); intros []; subst; eauto. contradiction. Qed.

  Hypothesis Htd : is_td_strategy s = true.

  Lemma dicts_of_has fuel name d r ty kvs c : build s ord fuel name d r (VMap MDict ty kvs) = Ok c -> string_keys kvs -> In kvs (dicts_of c (VMap MDict ty kvs)).
  Proof. intros H K. unfold dicts_of. rewrite (build_is_td _ _ _ _ _ _ _ Htd H K). simpl; auto. Qed.

  Lemma grouped_set_step fuel d done v child name st gs :
    map fst gs = fst st -> grouped done gs -> build s ord fuel name d false v = Ok child ->
    exists gs', map fst gs' = fst (add_child s child name st) /\ grouped (done ++ [v]) gs'.
  Proof.
    intros E [A B] H. destruct st as [chs names]. cbn [fst] in E. unfold add_child. destruct (existsb (teq s child) chs) eqn:X.
    - destruct (node_is_typed_dict s child) eqn:T.
      + exists (map (fun g => if teq s child (fst g) then (update_node (fst g) child, snd g ++ dicts_of child v)%list else g) gs). split.
        { subst chs. rewrite !map_map. cbn [fst]. apply map_ext. intros g. destruct (teq s child (fst g)); reflexivity. }
        split.
        * intros c ds Hc. apply in_map_iff in Hc as ([c0 ds0] & Eg & Hg). cbn [fst snd] in Eg. destruct (A _ _ Hg) as (A1 & A2 & A3). destruct (teq s child c0) eqn:Q.
          -- injection Eg as <- <-. assert (T0 : is_td s c0 = true) by (eapply td_teq; eauto). pose proof (dicts_of_build _ _ _ _ _ _ H T) as PB.
             assert (PU : pre (update_node c0 child) (ds0 ++ dicts_of child v)) by (apply pre_update; auto).
             split; [now apply has_cs_update|]. split; [auto|]. intros d0 Hd0. split; [now apply pre_td in PU|].
             apply in_app_iff in Hd0 as [Hd0|Hd0].
             ++ destruct (A3 _ Hd0) as (_ & ty & F). exists ty. apply in_app_iff. auto.
             ++ destruct (dicts_of_In _ _ _ Hd0) as (_ & ty & ->). exists ty. apply in_app_iff. simpl. auto.
          -- injection Eg as <- <-. split; auto. split; auto. intros d0 Hd0. destruct (A3 _ Hd0) as (? & ty & F). split; auto. exists ty. apply in_app_iff. auto.
        * intros ty d0 Hin K. apply in_app_iff in Hin as [Hin|[->|[]]].
          -- destruct (B _ _ Hin K) as (c & ds & Hg & Hd). destruct (teq s child c) eqn:Q.
             ++ exists (update_node c child), (ds ++ dicts_of child v)%list. split; [|apply in_app_iff; auto]. apply in_map_iff. exists (c, ds). cbn [fst snd]. now rewrite Q.
             ++ exists c, ds. split; auto. apply in_map_iff. exists (c, ds). cbn [fst snd]. now rewrite Q.
          -- apply existsb_exists in X as (c & Hc & Q). rewrite <- E in Hc. apply in_map_iff in Hc as ([c' ds] & Ec & Hg). cbn [fst] in Ec. subst c'.
             exists (update_node c child), (ds ++ dicts_of child (VMap MDict ty d0))%list. split.
             ++ apply in_map_iff. exists (c, ds). cbn [fst snd]. now rewrite Q.
             ++ apply in_app_iff. right. eapply dicts_of_has; eauto.
      + exists gs. split; auto. split.
        * intros c ds Hc. destruct (A _ _ Hc) as (A1 & A2 & A3). split; auto. split; auto. intros d0 Hd0. destruct (A3 _ Hd0) as (? & ty & F). split; auto. exists ty. apply in_app_iff. auto.
        * intros ty d0 Hin K. apply in_app_iff in Hin as [Hin|[->|[]]]; [eauto|]. exfalso. apply (build_is_td _ _ _ _ _ _ _ Htd H) in K. unfold is_td in K. congruence.
    - exists (gs ++ [(child, dicts_of child v)])%list. split; [rewrite map_app, E; reflexivity|]. split.
      + intros c ds Hc. apply in_app_iff in Hc as [Hc|[Hc|[]]].
        * destruct (A _ _ Hc) as (A1 & A2 & A3). split; auto. split; auto. intros d0 Hd0. destruct (A3 _ Hd0) as (? & ty & F). split; auto. exists ty. apply in_app_iff. auto.
        * injection Hc as <- <-. split; [eapply build_has_cs; eauto|]. split; [intros T; eapply dicts_of_build; eauto|].
          intros d0 Hd0. destruct (dicts_of_In _ _ _ Hd0) as (? & ty & ->). split; auto. exists ty. apply in_app_iff. simpl; auto.
      + intros ty d0 Hin K. apply in_app_iff in Hin as [Hin|[->|[]]].
        * destruct (B _ _ Hin K) as (c & ds & Hg & Hd). exists c, ds. split; auto. apply in_app_iff. auto.
        * exists child, (dicts_of child (VMap MDict ty d0)). split; [apply in_app_iff; simpl; auto|]. eapply dicts_of_has; eauto.
  Qed.
  Lemma grouped_set fuel d parent l chs : build_set s (fun n x => build s ord fuel n d false x) parent l ([], []) = Ok chs ->
    exists gs, map fst gs = chs /\ grouped l gs.
  Proof.
    intros H. eapply (build_set_inv _ _ _ (fun done st => exists gs, map fst gs = fst st /\ grouped done gs) _ []) in H as (names & gs & E & G).
    - exists gs. auto.
    - intros done st v child Hv (gs & E & G) Hb. eapply grouped_set_step; eauto.
    - exists []. split; auto. split; [intros c ds []|intros ty d0 []].
  Qed.
  Lemma grouped_list fuel d parent l chs : build_list s (fun n x => build s ord fuel n d false x) parent l [] [] = Ok chs ->
    exists gs, map fst gs = chs /\ grouped l gs.
  Proof.
    intros H. eapply (build_list_inv _ _ _ (fun done chs _ => exists gs, map fst gs = chs /\ grouped done gs) _ []) in H as (added & gs & E & G).
    - exists gs. auto.
    - intros done chs0 added v child Hv (gs & E & A & B) Hb.
      assert (K : forall c, (c = child \/ exists n, c = rename n child) -> exists gs', map fst gs' = (chs0 ++ [c])%list /\ grouped (done ++ [v]) gs').
      { intros c Hc. exists (gs ++ [(c, dicts_of child v)])%list. split; [rewrite map_app, E; reflexivity|].
        assert (TT : is_td s c = is_td s child). { destruct Hc as [->|(n & ->)]; auto. unfold is_td, node_is_typed_dict, rename. now rewrite ren_kind. }
        split.
        - intros c1 ds Hc1. apply in_app_iff in Hc1 as [Hc1|[Hc1|[]]].
          + destruct (A _ _ Hc1) as (A1 & A2 & A3). split; auto. split; auto. intros d0 Hd0. destruct (A3 _ Hd0) as (? & ty & F). split; auto. exists ty. apply in_app_iff. auto.
          + injection Hc1 as <- <-. rewrite TT. split; [destruct Hc as [->|(n & ->)]; [|apply has_cs_ren]; eapply build_has_cs; eauto|].
            split; [intros T; apply (dicts_of_build _ _ _ _ _ _ Hb) in T; destruct Hc as [->|(n & ->)]; [exact T | now apply pre_ren]|].
            intros d0 Hd0. destruct (dicts_of_In _ _ _ Hd0) as (? & ty & ->). split; auto. exists ty. apply in_app_iff. simpl; auto.
        - intros ty d0 Hin Hk. apply in_app_iff in Hin as [Hin|[->|[]]].
          + destruct (B _ _ Hin Hk) as (c1 & ds & Hg & Hd). exists c1, ds. split; auto. apply in_app_iff. auto.
          + eexists c, _. split; [apply in_app_iff; simpl; right; left; reflexivity|]. eapply dicts_of_has; eauto. }
      destruct (lookup_tree s child added); apply K; eauto.
    - exists []. split; auto. split; [intros c ds []|intros ty d0 []].
  Qed.

  (** ** After the merge *)
  Definition post (c : tree) (ds : list dict) : Prop :=
    ds <> [] /\ (forall d, In d ds -> string_keys d) /\
    forall k, (in_some ds k <-> child_key c k) /\ (dget k (m_required (node_meta c)) = Some true <-> in_all ds k).

  Lemma in_some_uniform c ds k : ds <> [] -> (forall d, In d ds -> forall k, ~ doc_key k -> (has_key k d <-> child_key c k)) -> ~ doc_key k -> (in_some ds k <-> child_key c k).
  Proof.
    intros N U Hk. unfold in_some. split.
    - intros (_ & d & Hd & H). now apply (U d Hd k Hk).
    - intros H. split; auto. destruct ds as [|d ds]; [congruence|]. exists d. split; [simpl; auto|]. apply (U d); simpl; auto.
  Qed.
  Lemma in_all_uniform c ds k : ds <> [] -> (forall d, In d ds -> forall k, ~ doc_key k -> (has_key k d <-> child_key c k)) -> ~ doc_key k -> (in_all ds k <-> child_key c k).
  Proof.
    intros N U Hk. unfold in_all. split.
    - intros (_ & _ & H). destruct ds as [|d ds]; [congruence|]. apply (U d); simpl; auto. apply H. simpl; auto.
    - intros H. split; auto. split; auto. intros d Hd. now apply (U d Hd k Hk).
  Qed.
  Lemma pre_post c ds : pre c ds -> post c ds.
  Proof.
    intros (N & U & D & m & Ek & T & V & H & M & _). split; auto. split; [intros d Hd; now apply U|]. intros k.
    assert (U' : forall d, In d ds -> forall k, ~ doc_key k -> (has_key k d <-> child_key c k)) by (intros d Hd; now apply U).
    unfold node_meta. rewrite Ek. destruct M as [M N'].
    assert (Dec : doc_key k \/ ~ doc_key k). { rewrite <- hidden_doc. destruct (is_hidden k); auto. }
    destruct Dec as [Hk|Hk].
    - rewrite (N' k Hk). split; split.
      + intros [F _]. contradiction.
      + intros F. now apply V in F.
      + discriminate.
      + intros [F _]. contradiction.
    - rewrite (in_some_uniform c), (in_all_uniform c) by auto. destruct (M k Hk) as (_ & _ & F & _). tauto.
  Qed.

  Lemma fold_meta gs : forall m (I U A : key -> Prop), (forall c ds, In (c, ds) gs -> pre c ds) -> (forall k, ~ doc_key k -> (A k -> I k) /\ (I k -> U k)) -> meta_ok m I U A ->
    meta_ok (fold_left (fun m t => update_meta m (node_meta t)) (map fst gs) m) I
      (fun k => U k \/ exists c ds, In (c, ds) gs /\ child_key c k) (fun k => A k /\ forall c ds, In (c, ds) gs -> child_key c k).
  Proof.
    induction gs as [|[c ds] gs IH]; intros m I U A P S M; simpl.
    - eapply meta_ok_ext; [|exact M]. intros k _. split; [tauto|]. split; [split; auto; intros [H|(? & ? & [] & _)]; auto|]. split; [intros H; split; auto; intros ? ? []|tauto].
    - destruct (P c ds (or_introl eq_refl)) as (_ & _ & D & mc & Ek & _ & _ & _ & Mc & _). unfold node_meta at 2. rewrite Ek.
      pose proof (meta_ok_update _ _ _ _ _ _ _ _ S M Mc) as M2. eapply meta_ok_ext; [|eapply IH; [| |exact M2]].
      + intros k Hk. split; [tauto|]. split; split.
        * intros [[H|H]|(c' & ds' & H & K)]; auto; right; [exists c, ds | exists c', ds']; auto.
        * intros [H|(c' & ds' & [H|H] & K)]; auto; [injection H as <- <-; auto|]. right. exists c', ds'. auto.
        * intros [[H K] L]. split; auto. intros c' ds' [F|F]; [now injection F as <- <-|]. eapply L; eauto.
        * intros [H L]. split; [split; auto; eapply L; eauto|]. intros c' ds' F. eapply L; eauto.
      + intros; apply P; simpl; auto.
      + intros k Hk. specialize (S k Hk). split; [tauto|]. intros H. left. tauto.
  Qed.
  Lemma merged_keys trees k : forall d, has_key k (fold_left (fun d t => dupdate d (node_data t)) trees d) <-> has_key k d \/ exists t, In t trees /\ has_key k (node_data t).
  Proof.
    induction trees as [|t trees IH]; intros d; simpl.
    - split; auto. intros [H|(t & [] & _)]; auto.
    - rewrite IH. unfold has_key at 1. rewrite dupdate_In. fold (has_key k d). split.
      + intros [[H|H]|(t' & H & K)]; auto; right; [exists t | exists t']; auto.
      + intros [H|(t' & [<-|H] & K)]; auto. right. exists t'. auto.
  Qed.

  Lemma visible_exhaust (kvs : list (key * pyval)) : map fst (map (fun kv => (fst kv, exhaust (snd kv))) kvs) = map fst kvs.
  Proof. rewrite map_map. reflexivity. Qed.

  Lemma merged_post fuel d gs m : (forall c ds, In (c, ds) gs -> pre c ds) ->
    from_multiple (fun n d0 => build s ord fuel n d false (exhaust (VMap MDict ty_dict d0))) (map fst gs) = Ok m ->
    is_td s m = true /\ post m (concat (map snd gs)).
  Proof.
    intros P H. pose proof H as H0. apply from_multiple_facts in H0 as (T & _).
    2: { intros t Ht. apply in_map_iff in Ht as ([c ds] & <- & Hc). eapply pre_td; eauto. }
    split; auto. apply from_multiple_Ok in H as (first & rest & t0 & E & H & ->).
    destruct gs as [|[c1 ds1] gs']; [discriminate|]. cbn [map fst] in E. injection E as <- <-. set (gs := (c1, ds1) :: gs') in *.
    cbn [exhaust] in H. apply build_dict_node in H as [K C]; auto.
    set (merged := fold_left (fun d t => dupdate d (node_data t)) (map fst gs) []) in *.
    set (M := fold_left (fun m t => update_meta m (node_meta t)) (map fst gs) (node_meta c1)) in *.
    assert (MO : meta_ok M (child_key c1) (fun k => child_key c1 k \/ exists c ds, In (c, ds) gs /\ child_key c k) (fun k => child_key c1 k /\ forall c ds, In (c, ds) gs -> child_key c k)).
    { apply (fold_meta gs); [exact P|tauto|]. destruct (P c1 ds1 (or_introl eq_refl)) as (_ & _ & D & mc & Ek & _ & _ & _ & Mc & _). unfold node_meta. now rewrite Ek. }
    assert (TC : forall k, child_key (set_meta M t0) k <-> ~ doc_key k /\ exists c ds, In (c, ds) gs /\ child_key c k).
    { intros k. unfold child_key at 1. unfold set_meta. rewrite K. cbn [tcs]. rewrite C, visible_In. unfold has_key. rewrite visible_exhaust. change (In k (map fst merged)) with (has_key k merged).
      unfold merged. rewrite (merged_keys (map fst gs) k []). split.
      - intros [A [B|(t & Ht & B)]]; [destruct B|]. split; auto. change (In t (map fst gs)) in Ht. apply in_map_iff in Ht as ([c ds] & <- & Hc).
        exists c, ds. split; auto. destruct (P c ds Hc) as (_ & _ & D & mc & Ek & _ & _ & HD & _). unfold node_data in B. cbn [fst] in B. rewrite Ek in B. now apply HD.
      - intros [A (c & ds & Hc & B)]. split; auto. right. exists c. split; [change (In c (map fst gs)); apply in_map_iff; exists (c, ds); auto|].
        destruct (P c ds Hc) as (_ & _ & D & mc & Ek & _ & _ & HD & _). unfold node_data. rewrite Ek. now apply HD. }
    assert (NM : node_meta (set_meta M t0) = M) by (unfold set_meta; rewrite K; reflexivity). unfold post. setoid_rewrite NM.
    assert (InC : forall dd, In dd (concat (map snd gs)) <-> exists c ds, In (c, ds) gs /\ In dd ds).
    { intros dd. rewrite in_concat. split.
      - intros (ds & Hds & Hd). apply in_map_iff in Hds as ([c ds'] & <- & Hc). eauto.
      - intros (c & ds & Hc & Hd). exists ds. split; auto. apply in_map_iff. exists (c, ds). auto. }
    assert (Ne : concat (map snd gs) <> []).
    { destruct (P c1 ds1 (or_introl eq_refl)) as (N & _). simpl. intros F. apply app_eq_nil in F. tauto. }
    split; auto. split.
    - intros dd Hd. apply InC in Hd as (c & ds & Hc & Hd). destruct (P c ds Hc) as (_ & U & _). now apply U.
    - intros k. assert (Dec : doc_key k \/ ~ doc_key k). { rewrite <- hidden_doc. destruct (is_hidden k); auto. } split.
      + rewrite TC. split.
        * intros (A & dd & Hd & B). split; auto. apply InC in Hd as (c & ds & Hc & Hd). destruct (P c ds Hc) as (_ & U & _). exists c, ds. split; auto. now apply (U dd Hd).
        * intros (A & c & ds & Hc & B). split; auto. destruct (P c ds Hc) as (N & U & _). destruct ds as [|dd ds]; [congruence|].
          exists dd. split; [apply InC; exists c, (dd :: ds); simpl; auto|]. apply (U dd); simpl; auto.
      + destruct MO as [MO MN]. destruct Dec as [Hk|Hk].
        * rewrite (MN k Hk). split; [discriminate|]. intros [F _]. contradiction.
        * destruct (MO k Hk) as (_ & _ & F & _). rewrite F. split.
          -- intros (_ & G). split; auto. split; auto. intros dd Hd. apply InC in Hd as (c & ds & Hc & Hd). destruct (P c ds Hc) as (_ & U & _). apply (U dd Hd); eauto.
          -- intros (_ & _ & G). assert (X : forall c ds, In (c, ds) gs -> child_key c k).
             { intros c ds Hc. destruct (P c ds Hc) as (N & U & _). destruct ds as [|dd ds]; [congruence|]. apply (U dd); simpl; auto. apply G, InC. exists c, (dd :: ds). simpl; auto. }
             split; eauto. apply (X c1 ds1). simpl; auto.
  Qed.

  (** The result: every typed dict child comes with its dicts. *)
  Definition explained (l : list pyval) (cs : list tree) (gs : list (tree * list dict)) : Prop :=
    map fst gs = cs /\
    (forall c ds, In (c, ds) gs -> is_td s c = true -> post c ds /\ forall d, In d ds -> exists ty, In (VMap MDict ty d) l) /\
    (forall ty d, In (VMap MDict ty d) l -> string_keys d -> exists c ds, In (c, ds) gs /\ is_td s c = true /\ In d ds).

  Lemma grouped_explained l gs gs' : grouped l gs -> Permutation gs gs' -> explained l (map fst gs') gs'.
  Proof.
    intros [A B] P. split; auto. split.
    - intros c ds Hc T. apply (Permutation_in _ (Permutation_sym P)) in Hc. destruct (A c ds Hc) as (_ & A2 & A3). split; [apply pre_post; auto|]. intros d Hd. now apply A3.
    - intros ty d Hin K. destruct (B ty d Hin K) as (c & ds & Hc & Hd). exists c, ds. split; [now apply (Permutation_in _ P)|]. split; auto. destruct (A c ds Hc) as (_ & _ & A3). now apply (A3 d).
  Qed.

  Lemma grouped_perm l gs gs' : grouped l gs -> Permutation gs gs' -> grouped l gs'.
  Proof.
    intros [A B] P. split.
    - intros c ds Hc. apply A. now apply (Permutation_in _ (Permutation_sym P)).
    - intros ty d Hin K. destruct (B ty d Hin K) as (c & ds & Hc & Hd). exists c, ds. split; auto. now apply (Permutation_in _ P).
  Qed.
  Definition tdp (g : tree * list dict) : bool := is_td s (fst g).
  Lemma filter_fst p gs : filter p (map fst gs) = map fst (filter (fun g : tree * list dict => p (fst g)) gs).
  Proof. induction gs as [|g gs IH]; simpl; auto. destruct (p (fst g)); simpl; now rewrite IH. Qed.

  Lemma explained_build fuel name d r k ty l t : build s ord fuel name d r (VSeq k ty l) = Ok t ->
    exists gs, explained (limit s l) (map etree (tcs t)) gs.
  Proof.
    destruct fuel as [|f]; cbn [build]; intros H; destruct (negb (is_compatible name)); try discriminate.
    apply bind_Ok in H as (cs & H & E). injection E as <-. cbn [inner tcs].
    assert (NS : forall l, map etree (no_sharing l) = l) by (intros l'; unfold no_sharing; rewrite map_map; apply map_id).
    assert (Gset : bind (build_set s (fun n x => build s ord f n (S d) false x) name (limit s l) ([], []))
              (merge_set s ord (fun n d0 => build s ord f n (S d) false (exhaust (VMap MDict ty_dict d0)))) = Ok cs -> exists gs, explained (limit s l) (map etree cs) gs).
    { clear H. intros H. apply bind_Ok in H as (chs & H1 & H2). apply grouped_set in H1 as (gs & <- & G). apply merge_set_spec in H2; auto.
      destruct H2 as [(_ & l' & P & ->)|(_ & trees & m & l' & P & Hm & P' & ->)]; rewrite NS.
      - apply Permutation_sym, Permutation_map_inv in P as (gs' & -> & P). exists gs'. eapply grouped_explained; eauto.
      - rewrite filter_fst in P. apply Permutation_sym, Permutation_map_inv in P as (tg & -> & P). destruct G as [A B].
        assert (Tg : forall c ds, In (c, ds) tg -> In (c, ds) gs /\ is_td s c = true).
        { intros c ds Hc. apply (Permutation_in _ (Permutation_sym P)) in Hc. now apply filter_In in Hc. }
        apply merged_post in Hm as [Tm Pm]; [|intros c ds Hc; apply Tg in Hc as [Hc T]; now apply A].
        cbv zeta in P'. replace (existsb (teq s m) (filter (fun c => negb (is_td s c)) (map fst gs))) with false in P'.
        2: { symmetry. apply not_true_iff_false. intros Ex. apply existsb_exists in Ex as (c & Hc & Ex). apply filter_In in Hc as [Hc T]. apply negb_true_iff in T.
             apply in_map_iff in Hc as ([c' ds] & <- & Hc). rewrite td_not_teq_rest in Ex; [discriminate|auto|now apply A in Hc|auto]. }
        rewrite filter_fst in P'.
        change (map fst (filter (fun g => negb (is_td s (fst g))) gs) ++ [m])%list with (map fst (filter (fun g => negb (is_td s (fst g))) gs) ++ map fst [(m, concat (map snd tg))])%list in P'.
        rewrite <- map_app in P'. apply Permutation_sym, Permutation_map_inv in P' as (gs' & -> & P'). exists gs'. split; auto. split.
        + intros c ds Hc T. apply (Permutation_in _ (Permutation_sym P')) in Hc. apply in_app_iff in Hc as [Hc|[Hc|[]]].
          * apply filter_In in Hc as [_ N]. cbn [fst] in N. rewrite T in N. discriminate.
          * injection Hc as <- <-. split; auto. intros dd Hd. apply in_concat in Hd as (ds & Hds & Hd). apply in_map_iff in Hds as ([c ds'] & <- & Hc).
            apply Tg in Hc as [Hc _]. now apply (A _ _ Hc).
        + intros ty' dd Hin K. destruct (B _ _ Hin K) as (c & ds & Hc & Hd). exists m, (concat (map snd tg)). split; [|split; auto].
          * apply (Permutation_in _ P'). apply in_app_iff. simpl. auto.
          * apply in_concat. exists ds. split; auto. apply in_map_iff. exists (c, ds). split; auto. apply (Permutation_in _ P). apply filter_In. split; auto. now apply (A _ _ Hc) in Hd. }
    destruct k; try (apply Gset; exact H). destruct (s_tuple s) eqn:ET; [|apply Gset; exact H].
    clear Gset. apply bind_Ok in H as (chs & H1 & H2). apply grouped_list in H1 as (gs & <- & G). apply merge_list_spec in H2.
    destruct H2 as [(_ & ->)|(_ & m & Hm & ->)].
    - rewrite NS. exists gs. eapply grouped_explained; eauto.
    - rewrite filter_fst in *. destruct G as [A B]. set (tg := filter (fun g => is_td s (fst g)) gs) in *.
      apply merged_post in Hm as [Tm Pm]; [|intros c ds Hc; apply filter_In in Hc as [Hc T]; now apply A].
      exists (map (fun g => if is_td s (fst g) then (m, concat (map snd tg)) else g) gs). split; [|split].
      + rewrite !map_map. apply map_ext. intros g. destruct (is_td s (fst g)); reflexivity.
      + intros c ds Hc T. apply in_map_iff in Hc as ([c0 ds0] & Eg & Hc). cbn [fst] in Eg. destruct (is_td s c0) eqn:T0; [|injection Eg as <- <-; congruence].
        injection Eg as <- <-. split; auto. intros dd Hd. apply in_concat in Hd as (ds & Hds & Hd). apply in_map_iff in Hds as ([c ds'] & <- & Hc').
        apply filter_In in Hc' as [Hc' _]. now apply (A _ _ Hc').
      + intros ty' dd Hin K. destruct (B _ _ Hin K) as (c & ds & Hc & Hd). assert (T : is_td s c = true) by now apply (A _ _ Hc) in Hd.
        exists m, (concat (map snd tg)). split; [|split; auto].
        * apply in_map_iff. exists (c, ds). cbn [fst]. now rewrite T.
        * apply in_concat. exists ds. split; auto. apply in_map_iff. exists (c, ds). split; auto. apply filter_In. auto.
  Qed.

  (** ** When the dicts of a sequence are merged *)
  Lemma string_dicts_In l d : In d (string_dicts l) <-> string_keys d /\ exists ty, In (VMap MDict ty d) l.
  Proof.
    unfold string_dicts. rewrite in_flat_map. split.
    - intros (v & Hv & H). destruct v; try destruct H. destruct k; try destruct H. destruct (forallb _ kvs) eqn:E; [destruct H as [<-|[]] | destruct H].
      split; [now apply string_keys_all | eauto].
    - intros (K & ty & H). exists (VMap MDict ty d). split; auto. apply string_keys_all in K. unfold all_str in K.
      change (forallb (fun kv => string_keyb (fst kv)) d = true) in K. rewrite K. simpl; auto.
  Qed.

  Lemma metas_pre (gs : list (tree * list dict)) : (forall c ds, In (c, ds) gs -> is_td s c = true -> pre c ds) ->
    forall m, In m (metas_of s (map fst gs)) <-> exists c ds, In (c, ds) gs /\ is_td s c = true /\ node_meta c = m.
  Proof.
    intros _ m. unfold metas_of. rewrite in_flat_map. split.
    - intros (c & Hc & H). apply in_map_iff in Hc as ([c' ds] & <- & Hc). cbn [fst] in H. exists c', ds. split; auto.
      unfold is_td, node_is_typed_dict, node_meta. destruct (tkind c'); try destruct H. destruct (is_typed_dict s m0); [destruct H as [<-|[]]; auto | destruct H].
    - intros (c & ds & Hc & T & <-). exists c. split; [apply in_map_iff; exists (c, ds); auto|]. unfold is_td, node_is_typed_dict, node_meta in *.
      destruct (tkind c); try discriminate. rewrite T. simpl; auto.
  Qed.

  (** The numbers of common and of all keys of the metadata objects are those of the dicts. *)
  Lemma metas_numbers l gs : grouped l gs -> forall k,
    (in_all (map m_data (metas_of s (map fst gs))) k <-> in_all (string_dicts l) k) /\
    (in_some (map m_data (metas_of s (map fst gs))) k <-> in_some (string_dicts l) k).
  Proof.
    intros [A B] k.
    assert (MP := metas_pre gs (fun c ds Hc T => proj1 (proj2 (A c ds Hc)) T)).
    assert (X : forall m, In m (map m_data (metas_of s (map fst gs))) -> ~ doc_key k -> exists d, In d (string_dicts l) /\ (has_key k m <-> has_key k d)).
    { intros m Hm Hk. apply in_map_iff in Hm as (m0 & <- & Hm). apply MP in Hm as (c & ds & Hc & T & <-). destruct (A c ds Hc) as (_ & A2 & A3).
      destruct (A2 T) as (N & U & D & mc & Ek & _ & _ & _ & [Mc _] & _). unfold node_meta. rewrite Ek. destruct ds as [|d ds]; [congruence|].
      exists d. destruct (U d (or_introl eq_refl)) as [U1 U2]. split.
      - apply string_dicts_In. split; auto. apply (A3 d). simpl; auto.
      - rewrite (U2 k Hk). now destruct (Mc k Hk) as (_ & ? & _). }
    assert (Y : forall d, In d (string_dicts l) -> ~ doc_key k -> exists m, In m (map m_data (metas_of s (map fst gs))) /\ (has_key k m <-> has_key k d)).
    { intros d Hd Hk. apply string_dicts_In in Hd as (K & ty & Hd). destruct (B ty d Hd K) as (c & ds & Hc & Hds). destruct (A c ds Hc) as (_ & A2 & A3).
      destruct (A3 d Hds) as [T _]. destruct (A2 T) as (N & U & D & mc & Ek & _ & _ & _ & [Mc _] & _). exists (m_data (node_meta c)). split.
      - apply in_map. apply MP. eauto.
      - unfold node_meta. rewrite Ek. destruct (U d Hds) as [U1 U2]. rewrite (U2 k Hk). now destruct (Mc k Hk) as (_ & ? & _). }
    split; split.
    - intros (H1 & H2 & H3). split; auto. split.
      + destruct (map m_data (metas_of s (map fst gs))) as [|m ms] eqn:E; [exfalso; now apply H2|]. destruct (X m (or_introl eq_refl) H1) as (d & Hd & _). intros F. rewrite F in Hd. destruct Hd.
      + intros d Hd. destruct (Y d Hd H1) as (m & Hm & F). apply F. auto.
    - intros (H1 & H2 & H3). split; auto. split.
      + destruct (string_dicts l) as [|d ds] eqn:E; [exfalso; now apply H2|]. destruct (Y d (or_introl eq_refl) H1) as (m & Hm & _). intros F. rewrite F in Hm. destruct Hm.
      + intros m Hm. destruct (X m Hm H1) as (d & Hd & F). apply F. auto.
    - intros (H1 & m & Hm & H3). split; auto. destruct (X m Hm H1) as (d & Hd & F). exists d. split; auto. now apply F.
    - intros (H1 & d & Hd & H3). split; auto. destruct (Y d Hd H1) as (m & Hm & F). exists m. split; auto. now apply F.
  Qed.
  Lemma metas_stand l gs m : grouped l gs -> In m (metas_of s (map fst gs)) -> stands_for (string_dicts l) (m_data m).
  Proof.
    intros [A B] H. apply metas_pre in H as (c & ds & Hc & T & <-); [|intros; now apply A]. destruct (A c ds Hc) as (_ & A2 & A3).
    destruct (A2 T) as (N & U & D & mc & Ek & _ & _ & _ & [Mc _] & _ & VS). unfold node_meta. rewrite Ek.
    assert (S : forall d, In d ds -> In d (string_dicts l)) by (intros d Hd; apply string_dicts_In; split; [now apply U | now apply (A3 d)]). split.
    - destruct ds as [|d ds]; [congruence|]. exists d. split; [apply S; simpl; auto|]. intros k Hk. destruct (U d (or_introl eq_refl)) as [_ U2]. rewrite (U2 k Hk). now destruct (Mc k Hk) as (_ & ? & _).
    - intros k x Hx. destruct (VS _ _ Hx) as (d & Hd & Hx'). eauto.
  Qed.
  Lemma metas_NoDup l gs m : grouped l gs -> (forall d, In d (string_dicts l) -> NoDup (map fst d)) -> In m (metas_of s (map fst gs)) -> NoDup (map fst (m_data m)).
  Proof.
    intros [A B] Hn H. apply metas_pre in H as (c & ds & Hc & T & <-); [|intros; now apply A]. destruct (A c ds Hc) as (_ & A2 & A3).
    destruct (A2 T) as (N & U & D & mc & Ek & _ & _ & _ & _ & ND & _). unfold node_meta. rewrite Ek. apply ND. intros d Hd. apply Hn. apply string_dicts_In. split; [now apply U | now apply (A3 d)].
  Qed.
  (** Metadata objects that are all the same satisfy the condition. *)
  Lemma same_metas_merge ms m t : (forall x, In x ms -> x = m) -> NoDup (map fst (m_data m)) -> number_of (in_some (map m_data ms)) t -> 0 < t -> (Z.of_nat t < 2 ^ 40)%Z -> s_merge s <= 100 ->
    should_merge s ms = true.
  Proof.
    intros Hm ND Ht Hp Hb Hs.
    assert (Hc : number_of (in_all (map m_data ms)) t).
    { destruct Ht as (kl & A & B & C). exists kl. split; auto. split; auto. intros k. rewrite B. split.
      - intros (H1 & d & Hd & H2). split; auto. split; [intros F; rewrite F in Hd; destruct Hd|]. intros d' Hd'. apply in_map_iff in Hd as (x & <- & Hx). apply in_map_iff in Hd' as (y & <- & Hy).
        rewrite (Hm _ Hx) in H2. now rewrite (Hm _ Hy).
      - intros (H1 & H2 & H3). split; auto. destruct ms as [|x ms]; [exfalso; apply H2; reflexivity|]. exists (m_data x). split; [simpl; auto|]. apply H3. simpl; auto. }
    apply (should_merge_spec s ms t t); auto; [intros x Hx; now rewrite (Hm _ Hx)|]. split; [rewrite percentage_same; auto; lia|].
    intros k d Hd Hk. left. apply in_map_iff in Hd as (x & <- & Hx). rewrite (Hm _ Hx) in Hk. unfold has_key in Hk. apply in_map_iff in Hk as ([k' v] & E & Hv). simpl in E. subst k'.
    exists (ty_id (type_of v)). intros y Hy. unfold types_under in Hy. apply in_flat_map in Hy as (d & Hd & Hy). apply in_map_iff in Hy as ([k1 v1] & <- & Hf). apply filter_In in Hf as [Hf Ek].
    apply key_eqb_spec in Ek. cbn [fst] in Ek. subst k1. apply in_map_iff in Hd as (z & <- & Hz). rewrite (Hm _ Hz) in Hf. cbn [snd].
    pose proof (NoDup_dget _ _ _ ND Hv) as E1. pose proof (NoDup_dget _ _ _ ND Hf) as E2. congruence.
  Qed.

  Definition one_td_child (t : tree) : Prop :=
    forall a b, In a (map etree (tcs t)) -> In b (map etree (tcs t)) -> is_td s a = true -> is_td s b = true -> a = b.

  Lemma merged_when fuel name dp r k ty l t c n : build s ord fuel name dp r (VSeq k ty l) = Ok t ->
    (forall d, In d (string_dicts (limit s l)) -> NoDup (map fst d)) -> s_merge s <= 100 ->
    number_of (in_all (string_dicts (limit s l))) c -> number_of (in_some (string_dicts (limit s l))) n -> 0 < n -> (Z.of_nat n < 2 ^ 40)%Z ->
    exists reps, (forall d, In d reps -> stands_for (string_dicts (limit s l)) d) /\
      (one_td_child t <-> s_merge s <= percentage c n /\ types_agree reps).
  Proof.
    destruct fuel as [|f]; cbn [build]; intros H Hn Hs Hc Ht Hp Hb; destruct (negb (is_compatible name)); try discriminate.
    apply bind_Ok in H as (cs & H & E). injection E as <-. unfold one_td_child. cbn [inner tcs].
    assert (NS : forall l, map etree (no_sharing l) = l) by (intros l'; unfold no_sharing; rewrite map_map; apply map_id).
    (* what is common to both kinds of sequences *)
    assert (Main : forall gs, grouped (limit s l) gs ->
      (should_merge s (metas_of s (map fst gs)) = true -> forall a b, In a (map etree cs) -> In b (map etree cs) -> is_td s a = true -> is_td s b = true -> a = b) ->
      (should_merge s (metas_of s (map fst gs)) = false -> Permutation (map fst gs) (map etree cs)) ->
      exists reps, (forall d, In d reps -> stands_for (string_dicts (limit s l)) d) /\
      ((forall a b, In a (map etree cs) -> In b (map etree cs) -> is_td s a = true -> is_td s b = true -> a = b) <-> s_merge s <= percentage c n /\ types_agree reps)).
    { clear H. intros gs G M1 M2. set (ms := metas_of s (map fst gs)) in *. exists (map m_data ms). split.
      { intros d Hd. apply in_map_iff in Hd as (m & <- & Hm). eapply metas_stand; eauto. }
      assert (NN : forall P Q x, (forall k, P k <-> Q k) -> number_of Q x -> number_of P x).
      { intros P Q x PQ (kl & A & B & C). exists kl. split; auto. split; auto. intros k0. rewrite B. symmetry. apply PQ. }
      assert (Hc' : number_of (in_all (map m_data ms)) c) by (eapply NN; [|exact Hc]; intros k0; now apply metas_numbers).
      assert (Ht' : number_of (in_some (map m_data ms)) n) by (eapply NN; [|exact Ht]; intros k0; now apply metas_numbers).
      assert (ND : forall m, In m ms -> NoDup (map fst (m_data m))) by (intros m Hm; eapply metas_NoDup; eauto).
      rewrite <- (should_merge_spec s ms c n ND Hc' Ht'). split; auto. intros One. destruct (should_merge s ms) eqn:Sm; auto. exfalso.
      specialize (M2 eq_refl).
      destruct ms as [|m ms'] eqn:Ems.
      { destruct Ht' as (kl & _ & B & <-). destruct kl as [|k0 kl]; [simpl in Hp; lia|]. destruct (proj1 (B k0) (or_introl eq_refl)) as (_ & d & [] & _). }
      rewrite <- Ems in *. assert (Hm : forall x, In x ms -> exists a, In a (map etree cs) /\ is_td s a = true /\ node_meta a = x).
      { intros x Hx. apply metas_pre in Hx as (a & ds & Ha & T & <-); [|intros; now apply G]. exists a. split; auto. apply (Permutation_in _ M2). apply in_map_iff. exists (a, ds). auto. }
      assert (should_merge s ms = true); [|congruence]. apply (same_metas_merge ms m n); auto.
      - intros x Hx. destruct (Hm x Hx) as (a & Ha & Ta & <-). destruct (Hm m) as (b & Hb' & Tb & <-); [rewrite Ems; simpl; auto|]. f_equal. auto.
      - apply ND. rewrite Ems. simpl; auto. }
    assert (Gset : bind (build_set s (fun n x => build s ord f n (S dp) false x) name (limit s l) ([], []))
              (merge_set s ord (fun n d0 => build s ord f n (S dp) false (exhaust (VMap MDict ty_dict d0)))) = Ok cs ->
      exists reps, (forall d, In d reps -> stands_for (string_dicts (limit s l)) d) /\
      ((forall a b, In a (map etree cs) -> In b (map etree cs) -> is_td s a = true -> is_td s b = true -> a = b) <-> s_merge s <= percentage c n /\ types_agree reps)).
    { clear H. intros H. apply bind_Ok in H as (chs & H1 & H2). apply grouped_set in H1 as (gs & <- & G).
      pose proof (Hord 0 (map fst gs)) as P0. apply Permutation_sym, Permutation_map_inv in P0 as (gs0 & E0 & P0).
      apply (Main gs0); [now apply (grouped_perm _ gs)| |]; rewrite <- E0; intros Sm.
      - apply merge_set_spec in H2; auto. rewrite Sm in H2. destruct H2 as [(F & _)|(_ & trees & m & l' & P & Hm & P' & ->)]; [discriminate|]. rewrite NS.
        assert (One : forall a, In a l' -> is_td s a = true -> a = m).
        { intros a Ha Ta. apply (Permutation_in _ (Permutation_sym P')) in Ha. cbv zeta in Ha.
          assert (Ha' : In a (filter (fun c => negb (is_td s c)) (map fst gs) ++ [m])) by (destruct (existsb _ _); auto; apply in_app_iff; auto).
          apply in_app_iff in Ha' as [Ha'|[->|[]]]; auto. apply filter_In in Ha' as [_ N]. rewrite Ta in N. discriminate. }
        intros a b Ha Hb' Ta Tb. rewrite (One a), (One b); auto.
      - apply merge_set_spec in H2; auto. rewrite Sm in H2. destruct H2 as [(_ & l' & P & ->)|(F & _)]; [|discriminate]. rewrite NS.
        rewrite E0. apply Permutation_trans with (map fst gs); auto. apply Permutation_map, Permutation_sym, P0. }
    destruct k; try (apply Gset; exact H). destruct (s_tuple s) eqn:ET; [|apply Gset; exact H].
    clear Gset. apply bind_Ok in H as (chs & H1 & H2). apply grouped_list in H1 as (gs & <- & G). apply (Main gs); auto; intros Sm; apply merge_list_spec in H2; rewrite Sm in H2.
    - destruct H2 as [(F & _)|(_ & m & Hm & ->)]; [discriminate|]. rewrite map_map.
      assert (One : forall a, In a (map (fun x => etree (if is_td s x then (no_key, List.length (filter (is_td s) (map fst gs)), m) else (no_key, 1, x))) (map fst gs)) -> is_td s a = true -> a = m).
      { intros a Ha Ta. apply in_map_iff in Ha as (x & <- & Hx). destruct (is_td s x) eqn:Tx; auto. unfold etree in Ta. simpl in Ta. congruence. }
      intros a b Ha Hb' Ta Tb. rewrite (One a), (One b); auto.
    - destruct H2 as [(_ & ->)|(F & _)]; [|discriminate]. rewrite NS. apply Permutation_refl.
  Qed.
End Groups.
