(** What always holds of the data, the metadata and the children of dict nodes. *)
From Coq Require Import Ascii String List Bool Arith ZArith Lia Permutation.
From Verif Require Import PyStr PyStrFacts Utils Strategies Dispatch Values Tree Build TreeFacts SpecNames NamesFacts SpecData SpecMerge BuildFacts BuildInd TotalFacts TreeProofs SeqFacts FloatFacts MergeFacts GroupFacts Provenance.
Import ListNotations.
Local Open Scope string_scope.
Local Open Scope nat_scope.

Section Closed2.
  Variable s : strategies.
  Variable ord : set_order.
  Hypothesis Hord : set_like ord.
  Variable T : pyval -> Prop.
  Variable K : key -> Prop.
  Hypothesis T_exhaust : forall x, T x -> T (exhaust x).
  Hypothesis T_dict : forall d, NoDup (map fst d) -> T (VMap MDict ty_dict d).

  Variable Q : tree -> Prop.
  Hypothesis Hleaf : forall name d r k t, leaf_kind k -> Q (Node (Info name d 0 r k t) []).
  Hypothesis Hseq : forall name d r k t cs, Forall (fun e => ekey e = no_key) cs -> Forall (fun e => Q (etree e)) cs ->
    Q (inner name d r (NSeq k) t cs).
  Hypothesis Hprox : forall name d r t kvs cs, T (VMap MProxy t kvs) -> map ekey cs = visible_keys (limit s kvs) ->
    Forall (fun e => Q (etree e)) cs -> Q (inner name d r NProxy t cs).
  Hypothesis Hmap : forall name d r t kvs data cs, T (VMap MDict t kvs) -> data = (if is_td_strategy s then kvs else limit s kvs) ->
    map ekey cs = visible_keys data -> Forall (fun e => Q (etree e)) cs -> Q (inner name d r (NDict data (init_meta data)) t cs).
  Hypothesis Hren : forall t k new n, Q t -> Q (ren k new n t).
  Hypothesis Hupd : forall t o, Q t -> Q o -> is_td s t = true -> is_td s o = true -> teq s o t = true -> Q (update_node t o).
  Hypothesis Hmerge : forall first rest t0 data, (forall t, In t (first :: rest) -> Q t /\ is_td s t = true) -> Q t0 ->
    tkind t0 = NDict data (init_meta data) -> map ekey (tcs t0) = visible_keys data ->
    map fst data = map fst (fold_left (fun d t => dupdate d (node_data t)) (first :: rest) []) ->
    Q (set_meta (fold_left (fun m t => update_meta m (node_meta t)) (first :: rest) (node_meta first)) t0).

  Let ok (t : tree) : Prop := Q t /\ has_cs s t /\ tree_ok T K t.

  Lemma closed2_merge f d trees m :
    (forall name v t, values_ok T K v -> build s ord f name (S d) false v = Ok t -> Q t) ->
    (forall t, In t trees -> ok t /\ is_td s t = true) ->
    from_multiple (fun n d0 => build s ord f n (S d) false (exhaust (VMap MDict ty_dict d0))) trees = Ok m -> Q m.
  Proof.
    intros IH Ht H. apply from_multiple_Ok in H as (first & rest & t0 & -> & H & ->).
    assert (St : is_td_strategy s = true) by (eapply td_is_strategy, Ht; left; reflexivity).
    assert (V : values_ok T K (exhaust (VMap MDict ty_dict (fold_left (fun d t => dupdate d (node_data t)) (first :: rest) [])))).
    { apply merged_values_ok; auto. intros t Hi. apply Ht in Hi as [(_ & _ & A) _]. exact A. }
    pose proof (IH _ _ _ V H) as Q0. cbn [exhaust] in H. apply build_dict_node in H as [Kd C]; auto.
    eapply Hmerge; [|exact Q0|exact Kd|exact C|apply visible_exhaust]. intros t Hi. apply Ht in Hi as [(A & _) B]. auto.
  Qed.

  Lemma closed2 : forall fuel name d r v t, values_ok T K v -> build s ord fuel name d r v = Ok t -> Q t.
  Proof.
    induction fuel as [|f IH]; intros name d r v t Hv H.
    - destruct v; cbn [build] in H; try (unfold leaf in H; destruct (is_compatible name); [injection H as <-; apply Hleaf; exact I | discriminate]).
      + destruct (negb (is_compatible name)); discriminate.
      + destruct k; [discriminate|]. destruct (negb (is_compatible name)); discriminate.
    - assert (IH' : forall name v t, values_ok T K v -> build s ord f name (S d) false v = Ok t -> Q t) by (intros; eapply IH; eauto).
      assert (OK : forall name v t, values_ok T K v -> build s ord f name (S d) false v = Ok t -> ok t).
      { intros n0 v0 u0 Hv0 H0. split; [eauto|]. split; [eapply build_has_cs; eauto|]. eapply build_prov; eauto. }
      destruct v; cbn [build] in H; try (unfold leaf in H; destruct (is_compatible name); [injection H as <-; apply Hleaf; exact I | discriminate]).
      + destruct (negb (is_compatible name)); [discriminate|]. apply bind_Ok in H as (cs & H1 & H2). injection H2 as <-.
        assert (El : forall x, In x (limit s l) -> values_ok T K x) by (intros x Hx; eapply values_ok_el; [exact Hv | eapply limit_incl; exact Hx]).
        assert (G : Forall (fun e => ekey e = no_key) cs /\ Forall (fun e => Q (etree e)) cs); [|apply Hseq; apply G].
        assert (Gset : bind (build_set s (fun n x => build s ord f n (S d) false x) name (limit s l) ([], []))
              (merge_set s ord (fun n d0 => build s ord f n (S d) false (exhaust (VMap MDict ty_dict d0)))) = Ok cs ->
              Forall (fun e => ekey e = no_key) cs /\ Forall (fun e => Q (etree e)) cs).
        { clear H1. intros H1. apply bind_Ok in H1 as (ch & H1 & H2).
          eapply (build_set_inv _ _ _ (fun _ st => Forall ok (fst st)) _ []) in H1 as (names & H1).
          - cbn [fst] in H1. rewrite Forall_forall in H1.
            assert (H2' := H2). unfold merge_set in H2'. destruct (should_merge s (metas_of s (ord 0 ch))) eqn:SM.
            + apply bind_Ok in H2' as (m & Hm & E). injection E as <-.
              assert (Qm : Q m).
              { eapply closed2_merge; [exact IH'| |exact Hm]. intros u Hu. apply filter_In in Hu as [Hu T0]. split; auto.
                apply H1. eapply Permutation_in; [symmetry; apply Hord|exact Hu]. }
              split; apply Forall_forall; intros e He; unfold no_sharing in He; apply in_map_iff in He as (x & <- & Hx); auto; unfold etree; cbn [snd].
              apply (Permutation_in x (Permutation_sym (Hord 2 _))) in Hx.
              assert (In x (filter (fun c => negb (is_td s c)) ch) \/ x = m) as [Kx|Kx].
              { destruct (existsb _ _); auto. apply in_app_iff in Hx as [?|[?|[]]]; auto. }
              * apply filter_In in Kx as [Kx _]. now apply H1.
              * now subst.
            + injection H2' as <-. split; apply Forall_forall; intros e He; unfold no_sharing in He; apply in_map_iff in He as (x & <- & Hx); auto; unfold etree; cbn [snd].
              apply H1. eapply Permutation_in; [symmetry; apply Hord|exact Hx].
          - intros done [chs names] v child Hin Hi Hb. cbn [fst] in *. apply OK in Hb; [|now apply El]. unfold add_child.
            rewrite Forall_forall in Hi. destruct (existsb (teq s child) chs).
            + destruct (node_is_typed_dict s child) eqn:TD; cbn [fst]; [|now apply Forall_forall]. apply Forall_forall. intros x Hx.
              apply in_map_iff in Hx as (y & <- & Hy). destruct (teq s child y) eqn:Ey; auto.
              specialize (Hi y Hy). destruct Hi as (A1 & A2 & A3), Hb as (B1 & B2 & B3).
              assert (TY : is_td s y = true) by (eapply td_teq; eauto).
              split; [now apply Hupd|]. split; [now apply has_cs_update|]. now apply tree_ok_update.
            + cbn [fst]. apply Forall_app. split; [now apply Forall_forall|]. now constructor.
          - constructor. }
        destruct k; try (apply Gset; exact H1). destruct (s_tuple s) eqn:ET; [|apply Gset; exact H1].
        apply bind_Ok in H1 as (ch & H1 & H2).
        eapply (build_list_inv _ _ _ (fun _ ch _ => Forall ok ch) _ []) in H1 as (names & H1).
        * rewrite Forall_forall in H1. apply merge_list_spec in H2 as [(_ & ->)|(_ & m & Hm & ->)]; split; apply Forall_forall; intros e He;
            apply in_map_iff in He as (x & <- & Hx); try reflexivity.
          -- now apply H1.
          -- destruct (is_td s x); reflexivity.
          -- destruct (is_td s x) eqn:E; [|now apply H1]. cbn. eapply closed2_merge; [exact IH'| |exact Hm].
             intros u Hu. apply filter_In in Hu as [Hu T0]. auto.
        * intros done chs added v child Hin Hi Hb. apply OK in Hb; [|now apply El].
          destruct (lookup_tree s child added); apply Forall_app; split; auto. constructor; auto. destruct Hb as (B1 & B2 & B3).
          split; [now apply Hren|]. split; [|now apply tree_ok_ren].
          unfold has_cs in *. unfold rename. rewrite ren_kind, ren_cs. intros d0 m0 E1 E2 E3 F. apply (B2 d0 m0 E1 E2 E3). now apply map_eq_nil in F.
        * constructor.
      + pose proof (values_ok_root T K _ Hv) as Tv. pose proof (values_ok_kvs T K _ _ _ Hv) as Dk.
        assert (GV : forall kvs' cs, data_ok T K kvs' -> build_values (fun n x => build s ord f n (S d) false x) name kvs' = Ok cs ->
          map ekey (share_groups s name cs) = visible_keys kvs' /\ Forall (fun e => Q (etree e)) (share_groups s name cs)).
        { intros kvs' cs Hd Hb. split; [rewrite share_groups_keys; eapply build_values_keys; eauto|].
          apply Forall_forall; intros e He; apply share_groups_trees in He as (He1 & k0 & t1 & He2 & He3).
          destruct (build_values_In _ _ _ _ _ _ Hb He2) as (A & x & Hin & B). apply IH' in B; [|now apply (Hd _ _ Hin)].
          destruct He3 as [->|(last & ->)]; auto. now apply Hren. }
        destruct k.
        * apply bind_Ok in H as (cs & H1 & H2). injection H2 as <-. apply GV in H1 as [G1 G2]; [eapply Hmap; eauto|].
          destruct (is_td_strategy s); auto. now apply data_ok_limit.
        * destruct (negb (is_compatible name)); [discriminate|]. apply bind_Ok in H as (cs & H1 & H2). injection H2 as <-.
          apply GV in H1 as [G1 G2]; [eapply Hprox; eauto|]. now apply data_ok_limit.
  Qed.
End Closed2.

(** ** The invariant *)

Definition dinv (n : tree) : Prop := forall D m, tkind n = NDict D m ->
  (forall k, child_key n k -> ~ doc_key k) /\
  (forall k, ~ doc_key k -> (has_key k D <-> child_key n k)) /\
  (exists I A : key -> Prop, (forall k, ~ doc_key k -> (A k -> I k) /\ (I k -> child_key n k)) /\ meta_ok m I (child_key n) A) /\
  NoDup (map ekey (tcs n)).
Definition dinv_all (t : tree) : Prop := forall n, node_of n t -> dinv n.

Lemma dinv_all_node i cs : dinv_all (Node i cs) <-> dinv (Node i cs) /\ forall e, In e cs -> dinv_all (snd e).
Proof.
  split.
  - intros H. split; [apply H; constructor|]. intros e He n Hn. apply H. econstructor; eauto.
  - intros [A B] n Hn. apply node_of_inv in Hn as [->|(e & He & Hn)]; auto. apply (B e He _ Hn).
Qed.
Lemma not_dict_dinv i cs : (forall D m, i_kind i <> NDict D m) -> dinv (Node i cs).
Proof. intros H D m E. destruct (H D m E). Qed.
Lemma child_key_ren n k new len x : child_key (ren k new len n) x <-> child_key n x.
Proof. unfold child_key. rewrite ren_cs, map_map. reflexivity. Qed.
Lemma dinv_ren n k new len : dinv n -> dinv (ren k new len n).
Proof.
  intros H D m E. rewrite ren_kind in E. destruct (H D m E) as (A & B & (I & A0 & C & M) & N).
  split; [intros x; rewrite child_key_ren; apply A|]. split; [intros x; rewrite child_key_ren; apply B|]. split.
  - exists I, A0. split; [intros x; rewrite child_key_ren; apply C|]. eapply meta_ok_ext; [|exact M].
    intros x _. rewrite child_key_ren. tauto.
  - rewrite ren_cs, map_map. exact N.
Qed.
Lemma dinv_dict i cs D m D' m' : i_kind i = NDict D m ->
  dinv_all (Node i cs) -> dinv (Node (with_kind i (NDict D' m')) cs) -> dinv_all (Node (with_kind i (NDict D' m')) cs).
Proof. intros E H N. apply dinv_all_node in H as [_ H]. apply dinv_all_node. auto. Qed.

Section Dinv.
  Variable s : strategies.
  Variable ord : set_order.
  Hypothesis Hord : set_like ord.

  Lemma doc_key_dec k : doc_key k \/ ~ doc_key k.
  Proof. rewrite <- hidden_doc. destruct (is_hidden k); auto. Qed.

  Lemma dinv_update t o : dinv_all t -> dinv_all o -> is_td s t = true -> is_td s o = true -> teq s o t = true -> dinv_all (update_node t o).
  Proof.
    intros Ht Ho Tt To E. pose proof (td_teq_keys s o t To Tt E) as KK.
    destruct (Ht t (node_refl t)) with (D := node_data t) (m := node_meta t) as (A1 & A2 & (I1 & B1 & A3 & A4) & A5).
    { unfold is_td, node_is_typed_dict in Tt. unfold node_data, node_meta. destruct (tkind t); try discriminate. reflexivity. }
    destruct (Ho o (node_refl o)) with (D := node_data o) (m := node_meta o) as (C1 & C2 & (I2 & B2 & C3 & C4) & C5).
    { unfold is_td, node_is_typed_dict in To. unfold node_data, node_meta. destruct (tkind o); try discriminate. reflexivity. }
    unfold update_node, node_meta, node_data in *. destruct (tkind t) as [| | | | | | | |D m] eqn:Et; auto. destruct (tkind o) as [| | | | | | | |D' m'] eqn:Eo; auto.
    destruct t as [i cs]. unfold tkind in Et. cbn [ti] in Et. cbv zeta.
    apply (dinv_dict i cs D m (m_data (update_meta m m')) (update_meta m m')); auto.
    intros D0 m0 E0. injection E0 as <- <-.
    assert (M : meta_ok (update_meta m m') I1 (child_key (Node i cs)) (fun k => B1 k /\ I2 k)).
    { eapply meta_ok_ext; [|exact (meta_ok_update _ _ _ _ _ _ _ _ A3 A4 C4)]. intros k _. cbv beta. rewrite KK. tauto. }
    split; [exact A1|]. split; [|split; [|exact A5]].
    - intros k Hk. destruct M as [M _]. destruct (M k Hk) as (_ & M2 & _). exact M2.
    - exists I1, (fun k => B1 k /\ I2 k). split; [|exact M]. intros k Hk. destruct (A3 k Hk). split; [tauto|auto].
  Qed.

  Lemma fold_dinv ts : forall m (I U A : key -> Prop), (forall t, In t ts -> dinv_all t /\ is_td s t = true) ->
    (forall k, ~ doc_key k -> (A k -> I k) /\ (I k -> U k)) -> meta_ok m I U A ->
    exists A' : key -> Prop, (forall k, ~ doc_key k -> A' k -> I k) /\
      meta_ok (fold_left (fun m t => update_meta m (node_meta t)) ts m) I (fun k => U k \/ exists t, In t ts /\ child_key t k) A'.
  Proof.
    induction ts as [|t ts IH]; intros m I U A Ht S M; cbn [fold_left].
    - exists A. split; [intros; now apply S|]. eapply meta_ok_ext; [|exact M]. intros k _. split; [tauto|]. split; [|tauto].
      split; auto. intros [H|(t & [] & _)]; auto.
    - destruct (Ht t (or_introl eq_refl)) as [Dt Tt].
      destruct (Dt t (node_refl t)) with (D := node_data t) (m := node_meta t) as (_ & _ & (I2 & B2 & C3 & C4) & _).
      { unfold is_td, node_is_typed_dict in Tt. unfold node_data, node_meta. destruct (tkind t); try discriminate. reflexivity. }
      pose proof (meta_ok_update _ _ _ _ _ _ _ _ S M C4) as M2.
      destruct (IH (update_meta m (node_meta t)) I (fun k => U k \/ child_key t k) (fun k => A k /\ I2 k)) as (A' & S' & M'); auto.
      { intros; apply Ht; now right. }
      { intros k Hk. destruct (S k Hk). split; [tauto|]. intros H1. left. auto. }
      exists A'. split; auto. eapply meta_ok_ext; [|exact M']. intros k _. split; [tauto|]. split; [|tauto]. split.
      + intros [[H|H]|(u & H & H')]; auto; right; [exists t|exists u]; cbn [In]; auto.
      + intros [H|(u & [->|H] & H')]; auto. right. exists u. auto.
  Qed.

  Lemma dinv_merge first rest t0 data : (forall t, In t (first :: rest) -> dinv_all t /\ is_td s t = true) -> dinv_all t0 ->
    tkind t0 = NDict data (init_meta data) -> map ekey (tcs t0) = visible_keys data ->
    map fst data = map fst (fold_left (fun d t => dupdate d (node_data t)) (first :: rest) []) ->
    dinv_all (set_meta (fold_left (fun m t => update_meta m (node_meta t)) (first :: rest) (node_meta first)) t0).
  Proof.
    intros Ht H0 Ek Ec Ed. set (ts := first :: rest) in *. destruct t0 as [i cs]. unfold set_meta. rewrite Ek. unfold tkind in Ek. cbn [ti tcs] in *.
    set (M := fold_left _ ts _).
    apply (dinv_dict i cs data (init_meta data) data M); auto.
    destruct (Ht first (or_introl eq_refl)) as [Df Tf].
    destruct (Df first (node_refl first)) with (D := node_data first) (m := node_meta first) as (A1 & A2 & (I1 & B1 & A3 & A4) & A5).
    { unfold is_td, node_is_typed_dict in Tf. unfold node_data, node_meta. destruct (tkind first); try discriminate. reflexivity. }
    destruct (fold_dinv ts (node_meta first) I1 (child_key first) B1 Ht A3 A4) as (A' & S' & M'). fold M in M'.
    assert (CK : forall k, In k (map ekey cs) <-> ~ doc_key k /\ has_key k data) by (intros k; rewrite Ec; apply visible_In).
    assert (KM : forall k, ~ doc_key k -> (has_key k data <-> exists t, In t ts /\ child_key t k)).
    { intros k Hk. unfold has_key. rewrite Ed. rewrite (merged_keys ts k []). split.
      - intros [[]|(t & Hi & H)]. exists t. split; auto. destruct (Ht t Hi) as [Dt Tt].
        unfold node_data in H. unfold is_td, node_is_typed_dict in Tt. destruct (tkind t) as [| | | | | | | |D m] eqn:Et; try discriminate.
        destruct (Dt t (node_refl t) D m Et) as (_ & B & _). now apply B.
      - intros (t & Hi & H). right. exists t. split; auto. destruct (Ht t Hi) as [Dt Tt].
        unfold node_data. unfold is_td, node_is_typed_dict in Tt. destruct (tkind t) as [| | | | | | | |D m] eqn:Et; try discriminate.
        destruct (Dt t (node_refl t) D m Et) as (_ & B & _). now apply B. }
    intros D0 m0 E0. injection E0 as <- <-. split; [intros k Hk; now apply CK in Hk|]. split.
    { intros k Hk. unfold child_key. cbn [tcs]. rewrite CK. tauto. }
    split.
    - exists I1, A'. assert (CU : forall k, ~ doc_key k -> (child_key first k \/ (exists t, In t ts /\ child_key t k)) <-> child_key (Node (with_kind i (NDict data M)) cs) k).
      { intros k Hk. unfold child_key at 3. cbn [tcs]. rewrite CK, KM by auto. split.
        - intros [H|H]; split; auto. exists first. split; auto. now left.
        - tauto. }
      split.
      + intros k Hk. split; [now apply S'|]. intros H. apply CU; auto. left. now apply A3.
      + eapply meta_ok_ext; [|exact M']. intros k Hk. rewrite CU by auto. tauto.
    - cbn [tcs]. rewrite Ec. apply visible_NoDup. rewrite Ed. apply merged_NoDup.
  Qed.

  Definition once (v : pyval) : Prop := match v with VMap _ _ kvs => NoDup (map fst kvs) | _ => True end.
  Lemma once_exhaust v : once v -> once (exhaust v).
  Proof. destruct v as [| | | | | | |k t l|k t l]; cbn; auto; [destruct k; cbn; auto|]. now rewrite visible_exhaust. Qed.
  Lemma limit_NoDup (l : list (key * pyval)) : NoDup (map fst l) -> NoDup (map fst (limit s l)).
  Proof.
    unfold limit. destruct (effective_limit s); auto. revert n. induction l as [|a l IH]; intros [|n] H; cbn [firstn map]; try constructor.
    - inversion H; subst. intros F. apply in_map_iff in F as (y & E & Hy). apply H2. rewrite <- E. apply in_map. rewrite <- (firstn_skipn n l). apply in_or_app. now left.
    - inversion H; subst. auto.
  Qed.
  Lemma dinv_init name d r t data cs : NoDup (map fst data) -> map ekey cs = visible_keys data -> (forall e, In e cs -> dinv_all (snd e)) ->
    dinv_all (inner name d r (NDict data (init_meta data)) t cs).
  Proof.
    intros N Ec H. apply dinv_all_node. split; auto. intros D m E. injection E as <- <-.
    assert (CK : forall k, In k (map ekey cs) <-> ~ doc_key k /\ has_key k data) by (intros k; rewrite Ec; apply visible_In).
    unfold child_key. cbn [tcs]. split; [intros k Hk; now apply CK in Hk|]. split; [intros k Hk; rewrite CK; tauto|]. split.
    - exists (fun k => has_key k data), (fun k => has_key k data). split; [intros k Hk; rewrite CK; tauto|].
      eapply meta_ok_ext; [|apply meta_ok_init]. intros k Hk. rewrite CK. tauto.
    - rewrite Ec. now apply visible_NoDup.
  Qed.

  Lemma unique_values v : unique_keys v -> values_ok once (fun _ => True) v.
  Proof.
    intros U. split; [|auto]. intros x Hx. destruct x; cbn; auto. eapply U; eauto.
  Qed.
  Lemma build_dinv fuel name d r v t : unique_keys v -> build s ord fuel name d r v = Ok t -> dinv_all t.
  Proof.
    intros U. apply (closed2 s ord Hord once (fun _ => True) once_exhaust (fun d H => H) dinv_all).
    - intros n0 d0 r0 k ty Lk. apply dinv_all_node. split; [|intros e []]. apply not_dict_dinv. intros D m F. cbn [i_kind] in F. subst. exact Lk.
    - intros n0 d0 r0 k ty cs _ F. rewrite Forall_forall in F. apply dinv_all_node. split; auto. now apply not_dict_dinv.
    - intros n0 d0 r0 ty kvs cs _ _ F. rewrite Forall_forall in F. apply dinv_all_node. split; auto. now apply not_dict_dinv.
    - intros n0 d0 r0 ty kvs data cs O E Ec F. rewrite Forall_forall in F. apply dinv_init; auto. subst. cbn [once] in O.
      destruct (is_td_strategy s); auto. now apply limit_NoDup.
    - intros t0 k new n0 H n Hn. apply node_of_ren in Hn as (m' & k' & Hm & ->). now apply dinv_ren, H.
    - intros t0 o A B C D E. now apply dinv_update.
    - intros; now apply dinv_merge with (data := data).
    - now apply unique_values.
  Qed.
End Dinv.
