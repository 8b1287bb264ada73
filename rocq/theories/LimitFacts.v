(** The element limit: construction from a value and from its cut give the same tree, up to the values that dict nodes keep. *)
From Coq Require Import Ascii String List Bool Arith Lia Permutation.
From Verif Require Import PyStr PyStrFacts Utils Strategies Imports Dispatch Values Tree Build Emit TreeFacts SpecData BuildFacts BuildInd TotalFacts FuelFacts AlikeFacts DataMap SpecLimit.
Import ListNotations.
Local Open Scope string_scope.

Lemma type_cut td n v : type_of (cut td n v) = type_of v.
Proof. now destruct v. Qed.
Lemma text_cut td n v d : cut td n v = VStr d <-> v = VStr d.
Proof. destruct v; cbn; split; congruence. Qed.
Lemma cut_dict td n t d : td = true -> cut td n (VMap MDict t d) = VMap MDict t (vmap (cut td n) d).
Proof. intros ->. reflexivity. Qed.
Lemma exhaust_cut td n v : exhaust (cut td n v) = cut td n (exhaust v).
Proof.
  induction v as [| | | | | | |k t l IH|k t kvs IH] using pyval_ind'; auto; rewrite Forall_forall in IH.
  - assert (E : map exhaust (firstn n (map (cut td n) l)) = firstn n (map (cut td n) (map exhaust l))).
    { rewrite <- firstn_map, !map_map. f_equal. apply map_ext_in. auto. }
    destruct k; cbn [cut exhaust]; f_equal; auto. cbn. now destruct n.
  - assert (E : map (fun kv : key * pyval => (fst kv, exhaust (snd kv))) (map (fun kv => (fst kv, cut td n (snd kv))) kvs)
                = map (fun kv => (fst kv, cut td n (snd kv))) (map (fun kv => (fst kv, exhaust (snd kv))) kvs)).
    { rewrite !map_map. apply map_ext_in. intros kv Hkv. cbn [fst snd]. now rewrite IH. }
    cbn [cut exhaust]. f_equal. destruct k; [destruct td|]; rewrite <- ?firstn_map; now rewrite E.
Qed.
Lemma vdepth_cut td n v : vdepth (cut td n v) <= vdepth v.
Proof.
  assert (F : forall l : list nat, forall k, maxl (firstn k l) <= maxl l).
  { intros l. induction l as [|a l IHl]; intros [|k]; cbn; try lia. specialize (IHl k). cbn in IHl. unfold maxl in IHl. lia. }
  induction v as [| | | | | | |k t l IH|k t kvs IH] using pyval_ind'; auto; rewrite Forall_forall in IH.
  - cbn [cut vdepth]. apply le_n_S. rewrite <- firstn_map, map_map. etransitivity; [apply F|]. clear -IH. induction l as [|a l IHl]; cbn; auto.
    pose proof (IH a (or_introl eq_refl)). assert (forall x, In x l -> vdepth (cut td n x) <= vdepth x) by (intros; apply IH; now right). apply IHl in H0. unfold maxl in H0. lia.
  - cbn [cut vdepth]. apply le_n_S.
    assert (E : maxl (map (fun kv => vdepth (snd kv)) (map (fun kv : key * pyval => (fst kv, cut td n (snd kv))) kvs)) <= maxl (map (fun kv => vdepth (snd kv)) kvs)).
    { rewrite map_map. cbn [snd]. clear -IH. induction kvs as [|a l IHl]; cbn; auto.
      pose proof (IH a (or_introl eq_refl)). assert (forall x, In x l -> vdepth (cut td n (snd x)) <= vdepth (snd x)) by (intros; apply IH; now right).
      apply IHl in H0. unfold maxl in H0. lia. }
    destruct k; [destruct td|]; rewrite <- ?firstn_map; try (etransitivity; [apply F|]); exact E.
Qed.
Lemma firstn_fixed {A} (f : A -> A) n l : firstn n (map f l) = l -> map f l = l /\ List.length l <= n.
Proof.
  intros H. assert (L : List.length l <= n). { rewrite <- H at 1. apply firstn_le_length. }
  split; auto. rewrite <- H at 2. symmetry. apply firstn_all2. now rewrite map_length.
Qed.
Lemma map_fixed {A} (f : A -> A) l : map f l = l -> forall x, In x l -> f x = x.
Proof. induction l as [|a l IH]; cbn; intros H x []; injection H as H1 H2; subst; auto. Qed.
Lemma from_multiple_at b1 b2 ts :
  (ts <> [] -> forall n, b1 n (fold_left (fun d t => dupdate d (node_data t)) ts []) = b2 n (fold_left (fun d t => dupdate d (node_data t)) ts [])) ->
  from_multiple b1 ts = from_multiple b2 ts.
Proof. intros H. destruct ts; auto. unfold from_multiple. now rewrite H by discriminate. Qed.
Lemma build_set_at s b1 b2 p els : (forall n v, In v els -> b1 n v = b2 n v) -> forall st, build_set s b1 p els st = build_set s b2 p els st.
Proof. induction els as [|v els IH]; intros H st; cbn [build_set]; auto. rewrite H by now left. apply bind_ext. intros. apply IH. intros; apply H; now right. Qed.
Lemma build_list_at s b1 b2 p els : (forall n v, In v els -> b1 n v = b2 n v) -> forall ch ad, build_list s b1 p els ch ad = build_list s b2 p els ch ad.
Proof.
  induction els as [|v els IH]; intros H ch ad; cbn [build_list]; auto. rewrite H by now left. apply bind_ext. intros a _.
  destruct (lookup_tree s a ad); apply IH; intros; apply H; now right.
Qed.
Lemma build_values_at b1 b2 p kvs : (forall n k v, In (k, v) kvs -> b1 n v = b2 n v) -> build_values b1 p kvs = build_values b2 p kvs.
Proof.
  induction kvs as [|[k v] kvs IH]; intros H; cbn [build_values]; auto. rewrite (H _ k) by now left.
  rewrite IH by (intros; eapply H; right; eauto). reflexivity.
Qed.

Section Limit.
  Variable s : strategies.
  Variable ord : set_order.
  Variable n : nat.
  Variable td : bool.
  Hypothesis Htd : is_td_strategy s = td.
  Let g := cut td n.
  Hypothesis L : effective_limit s = Some n.
  Hypothesis O : forall i l, ord i (map (tmap g) l) = map (tmap g) (ord i l).

  Lemma limit_n {A} (l : list A) : limit s l = firstn n l.
  Proof. unfold limit. now rewrite L. Qed.
  Lemma firstn_map_idem {A B} (f : A -> B) l : firstn n (firstn n (map f l)) = map f (firstn n l).
  Proof. rewrite firstn_firstn, Nat.min_id. apply firstn_map. Qed.
  Lemma td_strategy_of ts : filter (is_td s) ts <> [] -> td = true.
  Proof.
    intros N. destruct (filter (is_td s) ts) as [|t l] eqn:E; [congruence|]. assert (I : In t (filter (is_td s) ts)) by (rewrite E; now left).
    apply filter_In in I as [_ I]. unfold is_td, node_is_typed_dict in I. destruct (tkind t); try discriminate. apply andb_true_iff in I as [_ I]. congruence.
  Qed.

  Lemma build_cut : forall f name d r v, build s ord f name d r (g v) = rmap (tmap g) (build s ord f name d r v).
  Proof.
    assert (Gt : forall v, type_of (g v) = type_of v) by (intros; apply type_cut).
    assert (Leaf : forall name d r k t, leaf name d r (kmap g k) t = rmap (tmap g) (leaf name d r k t)).
    { intros. unfold leaf. destruct (is_compatible name); reflexivity. }
    induction f as [|f IH]; intros name d r v.
    - destruct v; try apply (Leaf name d r NInst); try apply (Leaf name d r (NFun _)); try apply (Leaf name d r (NClass _)); try apply (Leaf name d r NModule);
        try apply (Leaf name d r NIO); try apply (Leaf name d r (NNumpy _)).
      + cbn [g cut build]. unfold g. cbn [cut build]. destruct (negb _); reflexivity.
      + unfold g. cbn [cut build]. destruct k; [reflexivity|]. destruct (negb _); reflexivity.
    - destruct v; try apply (Leaf name d r NInst); try apply (Leaf name d r (NFun _)); try apply (Leaf name d r (NClass _)); try apply (Leaf name d r NModule);
        try apply (Leaf name d r NIO); try apply (Leaf name d r (NNumpy _)).
      + assert (B : forall n0 x, In x (firstn n l) -> build s ord f n0 (S d) false (g x) = rmap (tmap g) (build s ord f n0 (S d) false x)) by auto.
        assert (D : is_td_strategy s = true -> forall n0 d0, build s ord f n0 (S d) false (exhaust (VMap MDict ty_dict (vmap g d0)))
                    = rmap (tmap g) (build s ord f n0 (S d) false (exhaust (VMap MDict ty_dict d0)))).
        { intros T n0 d0. rewrite <- IH. f_equal. unfold g. rewrite <- exhaust_cut, cut_dict by congruence. reflexivity. }
        unfold g at 1. cbn [cut build]. rewrite !limit_n, firstn_map_idem. fold g. destruct (negb (is_compatible name)); [reflexivity|].
        assert (BS : bind (build_set s (fun n0 x => build s ord f n0 (S d) false x) name (map g (firstn n l)) ([], []))
                       (merge_set s ord (fun n0 d0 => build s ord f n0 (S d) false (exhaust (VMap MDict ty_dict d0))))
                   = rmap (map (emap g)) (bind (build_set s (fun n0 x => build s ord f n0 (S d) false x) name (firstn n l) ([], []))
                       (merge_set s ord (fun n0 d0 => build s ord f n0 (S d) false (exhaust (VMap MDict ty_dict d0)))))).
        { pose proof (build_set_tmap g Gt s (fun n0 x => build s ord f n0 (S d) false x) (fun n0 x => build s ord f n0 (S d) false x) name (firstn n l) B [] []) as E. cbn [map] in E. rewrite E. apply bind_rmap. intros ch _.
          apply merge_set_tmap; auto. }
        assert (BL : bind (build_list s (fun n0 x => build s ord f n0 (S d) false x) name (map g (firstn n l)) [] [])
                       (merge_list s (fun n0 d0 => build s ord f n0 (S d) false (exhaust (VMap MDict ty_dict d0))))
                   = rmap (map (emap g)) (bind (build_list s (fun n0 x => build s ord f n0 (S d) false x) name (firstn n l) [] [])
                       (merge_list s (fun n0 d0 => build s ord f n0 (S d) false (exhaust (VMap MDict ty_dict d0)))))).
        { pose proof (build_list_tmap g Gt s (fun n0 x => build s ord f n0 (S d) false x) (fun n0 x => build s ord f n0 (S d) false x) name (firstn n l) B [] []) as E. cbn [map] in E. rewrite E. apply bind_rmap. intros ch _.
          apply merge_list_tmap; auto. }
        destruct k; try destruct (s_tuple s); rewrite ?BS, ?BL; apply bind_rmap; intros cs _; cbn [rmap]; now rewrite <- inner_tmap.
      + assert (V : forall kvs' : list (key * pyval), (forall n0 k0 x, In (k0, x) kvs' -> build s ord f n0 (S d) false (g x) = rmap (tmap g) (build s ord f n0 (S d) false x))) by auto.
        assert (E : limit s (vmap g kvs) = vmap g (limit s kvs)) by (rewrite !limit_n; apply firstn_map).
        assert (E' : limit s (firstn n (vmap g kvs)) = vmap g (limit s kvs)) by (rewrite !limit_n; unfold vmap; apply firstn_map_idem).
        destruct k; unfold g at 1; cbn [cut build].
        * rewrite Htd. change (map (fun kv : key * pyval => (fst kv, cut td n (snd kv))) kvs) with (vmap g kvs).
          set (data := if td then kvs else limit s kvs).
          assert (Ed : (if td then if td then vmap g kvs else firstn n (vmap g kvs) else limit s (if td then vmap g kvs else firstn n (vmap g kvs))) = vmap g data).
          { unfold data. destruct td; auto. }
          rewrite Ed. rewrite (build_values_tmap g (fun n0 x => build s ord f n0 (S d) false x) (fun n0 x => build s ord f n0 (S d) false x) name data (V data)).
          apply bind_rmap. intros cs _. cbn [rmap]. now rewrite share_tmap, init_mmap, <- inner_tmap.
        * destruct (negb (is_compatible name)); [reflexivity|].
          change (map (fun kv : key * pyval => (fst kv, cut td n (snd kv))) kvs) with (vmap g kvs).
          rewrite E'. rewrite (build_values_tmap g (fun n0 x => build s ord f n0 (S d) false x) (fun n0 x => build s ord f n0 (S d) false x) name (limit s kvs) (V _)). apply bind_rmap. intros cs _. cbn [rmap].
          now rewrite share_tmap, <- inner_tmap.
  Qed.

  Lemma from_data_cut v name : set_like ord -> from_data s ord (g v) name = rmap (tmap g) (from_data s ord v name).
  Proof.
    intros Ho. unfold from_data. destruct (is_compatible name); auto. rewrite <- build_cut. pose proof (vdepth_cut td n v) as D. fold (g v) in D.
    apply (build_fuel s ord Ho); lia.
  Qed.

  (** ** A value that is not longer than the limit *)
  Variable s' : strategies.
  Hypothesis A : alike s s'.
  Hypothesis N : effective_limit s' = None.
  Lemma limit_none {X} (l : list X) : limit s' l = l.
  Proof. unfold limit. now rewrite N. Qed.

  Lemma build_short : forall f name d r v, g v = v -> build s ord f name d r v = build s' ord f name d r v.
  Proof.
    assert (Gt : forall v, type_of (g v) = type_of v) by (intros; apply type_cut).
    induction f as [|f IH]; intros name d r v Hv; destruct v; cbn [build]; auto.
    - unfold g in Hv. cbn [cut] in Hv. assert (F : firstn n (map g l) = l) by (unfold g; congruence). clear Hv.
      apply firstn_fixed in F as [F Ln]. destruct (negb (is_compatible name)); auto.
      rewrite limit_none, limit_n, firstn_all2 by auto. pose proof (map_fixed _ _ F) as Fx.
      set (bld := fun n0 x => build s ord f n0 (S d) false x). set (bld' := fun n0 x => build s' ord f n0 (S d) false x).
      set (bd := fun n0 d0 => build s ord f n0 (S d) false (exhaust (VMap MDict ty_dict d0))).
      set (bd' := fun n0 d0 => build s' ord f n0 (S d) false (exhaust (VMap MDict ty_dict d0))).
      assert (B : forall n0 x, In x l -> bld n0 (g x) = rmap (tmap g) (bld n0 x)) by (intros; apply build_cut).
      assert (B' : forall n0 x, In x l -> bld n0 x = bld' n0 x) by (intros; apply IH; auto).
      assert (FM : forall ts, (ts <> [] -> td = true) -> map (tmap g) ts = ts -> from_multiple bd ts = from_multiple bd' ts).
      { intros ts T E. apply from_multiple_at. intros Nn n0. unfold bd, bd'. apply IH. unfold g at 1. rewrite <- exhaust_cut, cut_dict by auto. fold g.
        do 2 f_equal. change (@nil (key * pyval)) with (vmap g []) at 1. now rewrite <- merged_tmap, E. }
      assert (BS : bind (build_set s bld name l ([], [])) (merge_set s ord bd) = bind (build_set s' bld' name l ([], [])) (merge_set s' ord bd')).
      { rewrite <- (alike_build_set s s' A bld' bld' name l) by auto. rewrite (build_set_at s bld bld' name l B'). apply bind_ext. intros ch Hch.
        assert (Fc : map (tmap g) ch = ch).
        { rewrite <- (build_set_at s bld bld' name l B') in Hch. pose proof (build_set_tmap g Gt s bld bld name l B [] []) as E. cbn [map] in E. rewrite F, Hch in E. cbn in E. congruence. }
        rewrite <- (alike_merge_set s s' A ord bd' bd' ch) by auto. unfold merge_set. destruct (should_merge _ _); auto.
        rewrite FM; auto.
        - apply td_strategy_of.
        - rewrite <- (filter_tmap g (is_td s)) by apply is_td_tmap. now rewrite <- O, Fc. }
      assert (BL : bind (build_list s bld name l [] []) (merge_list s bd) = bind (build_list s' bld' name l [] []) (merge_list s' bd')).
      { rewrite <- (alike_build_list s s' A bld' bld' name l) by auto. rewrite (build_list_at s bld bld' name l B'). apply bind_ext. intros ch Hch.
        assert (Fc : map (tmap g) ch = ch).
        { rewrite <- (build_list_at s bld bld' name l B') in Hch. pose proof (build_list_tmap g Gt s bld bld name l B [] []) as E. cbn [map] in E. rewrite F, Hch in E. cbn in E. congruence. }
        rewrite <- (alike_merge_list s s' A bd' bd' ch) by auto. unfold merge_list. destruct (should_merge _ _); auto.
        rewrite FM; auto.
        - apply td_strategy_of.
        - rewrite <- (filter_tmap g (is_td s)) by apply is_td_tmap. now rewrite Fc. }
      fold bld bld' bd bd'. destruct A as (T & _). rewrite <- T. destruct k; try destruct (s_tuple s); rewrite ?BS, ?BL; reflexivity.
    - unfold g in Hv. cbn [cut] in Hv. rewrite !limit_none, limit_n.
      assert (F : (k = MDict -> td = true -> vmap g kvs = kvs) /\ (k = MProxy \/ td = false -> vmap g kvs = kvs /\ List.length kvs <= n)).
      { change (map (fun kv : key * pyval => (fst kv, cut td n (snd kv))) kvs) with (vmap g kvs) in Hv.
        split.
        - intros -> T. rewrite T in Hv at 1. congruence.
        - intros H. unfold vmap. apply firstn_fixed. fold (vmap g kvs). destruct H as [-> | T]; [congruence|]. rewrite T in Hv. destruct k; congruence. }
      assert (D : is_td_strategy s = is_td_strategy s') by (destruct A as (_ & D & _); unfold is_td_strategy; now rewrite D). rewrite <- D, Htd.
      assert (V : vmap g kvs = kvs -> forall p, build_values (fun n0 x => build s ord f n0 (S d) false x) p kvs = build_values (fun n0 x => build s' ord f n0 (S d) false x) p kvs).
      { intros E p. apply build_values_at. intros n0 k0 x Hx. apply IH. pose proof (map_fixed _ _ E _ Hx) as Q. cbn in Q. congruence. }
      destruct F as [F1 F2]. destruct k.
      + destruct td eqn:T.
        * rewrite V by auto. apply bind_ext. intros cs _. now rewrite (alike_share s s' A).
        * destruct F2 as [F2 F3]; auto. rewrite firstn_all2 by auto. rewrite V by auto. apply bind_ext. intros cs _. now rewrite (alike_share s s' A).
      + destruct F2 as [F2 F3]; auto. rewrite firstn_all2 by auto. destruct (negb _); auto. rewrite V by auto. apply bind_ext. intros cs _. now rewrite (alike_share s s' A).
  Qed.
  Lemma from_data_short v name : g v = v -> from_data s ord v name = from_data s' ord v name.
  Proof. intros E. unfold from_data. destruct (is_compatible name); auto. now apply build_short. Qed.
End Limit.

Lemma cut_cut td n v : cut td n (cut td n v) = cut td n v.
Proof.
  induction v as [| | | | | | |k t l IH|k t kvs IH] using pyval_ind'; auto; rewrite Forall_forall in IH.
  - cbn [cut]. f_equal. rewrite <- firstn_map, firstn_firstn, Nat.min_id, map_map. f_equal. apply map_ext_in. auto.
  - assert (E : map (fun kv : key * pyval => (fst kv, cut td n (snd kv))) (map (fun kv => (fst kv, cut td n (snd kv))) kvs)
                = map (fun kv => (fst kv, cut td n (snd kv))) kvs).
    { rewrite map_map. apply map_ext_in. intros kv Hkv. cbn [fst snd]. now rewrite IH. }
    cbn [cut]. f_equal. destruct k; [destruct td|]; rewrite <- ?firstn_map, ?firstn_firstn, ?Nat.min_id; now rewrite E.
Qed.
