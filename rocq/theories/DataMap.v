(** Replacing the values that the dict nodes of a tree keep, without changing their types and texts, commutes with
    every step of the construction and does not change the declarations. *)
From Coq Require Import Ascii String List Bool Arith Lia.
From Verif Require Import PyStr PyStrFacts Utils Strategies Imports Dispatch Values Tree Build Emit TreeFacts.
Import ListNotations.
Local Open Scope string_scope.

Definition rmap {A B} (f : A -> B) (r : res A) : res B := match r with Ok a => Ok (f a) | Err e => Err e | OutOfFuel => OutOfFuel end.
Definition vmap (g : pyval -> pyval) (d : list (key * pyval)) : list (key * pyval) := map (fun kv => (fst kv, g (snd kv))) d.
Definition mmap (g : pyval -> pyval) (m : meta) : meta := Meta (vmap g (m_data m)) (m_initial m) (m_required m).
Definition kmap (g : pyval -> pyval) (k : nkind) : nkind := match k with NDict d m => NDict (vmap g d) (mmap g m) | _ => k end.
Definition imap (g : pyval -> pyval) (i : info) : info :=
  Info (i_name i) (i_depth i) (i_height i) (i_root i) (kmap g (i_kind i)) (i_type i).
Fixpoint tmap (g : pyval -> pyval) (t : tree) : tree :=
  match t with Node i cs => Node (imap g i) (map (fun e => (fst e, tmap g (snd e))) cs) end.
Definition emap (g : pyval -> pyval) (e : key * nat * tree) : key * nat * tree := (fst e, tmap g (snd e)).

Lemma bind_rmap {A A' B B'} (f : A -> A') (h : B -> B') (r : res A) (k : A -> res B) (k' : A' -> res B') :
  (forall a, r = Ok a -> k' (f a) = rmap h (k a)) -> bind (rmap f r) k' = rmap h (bind r k).
Proof. destruct r; cbn; auto. Qed.
Lemma rmap_Ok {A B} (f : A -> B) r b : rmap f r = Ok b -> exists a, r = Ok a /\ b = f a.
Proof. destruct r; cbn; try discriminate. injection 1 as <-. eauto. Qed.

Section DataMap.
  Variable g : pyval -> pyval.
  Hypothesis g_type : forall v, type_of (g v) = type_of v.
  Hypothesis g_text : forall v d, g v = VStr d <-> v = VStr d.

  Lemma fst_vmap d : map fst (vmap g d) = map fst d.
  Proof. unfold vmap. rewrite map_map. reflexivity. Qed.
  Lemma all_str_vmap d : all_str (vmap g d) = all_str d.
  Proof. unfold all_str, vmap. induction d; cbn; auto. now rewrite IHd. Qed.
  Lemma td_mmap s m : is_typed_dict s (mmap g m) = is_typed_dict s m.
  Proof. unfold is_typed_dict. cbn [mmap m_data]. now rewrite all_str_vmap. Qed.
  Lemma tname_tmap t : tname (tmap g t) = tname t.
  Proof. now destruct t. Qed.
  Lemma theight_tmap t : theight (tmap g t) = theight t.
  Proof. now destruct t. Qed.
  Lemma ti_tmap t : ti (tmap g t) = imap g (ti t).
  Proof. now destruct t. Qed.
  Lemma tcs_tmap t : tcs (tmap g t) = map (emap g) (tcs t).
  Proof. now destruct t. Qed.
  Lemma tkind_tmap t : tkind (tmap g t) = kmap g (tkind t).
  Proof. now destruct t. Qed.
  Lemma is_td_tmap s t : is_td s (tmap g t) = is_td s t.
  Proof. unfold is_td, node_is_typed_dict. rewrite tkind_tmap. destruct (tkind t); cbn; auto. apply td_mmap. Qed.
  Lemma thash_tmap s t : thash s (tmap g t) = thash s t.
  Proof.
    induction t as [i cs IH] using tree_ind'. rewrite Forall_forall in IH. cbn [tmap thash imap i_kind i_type].
    assert (E : map (fun e : key * nat * tree => thash s (snd e)) (map (fun e => (fst e, tmap g (snd e))) cs) = map (fun e => thash s (snd e)) cs).
    { rewrite map_map. apply map_ext_in. intros e He. cbn. auto. }
    assert (E2 : forall h : key -> hk -> hk, map (fun e : key * nat * tree => h (fst (fst e)) (thash s (snd e))) (map (fun e => (fst e, tmap g (snd e))) cs)
                   = map (fun e => h (fst (fst e)) (thash s (snd e))) cs).
    { intros h. rewrite map_map. apply map_ext_in. intros e He. cbn. now rewrite IH. }
    destruct (i_kind i) as [|f|c| | |d|k| |data m]; cbn [kmap]; auto.
    - rewrite E. auto.
    - f_equal. apply (E2 (fun k h => HMap (ty_id (key_type k)) h)).
    - rewrite td_mmap. destruct (is_typed_dict s m); f_equal; [apply (E2 HTd)|apply (E2 (fun k h => HMap (ty_id (key_type k)) h))].
  Qed.
  Lemma class_kmap k : class_of (kmap g k) = class_of k.
  Proof. now destruct k. Qed.
  Lemma teq_tmap s a b : teq s (tmap g a) (tmap g b) = teq s a b.
  Proof. unfold teq. now rewrite !thash_tmap, !tkind_tmap, !class_kmap. Qed.
  Lemma exists_tmap s a l : existsb (teq s (tmap g a)) (map (tmap g) l) = existsb (teq s a) l.
  Proof. induction l; cbn [map existsb]; auto. now rewrite teq_tmap, IHl. Qed.
  Lemma imap_with i n : imap g (with_name i n) = with_name (imap g i) n.
  Proof. reflexivity. Qed.
  Lemma ren_tmap t : forall k new n, tmap g (ren k new n t) = ren k new n (tmap g t).
  Proof.
    induction t as [i cs IH] using tree_ind'. rewrite Forall_forall in IH. intros k new n. cbn [tmap ren]. f_equal.
    rewrite !map_map. apply map_ext_in. intros [[x m] c] He. cbn. f_equal. apply (IH (x, m, c) He).
  Qed.
  Lemma rename_tmap new t : tmap g (rename new t) = rename new (tmap g t).
  Proof. unfold rename. now rewrite ren_tmap, tname_tmap. Qed.

  (** ** Metadata *)
  Lemma dmem_vmap k d : dmem k (vmap g d) = dmem k d.
  Proof. unfold dmem, vmap. induction d; cbn; auto. now rewrite IHd. Qed.
  Lemma dset_vmap k v d : dset k (g v) (vmap g d) = vmap g (dset k v d).
  Proof. unfold vmap. induction d as [|[k' b] d IH]; cbn; auto. destruct (key_eqb k k'); cbn; auto. now rewrite IH. Qed.
  Lemma dget_vmap k d : dget k (vmap g d) = option_map g (dget k d).
  Proof. unfold vmap. induction d as [|[k' b] d IH]; cbn; auto. destruct (key_eqb k k'); cbn; auto. Qed.
  Lemma dupdate_vmap d e : dupdate (vmap g d) (vmap g e) = vmap g (dupdate d e).
  Proof. unfold dupdate. revert d. induction e as [|[k v] e IH]; intros d; cbn; auto. rewrite dset_vmap. apply IH. Qed.
  Lemma init_mmap d : init_meta (vmap g d) = mmap g (init_meta d).
  Proof. unfold init_meta, mmap. cbn. now rewrite fst_vmap. Qed.
  Lemma update_mmap m m' : update_meta (mmap g m) (mmap g m') = mmap g (update_meta m m').
  Proof.
    unfold update_meta. cbn [mmap m_data m_initial m_required].
    assert (E : forall e d, fold_left (fun d kv => if dmem (fst kv) d then d else dset (fst kv) (snd kv) d) (vmap g e) (vmap g d)
              = vmap g (fold_left (fun d kv => if dmem (fst kv) d then d else dset (fst kv) (snd kv) d) e d)).
    { induction e as [|[k v] e IH]; intros d; cbn [vmap map fold_left fst snd]; auto. rewrite dmem_vmap.
      destruct (dmem k d); [apply IH|]. rewrite dset_vmap. apply IH. }
    rewrite E. set (D := fold_left _ (m_data m') (m_data m)).
    assert (F : forall d r, fold_left (fun r kv => if dmem (fst kv) r || is_hidden (fst kv) then r else dset (fst kv) false r) (vmap g d) r
              = fold_left (fun r (kv : key * pyval) => if dmem (fst kv) r || is_hidden (fst kv) then r else dset (fst kv) false r) d r).
    { induction d as [|[k v] d IH]; intros r; cbn [vmap map fold_left fst snd]; auto. }
    rewrite F. unfold mmap. cbn [m_data m_initial m_required]. reflexivity.
  Qed.
  Lemma visible_vmap d : visible_keys (vmap g d) = visible_keys d.
  Proof. unfold visible_keys. now rewrite fst_vmap. Qed.
  Lemma merge_mmap s ms : should_merge s (map (mmap g) ms) = should_merge s ms.
  Proof.
    unfold should_merge. rewrite map_map. rewrite (map_ext (fun x => visible_keys (m_data (mmap g x))) (fun m => visible_keys (m_data m))) by (intros; apply visible_vmap).
    f_equal. f_equal. unfold value_types.
    assert (E : flat_map m_data (map (mmap g) ms) = vmap g (flat_map m_data ms)).
    { clear. induction ms as [|m ms IH]; cbn [map flat_map]; auto. unfold vmap. rewrite map_app. rewrite IH. reflexivity. }
    rewrite E. clear E. generalize (@nil (key * list nat)). induction (flat_map m_data ms) as [|[k v] l IH]; intros vt; cbn [vmap map fold_left fst snd]; auto.
    rewrite g_type. apply IH.
  Qed.
  Lemma metas_tmap s ts : metas_of s (map (tmap g) ts) = map (mmap g) (metas_of s ts).
  Proof.
    unfold metas_of. induction ts as [|t ts IH]; cbn [map flat_map]; auto. rewrite map_app, IH, tkind_tmap. f_equal.
    destruct (tkind t); cbn; auto. rewrite td_mmap. destruct (is_typed_dict s m); auto.
  Qed.
  Lemma node_data_tmap t : node_data (tmap g t) = vmap g (node_data t).
  Proof. unfold node_data. rewrite tkind_tmap. now destruct (tkind t). Qed.
  Lemma node_meta_tmap t : node_meta (tmap g t) = mmap g (node_meta t).
  Proof. unfold node_meta. rewrite tkind_tmap. now destruct (tkind t). Qed.
  Lemma update_node_tmap t o : update_node (tmap g t) (tmap g o) = tmap g (update_node t o).
  Proof.
    unfold update_node. rewrite !tkind_tmap. destruct (tkind t), (tkind o); cbn [kmap]; auto. rewrite update_mmap. now destruct t.
  Qed.
  Lemma set_meta_tmap m t : set_meta (mmap g m) (tmap g t) = tmap g (set_meta m t).
  Proof. unfold set_meta. rewrite !tkind_tmap. destruct (tkind t); cbn [kmap]; auto. now destruct t. Qed.

  Lemma merged_tmap ts : forall d, fold_left (fun d t => dupdate d (node_data t)) (map (tmap g) ts) (vmap g d)
    = vmap g (fold_left (fun d t => dupdate d (node_data t)) ts d).
  Proof. induction ts as [|t ts IH]; intros d; cbn; auto. rewrite node_data_tmap, dupdate_vmap. apply IH. Qed.
  Lemma from_multiple_tmap bld bld' ts :
    (ts <> [] -> forall n d, bld' n (vmap g d) = rmap (tmap g) (bld n d)) ->
    from_multiple bld' (map (tmap g) ts) = rmap (tmap g) (from_multiple bld ts).
  Proof.
    intros H. destruct ts as [|t ts]; auto. unfold from_multiple. cbn [map]. rewrite <- (map_cons (tmap g) t ts).
    assert (E1 : fold_left (fun n t => str_min n (tname t)) (map (tmap g) (t :: ts)) (tname (tmap g t)) = fold_left (fun n t => str_min n (tname t)) (t :: ts) (tname t)).
    { rewrite tname_tmap. generalize (tname t). generalize (t :: ts). induction l as [|x l IH]; intros n; cbn; auto. rewrite tname_tmap. apply IH. }
    assert (E2 : forall l m, fold_left (fun m t => update_meta m (node_meta t)) (map (tmap g) l) (mmap g m) = mmap g (fold_left (fun m t => update_meta m (node_meta t)) l m)).
    { induction l as [|x l IH]; intros m; cbn; auto. rewrite node_meta_tmap, update_mmap. apply IH. }
    rewrite E1, node_meta_tmap, E2. change (@nil (key * pyval)) with (vmap g []) at 1. rewrite merged_tmap, H by discriminate.
    apply bind_rmap. intros a _. cbn [rmap]. now rewrite set_meta_tmap.
  Qed.

  (** ** Children *)
  Lemma add_child_tmap s c n ch ns :
    add_child s (tmap g c) n (map (tmap g) ch, ns) = (map (tmap g) (fst (add_child s c n (ch, ns))), snd (add_child s c n (ch, ns))).
  Proof.
    unfold add_child. rewrite exists_tmap. destruct (existsb (teq s c) ch).
    - fold (is_td s (tmap g c)) (is_td s c). rewrite is_td_tmap. destruct (is_td s c); auto. cbn [fst snd]. f_equal. rewrite !map_map. apply map_ext.
      intros x. rewrite teq_tmap. destruct (teq s c x); auto. apply update_node_tmap.
    - cbn [fst snd]. now rewrite map_app.
  Qed.
  Lemma element_gmap p v : element_name p (g v) = element_name p v.
  Proof. unfold element_name. now rewrite g_type. Qed.
  Lemma build_set_tmap s bld bld' p els : (forall n x, In x els -> bld' n (g x) = rmap (tmap g) (bld n x)) ->
    forall ch ns, build_set s bld' p (map g els) (map (tmap g) ch, ns) = rmap (map (tmap g)) (build_set s bld p els (ch, ns)).
  Proof.
    induction els as [|v els IH]; intros H ch ns; cbn [build_set map]; auto. cbn [snd]. rewrite element_gmap. rewrite H by now left. apply bind_rmap. intros a _. rewrite add_child_tmap.
    destruct (add_child s a (fresh_name (element_name p v) ns) (ch, ns)) as [ch' ns']. cbn [fst snd]. apply IH. intros; apply H; now right.
  Qed.
  Definition amap (e : tree * string) : tree * string := (tmap g (fst e), snd e).
  Lemma lookup_tmap s t added : lookup_tree s (tmap g t) (map amap added) = lookup_tree s t added.
  Proof.
    unfold lookup_tree. induction added as [|[x n] added IH]; cbn [map find amap fst snd]; auto. rewrite teq_tmap. destruct (teq s t x); auto.
  Qed.
  Lemma build_list_tmap s bld bld' p els : (forall n x, In x els -> bld' n (g x) = rmap (tmap g) (bld n x)) ->
    forall ch ad, build_list s bld' p (map g els) (map (tmap g) ch) (map amap ad) = rmap (map (tmap g)) (build_list s bld p els ch ad).
  Proof.
    induction els as [|v els IH]; intros H ch ad; cbn [build_list map]; auto. rewrite element_gmap. rewrite map_map. rewrite (map_ext (fun x => snd (amap x)) snd) by auto. rewrite H by now left. apply bind_rmap. intros a _.
    rewrite lookup_tmap. assert (H' : forall n x, In x els -> bld' n (g x) = rmap (tmap g) (bld n x)) by (intros; apply H; now right).
    destruct (lookup_tree s a ad).
    - rewrite <- (IH H' (ch ++ [rename s0 a])%list ad). rewrite map_app. cbn [map]. now rewrite rename_tmap.
    - rewrite <- (IH H' (ch ++ [a])%list (ad ++ [(a, tname a)])%list). rewrite !map_app. cbn [map amap fst snd]. now rewrite tname_tmap.
  Qed.
  Lemma filter_tmap (p : tree -> bool) l : (forall t, p (tmap g t) = p t) -> filter p (map (tmap g) l) = map (tmap g) (filter p l).
  Proof. intros H. induction l; cbn; auto. rewrite H. destruct (p a); cbn; now rewrite IHl. Qed.
  Lemma no_sharing_tmap l : no_sharing (map (tmap g) l) = map (emap g) (no_sharing l).
  Proof. unfold no_sharing. now rewrite !map_map. Qed.
  Lemma merge_list_tmap s bld bld' ch : (is_td_strategy s = true -> forall n d, bld' n (vmap g d) = rmap (tmap g) (bld n d)) ->
    merge_list s bld' (map (tmap g) ch) = rmap (map (emap g)) (merge_list s bld ch).
  Proof.
    intros H. unfold merge_list. rewrite metas_tmap, merge_mmap. destruct (should_merge _ _); [|cbn; now rewrite no_sharing_tmap].
    rewrite (filter_tmap (is_td s)) by apply is_td_tmap. rewrite (from_multiple_tmap bld).
    - apply bind_rmap. intros a _. cbn [rmap]. f_equal. rewrite !map_map, map_length. apply map_ext. intros c. rewrite is_td_tmap. now destruct (is_td s c).
    - intros N. apply H. destruct (filter (is_td s) ch) as [|t l] eqn:E; [congruence|]. assert (I : In t (filter (is_td s) ch)) by (rewrite E; now left).
      apply filter_In in I as [_ I]. unfold is_td, node_is_typed_dict in I. destruct (tkind t); try discriminate. now apply andb_true_iff in I as [_ I].
  Qed.
  Lemma merge_set_tmap s ord bld bld' ch : (forall i l, ord i (map (tmap g) l) = map (tmap g) (ord i l)) ->
    (is_td_strategy s = true -> forall n d, bld' n (vmap g d) = rmap (tmap g) (bld n d)) ->
    merge_set s ord bld' (map (tmap g) ch) = rmap (map (emap g)) (merge_set s ord bld ch).
  Proof.
    intros O H. unfold merge_set. rewrite !O, metas_tmap, merge_mmap. destruct (should_merge _ _); [|cbn; now rewrite no_sharing_tmap].
    rewrite (filter_tmap (is_td s)) by apply is_td_tmap. rewrite (from_multiple_tmap bld).
    - apply bind_rmap. intros a _. cbn [rmap]. f_equal. rewrite <- no_sharing_tmap. f_equal. rewrite <- O. f_equal.
      rewrite (filter_tmap (fun c => negb (is_td s c))) by (intros; now rewrite is_td_tmap). rewrite exists_tmap.
      destruct (existsb _ _); auto. now rewrite map_app.
    - intros N. apply H. destruct (filter (is_td s) (ord 1 ch)) as [|t l] eqn:E; [congruence|]. assert (I : In t (filter (is_td s) (ord 1 ch))) by (rewrite E; now left).
      apply filter_In in I as [_ I]. unfold is_td, node_is_typed_dict in I. destruct (tkind t); try discriminate. now apply andb_true_iff in I as [_ I].
  Qed.
  Definition cmap (kc : key * tree) : key * tree := (fst kc, tmap g (snd kc)).
  Lemma build_values_tmap bld bld' p kvs : (forall n k x, In (k, x) kvs -> bld' n (g x) = rmap (tmap g) (bld n x)) ->
    build_values bld' p (vmap g kvs) = rmap (map cmap) (build_values bld p kvs).
  Proof.
    induction kvs as [|[k v] kvs IH]; intros H; cbn [build_values vmap map fst snd]; auto. fold (vmap g kvs).
    destruct (is_hidden k); [apply IH; intros; eapply H; right; eauto|]. rewrite (H _ k) by now left. apply bind_rmap. intros a _.
    rewrite IH by (intros; eapply H; right; eauto). apply bind_rmap. intros b _. reflexivity.
  Qed.
  Definition gmap (e : tree * list key) : tree * list key := (tmap g (fst e), snd e).
  Lemma groups_tmap s cs : groups_of s (map cmap cs) = map gmap (groups_of s cs).
  Proof.
    assert (A : forall k c gs, add_group s k (tmap g c) (map gmap gs) = map gmap (add_group s k c gs)).
    { intros k c. induction gs as [|[t ks] gs IH]; cbn [map add_group gmap fst snd]; auto. rewrite teq_tmap. destruct (teq s c t); cbn; auto. now rewrite IH. }
    unfold groups_of. change (@nil (tree * list key)) with (map gmap []) at 1. generalize (@nil (tree * list key)).
    induction cs as [|c cs IH]; intros gs; cbn [map fold_left]; auto. cbn [cmap fst snd]. rewrite A. apply IH.
  Qed.
  Lemma rename_groups_tmap p gs : forall last, rename_groups p (map gmap gs) last = map gmap (rename_groups p gs last).
  Proof.
    induction gs as [|[t ks] gs IH]; intros last; cbn [map rename_groups gmap fst snd]; auto. rewrite ti_tmap. cbn [imap i_type].
    unfold group_name. rewrite ti_tmap. cbn [imap i_type]. destruct (Nat.ltb 1 (List.length ks)); cbn [map]; rewrite IH; f_equal. unfold gmap. cbn [fst snd]. now rewrite rename_tmap.
  Qed.
  Lemma before_none_tmap {A} (f : A -> A) (kf : A -> key) l : (forall a, kf (f a) = kf a) -> before_none kf (map f l) = map f (before_none kf l).
  Proof. intros H. induction l; cbn; auto. rewrite H. destruct (kf a); cbn; auto; now rewrite IHl. Qed.
  Lemma share_tmap s p cs : share_groups s p (map cmap cs) = map (emap g) (share_groups s p cs).
  Proof.
    unfold share_groups. rewrite groups_tmap, rename_groups_tmap, before_none_tmap by auto. rewrite !map_map. cbn [cmap fst snd]. apply map_ext. intros [k c]. cbn [fst snd].
    set (gs := rename_groups p _ _). assert (F : find (fun e => existsb (key_eqb k) (snd e)) (map gmap gs) = option_map gmap (find (fun e => existsb (key_eqb k) (snd e)) gs)).
    { clear. induction gs as [|[t ks] gs IH]; cbn [map find gmap snd]; auto. destruct (existsb _ ks); auto. }
    rewrite F. destruct (find _ gs) as [[t ks]|]; reflexivity.
  Qed.
  Lemma iter_tmap cs : iter_entries (map (emap g) cs) = map (emap g) (iter_entries cs).
  Proof. apply before_none_tmap. auto. Qed.
  Lemma height_tmap cs : height_of (map (emap g) cs) = height_of cs.
  Proof. unfold height_of. rewrite iter_tmap, map_map. f_equal. f_equal. apply map_ext. intros e. apply theight_tmap. Qed.
  Lemma inner_tmap n d r k t cs : inner n d r (kmap g k) t (map (emap g) cs) = tmap g (inner n d r k t cs).
  Proof. unfold inner. rewrite height_tmap. reflexivity. Qed.

  (** ** Declarations *)
  Lemma perm_tmap s t : perm s (tmap g t) = perm s t.
  Proof. unfold perm. rewrite tkind_tmap, ti_tmap, theight_tmap. destruct (tkind t); cbn; auto. now rewrite td_mmap. Qed.
  Lemma collect_tmap s t : collect s (tmap g t) = map (tmap g) (collect s t).
  Proof.
    induction t as [i cs IH] using tree_ind'. rewrite Forall_forall in IH. cbn [tmap collect]. destruct cs as [|e cs].
    - cbn [map imap i_depth]. rewrite <- (perm_tmap s (Node i [])). cbn [tmap map]. destruct (_ && _); reflexivity.
    - cbn [map]. rewrite <- (map_cons (fun e => (fst e, tmap g (snd e))) e cs). set (l := e :: cs) in *. rewrite map_app. f_equal.
      + set (G := fun x : key * list tree => (fst x, map (tmap g) (snd x))).
        set (C := fun e0 : key * nat * tree => (fst (fst e0), (collect s (snd e0) ++ (if perm s (snd e0) then [snd e0] else []))%list)).
        transitivity (flat_map (fun x => snd x) (before_none fst (map G (map C l)))).
        * change (flat_map (fun x => snd x) (before_none fst (map C (map (fun e0 => (fst e0, tmap g (snd e0))) l)))
                  = flat_map (fun x => snd x) (before_none fst (map G (map C l)))). f_equal. f_equal. rewrite !map_map. apply map_ext_in. intros e0 He. unfold G, C. cbn [fst snd]. rewrite IH, perm_tmap, map_app by auto.
          destruct (perm s (snd e0)); reflexivity.
        * change (flat_map (fun x => snd x) (before_none fst (map G (map C l))) = map (tmap g) (flat_map (fun x => snd x) (before_none fst (map C l)))).
          rewrite (before_none_tmap G fst) by auto. generalize (before_none fst (map C l)).
          intros L. induction L as [|x L IHL]; cbn [map flat_map]; auto. rewrite IHL, map_app. reflexivity.
      + change (Node (imap g i) (map (fun e0 => (fst e0, tmap g (snd e0))) l)) with (tmap g (Node i l)). rewrite perm_tmap. destruct (perm s (Node i l)); reflexivity.
  Qed.
  Lemma text_vmap k d : match dget k (vmap g d) with Some (VStr x) => Some x | _ => None end = match dget k d with Some (VStr x) => Some x | _ => None end.
  Proof.
    rewrite dget_vmap. destruct (dget k d) as [v|]; cbn [option_map]; auto. destruct (g v) eqn:G.
    all: try (destruct v; auto; assert (T : g (VStr s) = VStr s) by (apply (proj2 (g_text (VStr s) s)); reflexivity); congruence).
    apply (proj1 (g_text v s)) in G. now rewrite G.
  Qed.
  Lemma key_doc_mmap m k : key_docstring (mmap g m) k = key_docstring m k.
  Proof.
    unfold key_docstring. cbn [mmap m_data]. pose proof (text_vmap (KStr (hidden_prefix ++ k)) (m_data m)) as T.
    destruct (dget _ (vmap g _)) as [[]|]; destruct (dget _ (m_data m)) as [[]|]; try discriminate T; auto. injection T as ->. reflexivity.
  Qed.
  Lemma class_doc_vmap s d : class_doc s (vmap g d) = class_doc s d.
  Proof. unfold class_doc. destruct (String.eqb _ _); auto. apply text_vmap. Qed.
  Lemma functional_mmap m : functional_syntax (mmap g m) = functional_syntax m.
  Proof. unfold functional_syntax. f_equal. cbn [mmap m_data]. unfold vmap. induction (m_data m); cbn [map forallb]; auto. now rewrite IHl. Qed.
  Lemma field_line_mmap b m kv : field_line b (mmap g m) kv = field_line b m kv.
  Proof. unfold field_line. destruct kv. destruct b; auto. now rewrite key_doc_mmap. Qed.
  Lemma build_td_mmap n c m d : build_typed_dict n c (mmap g m) d = build_typed_dict n c m d.
  Proof.
    unfold build_typed_dict. rewrite functional_mmap.
    rewrite (map_ext (field_line (functional_syntax m) (mmap g m)) (field_line (functional_syntax m) m)) by apply field_line_mmap. reflexivity.
  Qed.
  Definition omap (c : child_out) : child_out := (fst c, (tmap g (fst (snd c)), snd (snd c))).
  Lemma child_type_omap s c : child_type s (omap c) = child_type s c.
  Proof. unfold child_type, omap. cbn [fst snd]. now rewrite perm_tmap, tname_tmap. Qed.
  Lemma parse_dict_imap s i a b : parse_dict s (imap g i) (map omap a) (map omap b) = parse_dict s i a b.
  Proof.
    unfold parse_dict. rewrite !map_map. rewrite (map_ext (fun x => child_type s (omap x)) (child_type s)) by apply child_type_omap. cbn [imap i_type i_kind i_name omap fst].
    unfold map_container. destruct (if String.eqb _ _ then _ else _) as [c1 c2]. destruct a; reflexivity.
  Qed.
  Lemma parse_td_imap s i d m cs : parse_typed_dict s (imap g i) (vmap g d) (mmap g m) (map omap cs) = parse_typed_dict s i d m cs.
  Proof.
    unfold parse_typed_dict.
    cbv zeta. match goal with |- context [@map ?A ?B ?F (@map ?A0 ?B0 omap cs)] => match goal with |- context [@map A B ?F' cs] =>
      assert (Q : @map A B F (@map A0 B0 omap cs) = @map A B F' cs) end end.
    - rewrite map_map. apply map_ext. intros c. unfold omap. cbn [fst snd]. rewrite perm_tmap, tname_tmap. reflexivity.
    - rewrite !Q. rewrite class_doc_vmap, build_td_mmap. reflexivity.
  Qed.
  Lemma top_tmap s t : top s (tmap g t) = top s t.
  Proof.
    induction t as [i cs IH] using tree_ind'. rewrite Forall_forall in IH. cbn [tmap top]. rewrite map_map. cbn [fst snd].
    rewrite (map_ext_in (fun e : key * nat * tree => (fst (fst e), (tmap g (snd e), top s (tmap g (snd e))))) (fun e => omap (fst (fst e), (snd e, top s (snd e)))))
      by (intros e He; unfold omap; cbn [fst snd]; now rewrite IH).
    rewrite <- (map_map (fun e : key * nat * tree => (fst (fst e), (snd e, top s (snd e)))) omap).
    set (all := map (fun e : key * nat * tree => (fst (fst e), (snd e, top s (snd e)))) cs).
    rewrite (before_none_tmap omap fst) by auto. set (vis := before_none fst all).
    cbn [imap i_kind]. destruct (i_kind i) as [|f|c| | |d|k| |data m] eqn:K; cbn [kmap]; auto.
    - cbn [i_type i_name]. rewrite map_map. rewrite (map_ext (fun x => child_type s (omap x)) (child_type s)) by apply child_type_omap. reflexivity.
    - pose proof (parse_dict_imap s i all vis) as P. unfold imap in P. rewrite K in P. exact P.
    - rewrite td_mmap. destruct (is_typed_dict s m).
      + pose proof (parse_td_imap s i data m all) as P. unfold imap in P. rewrite K in P. exact P.
      + pose proof (parse_dict_imap s i all vis) as P. unfold imap in P. rewrite K in P. exact P.
  Qed.
  Lemma fails_tmap t : function_fails (tmap g t) = function_fails t.
  Proof. unfold function_fails. rewrite tkind_tmap. destruct (tkind t); auto. Qed.
  Lemma get_strs_tmap s t b : get_strs s (tmap g t) b = get_strs s t b.
  Proof.
    unfold get_strs, declarations, recorded_imports. rewrite collect_tmap, map_map.
    rewrite (map_ext (fun x => fst (top s (tmap g x))) (fun n => fst (top s n))) by (intros; now rewrite top_tmap).
    assert (E : existsb function_fails (map (tmap g) (collect s t)) = existsb function_fails (collect s t)).
    { induction (collect s t); cbn [map existsb]; auto. now rewrite fails_tmap, IHl. }
    assert (F : flat_map (fun n => snd (top s n)) (map (tmap g) (collect s t)) = flat_map (fun n => snd (top s n)) (collect s t)).
    { induction (collect s t); cbn [map flat_map]; auto. rewrite top_tmap, IHl; auto.
      cbn [map existsb] in E. rewrite fails_tmap in E. destruct (function_fails a); cbn [orb] in E; auto.
      clear. induction l; cbn [map existsb]; auto. now rewrite fails_tmap, IHl. }
    rewrite E, F. reflexivity.
  Qed.
  Lemma to_string_tmap s t b : to_string s (tmap g t) b = to_string s t b.
  Proof. unfold to_string. now rewrite get_strs_tmap. Qed.
End DataMap.

(** A tree without the values that its dict nodes keep: of each only its type, and its text if it is a string. *)
Definition bare_value (v : pyval) : pyval := match v with VStr d => VStr d | _ => VInst (type_of v) end.
Definition bare (t : tree) : tree := tmap bare_value t.

(** A set order that does not look at the values kept by dict nodes (the iteration order of a Python set depends on the
    hashes of its elements and on the history of the set; the hashes do not depend on those values: [thash_tmap]). *)
Definition oblivious (ord : set_order) : Prop := forall f i l, ord i (map (tmap f) l) = map (tmap f) (ord i l).

Lemma vmap_vmap f g d : vmap f (vmap g d) = vmap (fun v => f (g v)) d.
Proof. unfold vmap. rewrite map_map. reflexivity. Qed.
Lemma vmap_ext f g d : (forall v, f v = g v) -> vmap f d = vmap g d.
Proof. intros H. unfold vmap. apply map_ext. intros. now rewrite H. Qed.
Lemma tmap_tmap f g t : tmap f (tmap g t) = tmap (fun v => f (g v)) t.
Proof.
  induction t as [i cs IH] using tree_ind'. rewrite Forall_forall in IH. cbn [tmap]. f_equal.
  - destruct i as [a b c d k e]. unfold imap. cbn. f_equal. destruct k; auto. cbn [kmap]. unfold mmap. cbn [m_data m_initial m_required]. now rewrite !vmap_vmap.
  - rewrite map_map. apply map_ext_in. intros e He. cbn [fst snd]. now rewrite IH.
Qed.
Lemma tmap_ext f g t : (forall v, f v = g v) -> tmap f t = tmap g t.
Proof.
  intros H. induction t as [i cs IH] using tree_ind'. rewrite Forall_forall in IH. cbn [tmap]. f_equal.
  - unfold imap. f_equal. destruct (i_kind i); auto. cbn [kmap]. unfold mmap. now rewrite !(vmap_ext f g).
  - apply map_ext_in. intros e He. now rewrite IH.
Qed.
Lemma bare_tmap g t : (forall v, bare_value (g v) = bare_value v) -> bare (tmap g t) = bare t.
Proof. intros H. unfold bare. rewrite tmap_tmap. now apply tmap_ext. Qed.
