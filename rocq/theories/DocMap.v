(** Removing the documentation entries from the dict nodes of a tree commutes with every step of the construction. *)
From Coq Require Import Ascii String List Bool Arith Lia Permutation.
From Verif Require Import PyStr PyStrFacts Utils Strategies Imports Dispatch Values Tree Build Emit TreeFacts SpecData SpecMerge SpecNames NamesFacts BuildFacts BuildInd TotalFacts TreeProofs SeqFacts FloatFacts MergeFacts FuelFacts AlikeFacts DataMap SpecTypes SpecDocs.
Import ListNotations.
Local Open Scope string_scope.

Definition nh (k : key) : bool := negb (is_hidden k).
Fixpoint undoc (v : pyval) : pyval :=
  match v with
  | VSeq k t l => VSeq k t (map undoc l)
  | VMap k t kvs => VMap k t (filter (fun kv => nh (fst kv)) (map (fun kv => (fst kv, undoc (snd kv))) kvs))
  | _ => v
  end.
Definition dmap (d : list (key * pyval)) : list (key * pyval) := filter (fun kv => nh (fst kv)) (vmap undoc d).
Definition umeta (m : meta) : meta := Meta (dmap (m_data m)) (filter nh (m_initial m)) (m_required m).
Definition ukind (k : nkind) : nkind := match k with NDict d m => NDict (dmap d) (umeta m) | _ => k end.
Definition uinfo (i : info) : info := Info (i_name i) (i_depth i) (i_height i) (i_root i) (ukind (i_kind i)) (i_type i).
Fixpoint utree (t : tree) : tree := match t with Node i cs => Node (uinfo i) (map (fun e => (fst e, utree (snd e))) cs) end.
Definition uentry (e : key * nat * tree) : key * nat * tree := (fst e, utree (snd e)).

(** ** Values *)
Lemma dmap_cons k x d : dmap ((k, x) :: d) = if is_hidden k then dmap d else (k, undoc x) :: dmap d.
Proof. unfold dmap, nh. cbn. now destruct (is_hidden k). Qed.
Lemma undoc_map k t d : undoc (VMap k t d) = VMap k t (dmap d).
Proof. reflexivity. Qed.
Lemma undoc_type v : type_of (undoc v) = type_of v.
Proof. now destruct v. Qed.
Lemma undoc_text v d : undoc v = VStr d <-> v = VStr d.
Proof. destruct v; cbn; split; congruence. Qed.
Lemma dmap_app a b : dmap (a ++ b) = (dmap a ++ dmap b)%list.
Proof. unfold dmap, vmap. now rewrite map_app, filter_app. Qed.
Lemma dmap_In k x d : In (k, x) (dmap d) <-> is_hidden k = false /\ exists y, In (k, y) d /\ x = undoc y.
Proof.
  unfold dmap. rewrite filter_In. unfold vmap, nh. rewrite in_map_iff. cbn [fst]. rewrite negb_true_iff. split.
  - intros [([k' y] & E & H) N]. cbn [fst snd] in E. injection E as -> <-. eauto.
  - intros [N (y & H & ->)]. split; auto. exists (k, y). auto.
Qed.
Lemma exhaust_dmap d : map (fun kv => (fst kv, exhaust (snd kv))) (dmap d) = filter (fun kv => nh (fst kv)) (map (fun kv => (fst kv, exhaust (undoc (snd kv)))) d).
Proof. induction d as [|[k x] d IH]; auto. rewrite dmap_cons. cbn [map filter fst snd]. unfold nh at 1. destruct (is_hidden k); cbn [negb map fst snd]; now rewrite IH. Qed.
Lemma exhaust_undoc v : exhaust (undoc v) = undoc (exhaust v).
Proof.
  induction v as [| | | | | | |k t l IH|k t kvs IH] using pyval_ind'; auto; rewrite Forall_forall in IH.
  - assert (E : map exhaust (map undoc l) = map undoc (map exhaust l)) by (rewrite !map_map; apply map_ext_in; auto).
    destruct k; cbn [undoc exhaust]; f_equal; auto.
  - rewrite undoc_map. cbn [exhaust]. rewrite undoc_map. f_equal. rewrite exhaust_dmap. unfold dmap, vmap. f_equal. rewrite map_map. apply map_ext_in. intros kv Hkv. cbn [fst snd]. now rewrite IH.
Qed.
Lemma vdepth_undoc v : vdepth (undoc v) <= vdepth v.
Proof.
  induction v as [| | | | | | |k t l IH|k t kvs IH] using pyval_ind'; auto; rewrite Forall_forall in IH.
  - cbn [undoc vdepth]. apply le_n_S. rewrite map_map. clear -IH. induction l as [|a l IHl]; cbn; auto.
    pose proof (IH a (or_introl eq_refl)). assert (forall x, In x l -> vdepth (undoc x) <= vdepth x) by (intros; apply IH; now right). apply IHl in H0. unfold maxl in H0. lia.
  - rewrite undoc_map. cbn [vdepth]. apply le_n_S. clear -IH. induction kvs as [|[k x] l IHl]; auto. rewrite dmap_cons.
    assert (forall x, In x l -> vdepth (undoc (snd x)) <= vdepth (snd x)) by (intros; apply IH; now right). apply IHl in H. unfold maxl in H.
    pose proof (IH (k, x) (or_introl eq_refl)). cbn [snd] in H0. destruct (is_hidden k); cbn; unfold maxl; lia.
Qed.

(** [undoc] is the spec's removal. *)
Fixpoint strips_undoc v w (H : strips v w) {struct H} : w = undoc v
with strips_all_undoc l l' (H : strips_all l l') {struct H} : l' = map undoc l
with strips_entries_undoc d d' (H : strips_entries d d') {struct H} : d' = dmap d.
Proof.
  - destruct H as [v L|k t l l' H|k t d d' H].
    + destruct v; try destruct L; reflexivity.
    + cbn [undoc]. f_equal. now apply strips_all_undoc.
    + rewrite undoc_map. f_equal. now apply strips_entries_undoc.
  - destruct H as [|x x' l l' H H']; auto. cbn [map]. f_equal; [now apply strips_undoc|now apply strips_all_undoc].
  - destruct H as [|k x x' d d' N H H'|k x d d' N H']; auto; rewrite dmap_cons.
    + rewrite (proj2 (hidden_false k) N). f_equal; [f_equal; now apply strips_undoc|now apply strips_entries_undoc].
    + rewrite (proj2 (hidden_doc k) N). now apply strips_entries_undoc.
Qed.
Lemma undoc_strips v : strips v (undoc v).
Proof.
  induction v as [| | | | | | |k t l IH|k t kvs IH] using pyval_ind'; try (apply st_leaf; exact I).
  - cbn [undoc]. apply st_seq. induction IH; constructor; auto.
  - rewrite undoc_map. apply st_map. induction IH as [|[k' x] d H _ IHd]; [constructor|]. rewrite dmap_cons. destruct (is_hidden k') eqn:E.
    + apply se_drop; auto. now apply hidden_doc.
    + apply se_keep; auto. now apply hidden_false.
Qed.

(** ** The condition, along the structure *)
Definition lim (s : strategies) (k : mapkind) (d : list (key * pyval)) : Prop :=
  effective_limit s = None \/ (k = MDict /\ s_dict s = DTypedDict) \/ forall key, has_key key d -> ~ doc_key key.
Inductive dk (s : strategies) : pyval -> Prop :=
  | dk_leaf : forall v, match v with VSeq _ _ _ | VMap _ _ _ => False | _ => True end -> dk s v
  | dk_seq : forall k t l, (forall x, In x l -> dk s x) -> dk s (VSeq k t l)
  | dk_map : forall k t d, doc_texts d -> lim s k d -> (forall k x, In (k, x) d -> dk s x) -> dk s (VMap k t d).
Definition okd (s : strategies) (d : list (key * pyval)) : Prop := doc_texts d /\ forall k x, In (k, x) d -> dk s x.
Definition solid (l : list key) : Prop := l <> [] -> filter nh l <> [].

Lemma documented_dk s v : documented s v -> dk s v.
Proof.
  induction v as [| | | | | | |k t l IH|k t kvs IH] using pyval_ind'; intros D; try (apply dk_leaf; exact I); rewrite Forall_forall in IH.
  - apply dk_seq. intros x Hx. apply IH; auto. intros k' t' d' Hd. apply (D k' t' d'). econstructor; eauto.
  - destruct (D k t kvs (sub_refl _)) as [A B]. apply dk_map; auto. intros k' x Hx. apply (IH (k', x) Hx). intros k1 t1 d1 Hd. apply (D k1 t1 d1). cbn [snd] in Hd. eapply sub_map; eauto.
Qed.
Lemma dk_map_inv s k t d : dk s (VMap k t d) -> doc_texts d /\ lim s k d /\ forall k x, In (k, x) d -> dk s x.
Proof. intros H. inversion H; subst; [contradiction|auto]. Qed.
Lemma dk_seq_inv s k t l : dk s (VSeq k t l) -> forall x, In x l -> dk s x.
Proof. intros H. inversion H; subst; [contradiction|auto]. Qed.
Lemma dk_exhaust s v : dk s v -> dk s (exhaust v).
Proof.
  induction v as [| | | | | | |k t l IH|k t kvs IH] using pyval_ind'; intros D; auto; rewrite Forall_forall in IH.
  - pose proof (dk_seq_inv _ _ _ _ D) as D'. destruct k; cbn [exhaust]; apply dk_seq; try (intros x Hx; apply in_map_iff in Hx as (y & <- & Hy); auto). intros x [].
  - destruct (dk_map_inv _ _ _ _ D) as (D1 & D2 & D3). cbn [exhaust].
    assert (K : map fst (map (fun kv : key * pyval => (fst kv, exhaust (snd kv))) kvs) = map fst kvs) by (rewrite map_map; reflexivity).
    apply dk_map.
    + intros k' x Hx Hk. apply in_map_iff in Hx as ([k1 y] & E & Hy). cbn [fst snd] in E. injection E as -> <-. destruct (D1 _ _ Hy Hk) as ((text & ->) & name & E & N & Hn).
      split; [exists text; reflexivity|]. exists name. split; [exact E|split; [exact N|]]. unfold has_key. now rewrite K.
    + destruct D2 as [D2|[D2|D2]]; [now left|right; now left|right; right]. intros k' Hk'. apply D2. unfold has_key in *. now rewrite K in Hk'.
    + intros k' x Hx. apply in_map_iff in Hx as ([k1 y] & E & Hy). cbn [fst snd] in E. injection E as -> <-. apply (IH (k', y) Hy). eauto.
Qed.
Lemma okd_union s d e r : okd s d -> okd s e -> (forall k x, In (k, x) r -> In (k, x) d \/ In (k, x) e) -> (forall k, has_key k r <-> has_key k d \/ has_key k e) -> okd s r.
Proof.
  intros [A1 A2] [B1 B2] H K. split.
  - intros k x Hx Hk. destruct (H _ _ Hx) as [G|G]; [destruct (A1 _ _ G Hk) as (T & n & E & N & Hn)|destruct (B1 _ _ G Hk) as (T & n & E & N & Hn)];
      (split; [exact T|]); exists n; (split; [exact E|split; [exact N|]]); apply K; auto.
  - intros k x Hx. destruct (H _ _ Hx); eauto.
Qed.
Lemma okd_dupdate s d e : okd s d -> okd s e -> okd s (dupdate d e).
Proof. intros A B. apply (okd_union s d e); auto; [intros; now apply dupdate_pair_In|]. intros k. unfold has_key. apply dupdate_In. Qed.
Lemma add_new_In (e : list (key * pyval)) : forall d x y, In (x, y) (fold_left (fun d kv => if dmem (fst kv) d then d else dset (fst kv) (snd kv) d) e d) -> In (x, y) d \/ In (x, y) e.
Proof.
  induction e as [|[k v] e IH]; intros d x y H; cbn [fold_left fst snd] in H; auto. destruct (dmem k d).
  - apply IH in H as [H|H]; auto. right; now right.
  - apply IH in H as [H|H]; [|right; now right]. apply dset_pair_In in H as [[-> ->]|H]; auto. right; now left.
Qed.
Lemma add_new_keys (e : list (key * pyval)) : forall d k, has_key k (fold_left (fun d kv => if dmem (fst kv) d then d else dset (fst kv) (snd kv) d) e d) <-> has_key k d \/ has_key k e.
Proof.
  unfold has_key. induction e as [|[k' v] e IH]; intros d k; cbn [fold_left map fst snd In]; [tauto|]. rewrite IH. destruct (dmem k' d) eqn:M.
  - apply dmem_spec in M. split; [tauto|]. intros [H|[<-|H]]; auto.
  - rewrite dset_In. split; [intros [[->|H]|H]; auto|intros [H|[<-|H]]; auto].
Qed.
Lemma okd_update s m m' : okd s (m_data m) -> okd s (m_data m') -> okd s (m_data (update_meta m m')).
Proof. intros A B. unfold update_meta. cbn [m_data]. apply (okd_union s (m_data m) (m_data m')); auto; [intros; now apply add_new_In|]. intros; apply add_new_keys. Qed.
Lemma solid_data d : doc_texts d -> solid (map fst d).
Proof.
  intros H N. destruct d as [|[k x] d]; [now destruct N|]. destruct (is_hidden k) eqn:E.
  - destruct (H k x (or_introl eq_refl) (proj1 (hidden_doc k) E)) as (_ & n & _ & Nn & Hn). intros F. apply hidden_false in Nn.
    assert (In (KStr n) (filter nh (map fst ((k, x) :: d)))) as G by (apply filter_In; split; [exact Hn|unfold nh; now rewrite Nn]). rewrite F in G. destruct G.
  - cbn [map fst filter]. unfold nh at 1. rewrite E. discriminate.
Qed.

(** ** Trees *)
Definition kok (s : strategies) (k : nkind) : Prop :=
  match k with NDict d m => okd s d /\ okd s (m_data m) /\ solid (m_initial m) | _ => True end.
Inductive deep (s : strategies) : tree -> Prop :=
  | deep_node : forall i cs, kok s (i_kind i) -> (forall e, In e cs -> deep s (snd e)) -> deep s (Node i cs).
Lemma deep_kind s t : deep s t -> kok s (tkind t).
Proof. intros []. assumption. Qed.
Lemma deep_ren s t : forall k new n, deep s t -> deep s (ren k new n t).
Proof.
  induction t as [i cs IH] using tree_ind'. intros k new n H. rewrite Forall_forall in IH. inversion H; subst. cbn [ren]. constructor; [exact H2|].
  intros e He. apply in_map_iff in He as ([[x m] c] & <- & He). cbn [snd]. apply (IH (x, m, c) He). exact (H3 (x, m, c) He).
Qed.
Lemma deep_meta s t : deep s t -> okd s (m_data (node_meta t)) /\ solid (m_initial (node_meta t)).
Proof.
  intros H. apply deep_kind in H. unfold node_meta. destruct (tkind t); try (cbn; split; [split; intros ? ? []|congruence]). now destruct H.
Qed.
Lemma deep_data s t : deep s t -> okd s (node_data t).
Proof. intros H. apply deep_kind in H. unfold node_data. destruct (tkind t); try (split; intros ? ? []). now destruct H. Qed.
Lemma deep_update s t o : deep s t -> deep s o -> deep s (update_node t o).
Proof.
  intros A B. unfold update_node. pose proof (deep_kind s t A) as KA. pose proof (deep_kind s o B) as KB. destruct (tkind t) as [| | | | | | | |d m]; auto. destruct (tkind o) as [| | | | | | | |d' m']; auto.
  destruct KA as (A1 & A2 & A3), KB as (B1 & B2 & B3). destruct t as [i cs]. inversion A; subst. constructor; [|assumption]. cbn [i_kind kok].
  pose proof (okd_update s m m' A2 B2). auto.
Qed.
Lemma deep_set_meta s m t : deep s t -> okd s (m_data m) -> solid (m_initial m) -> deep s (set_meta m t).
Proof.
  intros A B C. unfold set_meta. pose proof (deep_kind s t A) as KA. destruct (tkind t) as [| | | | | | | |d m0]; auto. destruct KA as (A1 & A2 & A3). destruct t as [i cs]. inversion A; subst.
  constructor; [|assumption]. cbn. auto.
Qed.

(** ** Nodes *)
Lemma all_str_dmap d : all_str (dmap d) = all_str d.
Proof.
  unfold all_str. induction d as [|[k x] d IH]; auto. rewrite dmap_cons. cbn [forallb fst]. destruct (is_hidden k) eqn:E.
  - rewrite IH. destruct k; try discriminate. reflexivity.
  - cbn [forallb fst]. now rewrite IH.
Qed.
Lemma td_umeta s m : is_typed_dict s (umeta m) = is_typed_dict s m.
Proof. unfold is_typed_dict. cbn [umeta m_data]. now rewrite all_str_dmap. Qed.
Lemma tname_utree t : tname (utree t) = tname t.
Proof. now destruct t. Qed.
Lemma theight_utree t : theight (utree t) = theight t.
Proof. now destruct t. Qed.
Lemma ti_utree t : ti (utree t) = uinfo (ti t).
Proof. now destruct t. Qed.
Lemma tcs_utree t : tcs (utree t) = map uentry (tcs t).
Proof. now destruct t. Qed.
Lemma tkind_utree t : tkind (utree t) = ukind (tkind t).
Proof. now destruct t. Qed.
Lemma is_td_utree s t : is_td s (utree t) = is_td s t.
Proof. unfold is_td, node_is_typed_dict. rewrite tkind_utree. destruct (tkind t); cbn; auto. apply td_umeta. Qed.
Lemma thash_utree s t : thash s (utree t) = thash s t.
Proof.
  induction t as [i cs IH] using tree_ind'. rewrite Forall_forall in IH. cbn [utree thash uinfo i_kind i_type].
  assert (E : map (fun e : key * nat * tree => thash s (snd e)) (map (fun e => (fst e, utree (snd e))) cs) = map (fun e => thash s (snd e)) cs).
  { rewrite map_map. apply map_ext_in. intros e He. cbn. auto. }
  assert (E2 : forall h : key -> hk -> hk, map (fun e : key * nat * tree => h (fst (fst e)) (thash s (snd e))) (map (fun e => (fst e, utree (snd e))) cs)
                 = map (fun e => h (fst (fst e)) (thash s (snd e))) cs).
  { intros h. rewrite map_map. apply map_ext_in. intros e He. cbn. now rewrite IH. }
  destruct (i_kind i) as [|f|c| | |d|k| |data m]; cbn [ukind]; auto.
  - rewrite E. auto.
  - f_equal. apply (E2 (fun k h => HMap (ty_id (key_type k)) h)).
  - rewrite td_umeta. destruct (is_typed_dict s m); f_equal; [apply (E2 HTd)|apply (E2 (fun k h => HMap (ty_id (key_type k)) h))].
Qed.
Lemma class_ukind k : class_of (ukind k) = class_of k.
Proof. now destruct k. Qed.
Lemma teq_utree s a b : teq s (utree a) (utree b) = teq s a b.
Proof. unfold teq. now rewrite !thash_utree, !tkind_utree, !class_ukind. Qed.
Lemma exists_utree s a l : existsb (teq s (utree a)) (map utree l) = existsb (teq s a) l.
Proof. induction l; cbn [map existsb]; auto. now rewrite teq_utree, IHl. Qed.
Lemma ren_utree t : forall k new n, utree (ren k new n t) = ren k new n (utree t).
Proof.
  induction t as [i cs IH] using tree_ind'. rewrite Forall_forall in IH. intros k new n. cbn [utree ren]. f_equal.
  rewrite !map_map. apply map_ext_in. intros [[x m] c] He. cbn. f_equal. apply (IH (x, m, c) He).
Qed.
Lemma rename_utree new t : utree (rename new t) = rename new (utree t).
Proof. unfold rename. now rewrite ren_utree, tname_utree. Qed.

(** ** Metadata *)
Lemma dmem_dmap k d : is_hidden k = false -> dmem k (dmap d) = dmem k d.
Proof.
  intros E. unfold dmem. induction d as [|[k' x] d IH]; auto. rewrite dmap_cons. cbn [existsb fst]. destruct (is_hidden k') eqn:E'.
  - rewrite IH. destruct (key_eqb k k') eqn:K; auto. apply key_eqb_spec in K. congruence.
  - cbn [existsb fst]. now rewrite IH.
Qed.
Lemma dset_dmap k v d : dmap (dset k v d) = if is_hidden k then dmap d else dset k (undoc v) (dmap d).
Proof.
  induction d as [|[k' b] d IH].
  - cbn [dset]. rewrite dmap_cons. destruct (is_hidden k); reflexivity.
  - cbn [dset]. destruct (key_eqb k k') eqn:K.
    + apply key_eqb_spec in K. subst k'. rewrite !dmap_cons. destruct (is_hidden k); auto. cbn [dset]. now rewrite key_eqb_refl.
    + rewrite !dmap_cons, IH. destruct (is_hidden k), (is_hidden k'); auto. cbn [dset]. now rewrite K.
Qed.
Lemma dget_dmap k d : is_hidden k = false -> dget k (dmap d) = option_map undoc (dget k d).
Proof.
  intros E. induction d as [|[k' x] d IH]; auto. rewrite dmap_cons. cbn [dget]. destruct (is_hidden k') eqn:E'.
  - destruct (key_eqb k k') eqn:K; auto. apply key_eqb_spec in K. congruence.
  - cbn [dget]. destruct (key_eqb k k'); auto.
Qed.
Lemma dupdate_dmap e : forall d, dupdate (dmap d) (dmap e) = dmap (dupdate d e).
Proof.
  unfold dupdate. induction e as [|[k v] e IH]; intros d; auto. cbn [fold_left fst snd]. rewrite <- IH, dset_dmap, dmap_cons. destruct (is_hidden k); reflexivity.
Qed.
Lemma filter_nh_fst d : filter nh (map fst d) = map fst (dmap d).
Proof. induction d as [|[k x] d IH]; auto. rewrite dmap_cons. cbn [map filter fst]. unfold nh at 1. destruct (is_hidden k); cbn [negb map fst]; now rewrite IH. Qed.
Lemma filter_idem {A} (p : A -> bool) l : filter p (filter p l) = filter p l.
Proof. induction l; cbn; auto. destruct (p a) eqn:E; cbn; rewrite ?E, ?IHl; auto. Qed.
Lemma visible_dmap d : visible_keys (dmap d) = visible_keys d.
Proof. unfold visible_keys. change (fun k => negb (is_hidden k)) with nh. rewrite <- filter_nh_fst. apply filter_idem. Qed.
Lemma init_umeta d : init_meta (dmap d) = umeta (init_meta d).
Proof.
  unfold init_meta, umeta. cbn [m_data m_initial m_required]. f_equal; [symmetry; apply filter_nh_fst|]. f_equal. apply visible_dmap.
Qed.
Lemma update_umeta m m' : solid (m_initial m') -> update_meta (umeta m) (umeta m') = umeta (update_meta m m').
Proof.
  intros Sd. unfold update_meta. cbn [umeta m_data m_initial m_required].
  assert (E : forall e d, fold_left (fun d kv => if dmem (fst kv) d then d else dset (fst kv) (snd kv) d) (dmap e) (dmap d)
            = dmap (fold_left (fun d kv => if dmem (fst kv) d then d else dset (fst kv) (snd kv) d) e d)).
  { induction e as [|[k v] e IH]; intros d; auto. rewrite dmap_cons. cbn [fold_left fst snd]. rewrite <- IH. destruct (is_hidden k) eqn:H.
    - destruct (dmem k d); auto. now rewrite dset_dmap, H.
    - cbn [fold_left fst snd]. rewrite dmem_dmap by auto. destruct (dmem k d); auto. now rewrite dset_dmap, H. }
  rewrite E. set (D := fold_left _ (m_data m') (m_data m)).
  assert (F : forall d r, fold_left (fun r kv => if dmem (fst kv) r || is_hidden (fst kv) then r else dset (fst kv) false r) (dmap d) r
            = fold_left (fun r (kv : key * pyval) => if dmem (fst kv) r || is_hidden (fst kv) then r else dset (fst kv) false r) d r).
  { induction d as [|[k v] d IH]; intros r; auto. rewrite dmap_cons. cbn [fold_left fst snd]. destruct (is_hidden k) eqn:H; cbn [fold_left fst snd].
    - rewrite orb_true_r. apply IH.
    - rewrite H. apply IH. }
  rewrite F. set (R := fold_left _ D (m_required m)).
  assert (X : forall k, is_hidden k = false -> existsb (key_eqb k) (filter nh (m_initial m')) = existsb (key_eqb k) (m_initial m')).
  { intros k Hk. generalize (m_initial m'). induction l as [|c l IHl]; auto. cbn [filter existsb]. unfold nh at 1. destruct (is_hidden c) eqn:Hc; cbn [negb existsb]; rewrite IHl; auto.
    destruct (key_eqb k c) eqn:K; [apply key_eqb_spec in K; congruence|reflexivity]. }
  unfold umeta. cbn [m_data m_initial m_required]. f_equal.
  assert (G : forall r, fold_left (fun r k => if existsb (key_eqb k) (filter nh (m_initial m')) || is_hidden k then r else dset k false r) (filter nh (m_initial m)) r
            = fold_left (fun r k => if existsb (key_eqb k) (m_initial m') || is_hidden k then r else dset k false r) (m_initial m) r).
  { induction (m_initial m) as [|k l IH]; intros r; auto. cbn [filter fold_left]. unfold nh at 2. destruct (is_hidden k) eqn:H; cbn [negb fold_left].
    - rewrite orb_true_r. apply IH.
    - rewrite X by auto. rewrite H. apply IH. }
  destruct (m_initial m') as [|a l] eqn:I; auto. destruct (filter nh (a :: l)) as [|b l'] eqn:J; [exfalso; apply Sd; [discriminate|exact J]|]. apply G.
Qed.
Lemma metas_utree s ts : metas_of s (map utree ts) = map umeta (metas_of s ts).
Proof.
  unfold metas_of. induction ts as [|t ts IH]; cbn [map flat_map]; auto. rewrite map_app, IH, tkind_utree. f_equal.
  destruct (tkind t); cbn; auto. rewrite td_umeta. destruct (is_typed_dict s m); auto.
Qed.
Lemma types_under_dmap k ds : is_hidden k = false -> types_under k (map dmap ds) = types_under k ds.
Proof.
  intros E. unfold types_under. induction ds as [|d ds IH]; auto. cbn [map flat_map]. rewrite IH. f_equal. clear IH. induction d as [|[k' x] d IH]; auto.
  rewrite dmap_cons. cbn [filter fst]. destruct (is_hidden k') eqn:E'.
  - rewrite IH. destruct (key_eqb k k') eqn:K; auto. apply key_eqb_spec in K. congruence.
  - cbn [filter fst]. destruct (key_eqb k k'); cbn [map snd]; rewrite IH; auto. now rewrite undoc_type.
Qed.
Lemma agree_dmap ds : (forall d, In d ds -> doc_texts d) -> types_agree (map dmap ds) <-> types_agree ds.
Proof.
  intros T. split; intros H k d Hd Hk.
  - destruct (is_hidden k) eqn:E.
    + left. exists (ty_id ty_str). intros x Hx. unfold types_under in Hx. apply in_flat_map in Hx as (d' & Hd' & Hx). apply in_map_iff in Hx as ([k' y] & <- & Hy). apply filter_In in Hy as [Hy K]. cbn [fst] in K. apply key_eqb_spec in K. subst k'.
      destruct (T d' Hd' k y Hy (proj1 (hidden_doc k) E)) as ((text & ->) & _). reflexivity.
    + rewrite <- types_under_dmap by auto. apply (H k (dmap d)); [now apply in_map|]. unfold has_key in *. rewrite <- filter_nh_fst. apply filter_In. split; auto. unfold nh. now rewrite E.
  - apply in_map_iff in Hd as (d0 & <- & Hd0). unfold has_key in Hk. rewrite <- filter_nh_fst in Hk. apply filter_In in Hk as [Hk N]. unfold nh in N. apply negb_true_iff in N. rewrite types_under_dmap by auto. now apply (H k d0).
Qed.
Lemma merge_umeta s ms : (forall m, In m ms -> doc_texts (m_data m)) -> should_merge s (map umeta ms) = should_merge s ms.
Proof.
  intros T. unfold should_merge. rewrite map_map. rewrite (map_ext (fun x => visible_keys (m_data (umeta x))) (fun m => visible_keys (m_data m))) by (intros; apply visible_dmap).
  f_equal. apply eq_true_iff_eq. rewrite !value_types_spec. rewrite map_map. rewrite <- (map_map m_data dmap). apply agree_dmap. intros d Hd. apply in_map_iff in Hd as (m & <- & Hm). auto.
Qed.
Lemma node_data_utree t : node_data (utree t) = dmap (node_data t).
Proof. unfold node_data. rewrite tkind_utree. now destruct (tkind t). Qed.
Lemma node_meta_utree t : node_meta (utree t) = umeta (node_meta t).
Proof. unfold node_meta. rewrite tkind_utree. now destruct (tkind t). Qed.
Lemma update_node_utree s t o : deep s o -> update_node (utree t) (utree o) = utree (update_node t o).
Proof.
  intros D. apply deep_kind in D. unfold update_node. rewrite !tkind_utree. destruct (tkind t), (tkind o); cbn [ukind]; auto. rewrite update_umeta by apply D. now destruct t.
Qed.
Lemma set_meta_utree m t : set_meta (umeta m) (utree t) = utree (set_meta m t).
Proof. unfold set_meta. rewrite !tkind_utree. destruct (tkind t); cbn [ukind]; auto. now destruct t. Qed.
Lemma merged_utree ts : forall d, fold_left (fun d t => dupdate d (node_data t)) (map utree ts) (dmap d)
  = dmap (fold_left (fun d t => dupdate d (node_data t)) ts d).
Proof. induction ts as [|t ts IH]; intros d; cbn; auto. rewrite node_data_utree, dupdate_dmap. apply IH. Qed.
Lemma okd_merged s ts : (forall t, In t ts -> deep s t) -> forall d, okd s d -> okd s (fold_left (fun d t => dupdate d (node_data t)) ts d).
Proof.
  induction ts as [|t ts IH]; intros H d Hd; cbn [fold_left]; auto. apply IH; [intros; apply H; now right|]. apply okd_dupdate; auto. apply deep_data, H. now left.
Qed.
Lemma meta_fold s l : (forall t, In t l -> deep s t) -> forall m, okd s (m_data m) -> solid (m_initial m) ->
  fold_left (fun m t => update_meta m (node_meta t)) (map utree l) (umeta m) = umeta (fold_left (fun m t => update_meta m (node_meta t)) l m) /\
  okd s (m_data (fold_left (fun m t => update_meta m (node_meta t)) l m)) /\ solid (m_initial (fold_left (fun m t => update_meta m (node_meta t)) l m)).
Proof.
  induction l as [|x l IH]; intros H m A B; cbn [map fold_left]; auto. destruct (deep_meta s x (H x (or_introl eq_refl))) as [C D].
  rewrite node_meta_utree, update_umeta by auto. apply IH; [intros; apply H; now right|now apply okd_update|exact B].
Qed.
Lemma from_multiple_utree s bld bld' ts : (forall t, In t ts -> deep s t) ->
  (ts <> [] -> forall n d, okd s d -> bld' n (dmap d) = rmap utree (bld n d) /\ forall t, bld n d = Ok t -> deep s t) ->
  from_multiple bld' (map utree ts) = rmap utree (from_multiple bld ts) /\ forall t, from_multiple bld ts = Ok t -> deep s t.
Proof.
  intros D H. destruct ts as [|t ts]; [split; [auto|discriminate]|]. unfold from_multiple. cbn [map]. rewrite <- (map_cons utree t ts).
  assert (E1 : fold_left (fun n t => str_min n (tname t)) (map utree (t :: ts)) (tname (utree t)) = fold_left (fun n t => str_min n (tname t)) (t :: ts) (tname t)).
  { rewrite tname_utree. generalize (tname t). generalize (t :: ts). induction l as [|x l IH]; intros n; cbn; auto. rewrite tname_utree. apply IH. }
  destruct (deep_meta s t (D t (or_introl eq_refl))) as [M1 M2]. destruct (meta_fold s (t :: ts) D (node_meta t) M1 M2) as (E2 & F1 & F2).
  rewrite E1, node_meta_utree, E2. change (@nil (key * pyval)) with (dmap []) at 1. rewrite merged_utree.
  assert (O : okd s (fold_left (fun d t => dupdate d (node_data t)) (t :: ts) [])) by (apply okd_merged; auto; split; intros ? ? []).
  destruct (H ltac:(discriminate) (fold_left (fun n t => str_min n (tname t)) (t :: ts) (tname t)) _ O) as [Hb Hd]. rewrite Hb. split.
  - apply bind_rmap. intros a _. cbn [rmap]. now rewrite set_meta_utree.
  - intros r Hr. apply bind_Ok in Hr as (a & Ha & E). injection E as <-. apply deep_set_meta; auto.
Qed.

(** ** Children *)
Lemma add_child_utree s c n ch ns : deep s c -> Forall (deep s) ch ->
  add_child s (utree c) n (map utree ch, ns) = (map utree (fst (add_child s c n (ch, ns))), snd (add_child s c n (ch, ns))) /\ Forall (deep s) (fst (add_child s c n (ch, ns))).
Proof.
  intros Dc Dch. unfold add_child. rewrite exists_utree. destruct (existsb (teq s c) ch).
  - fold (is_td s (utree c)) (is_td s c). rewrite is_td_utree. destruct (is_td s c); auto. cbn [fst snd]. split.
    + f_equal. rewrite !map_map. apply map_ext. intros x. rewrite teq_utree. destruct (teq s c x); auto. now apply (update_node_utree s).
    + rewrite Forall_forall in *. intros x Hx. apply in_map_iff in Hx as (y & <- & Hy). destruct (teq s c y); auto. apply deep_update; auto.
  - cbn [fst snd]. rewrite map_app. split; auto. apply Forall_app. auto.
Qed.
Lemma element_undoc p v : element_name p (undoc v) = element_name p v.
Proof. unfold element_name. now rewrite undoc_type. Qed.
Definition good (s : strategies) (a b : res tree) : Prop := a = rmap utree b /\ forall t, b = Ok t -> deep s t.
Lemma build_set_utree s bld bld' p els : (forall n x, In x els -> good s (bld' n (undoc x)) (bld n x)) ->
  forall ch ns, Forall (deep s) ch -> build_set s bld' p (map undoc els) (map utree ch, ns) = rmap (map utree) (build_set s bld p els (ch, ns)) /\
    forall r, build_set s bld p els (ch, ns) = Ok r -> Forall (deep s) r.
Proof.
  induction els as [|v els IH]; intros H ch ns D; cbn [build_set map fst snd].
  - split; auto. intros r E. injection E as <-. exact D.
  - rewrite element_undoc. destruct (H (fresh_name (element_name p v) ns) v (or_introl eq_refl)) as [E F]. rewrite E.
    assert (H' : forall n x, In x els -> good s (bld' n (undoc x)) (bld n x)) by (intros; apply H; now right). split.
    + apply bind_rmap. intros a Ha. destruct (add_child_utree s a (fresh_name (element_name p v) ns) ch ns (F a Ha) D) as [G G']. rewrite G.
      destruct (add_child s a (fresh_name (element_name p v) ns) (ch, ns)) as [ch' ns']. cbn [fst snd] in *. now apply IH.
    + intros r Hr. apply bind_Ok in Hr as (a & Ha & Hr). destruct (add_child_utree s a (fresh_name (element_name p v) ns) ch ns (F a Ha) D) as [G G'].
      destruct (add_child s a (fresh_name (element_name p v) ns) (ch, ns)) as [ch' ns']. cbn [fst] in G'. eapply (IH H' ch' ns'); eauto.
Qed.
Definition uadded (e : tree * string) : tree * string := (utree (fst e), snd e).
Lemma lookup_utree s t added : lookup_tree s (utree t) (map uadded added) = lookup_tree s t added.
Proof.
  unfold lookup_tree. induction added as [|[x n] added IH]; cbn [map find uadded fst snd]; auto. rewrite teq_utree. destruct (teq s t x); auto.
Qed.
Lemma build_list_utree s bld bld' p els : (forall n x, In x els -> good s (bld' n (undoc x)) (bld n x)) ->
  forall ch ad, Forall (deep s) ch -> build_list s bld' p (map undoc els) (map utree ch) (map uadded ad) = rmap (map utree) (build_list s bld p els ch ad) /\
    forall r, build_list s bld p els ch ad = Ok r -> Forall (deep s) r.
Proof.
  induction els as [|v els IH]; intros H ch ad D; cbn [build_list map].
  - split; auto. intros r E. injection E as <-. exact D.
  - rewrite element_undoc. rewrite map_map. rewrite (map_ext (fun x => snd (uadded x)) snd) by auto.
    destruct (H (fresh_name (element_name p v) (map snd ad)) v (or_introl eq_refl)) as [E F]. rewrite E.
    assert (H' : forall n x, In x els -> good s (bld' n (undoc x)) (bld n x)) by (intros; apply H; now right). split.
    + apply bind_rmap. intros a Ha. rewrite lookup_utree. specialize (F a Ha). destruct (lookup_tree s a ad).
      * destruct (IH H' (ch ++ [rename s0 a])%list ad) as [G _]; [apply Forall_app; split; auto; constructor; auto; now apply deep_ren|]. rewrite <- G. rewrite map_app. cbn [map]. now rewrite rename_utree.
      * destruct (IH H' (ch ++ [a])%list (ad ++ [(a, tname a)])%list) as [G _]; [apply Forall_app; split; auto|]. rewrite <- G. rewrite !map_app. cbn [map uadded fst snd]. now rewrite tname_utree.
    + intros r Hr. apply bind_Ok in Hr as (a & Ha & Hr). specialize (F a Ha). destruct (lookup_tree s a ad).
      * apply (IH H' (ch ++ [rename s0 a])%list ad); auto. apply Forall_app; split; auto. constructor; auto. now apply deep_ren.
      * apply (IH H' (ch ++ [a])%list (ad ++ [(a, tname a)])%list); auto. apply Forall_app; split; auto.
Qed.
Lemma filter_utree (p : tree -> bool) l : (forall t, p (utree t) = p t) -> filter p (map utree l) = map utree (filter p l).
Proof. intros H. induction l; cbn; auto. rewrite H. destruct (p a); cbn; now rewrite IHl. Qed.
Lemma no_sharing_utree l : no_sharing (map utree l) = map uentry (no_sharing l).
Proof. unfold no_sharing. now rewrite !map_map. Qed.
Lemma metas_deep s l : Forall (deep s) l -> forall m, In m (metas_of s l) -> doc_texts (m_data m).
Proof.
  rewrite Forall_forall. intros D m Hm. unfold metas_of in Hm. apply in_flat_map in Hm as (t & Ht & Hm). specialize (D t Ht). apply deep_kind in D. destruct (tkind t) as [| | | | | | | |d m0]; try destruct Hm.
  destruct (is_typed_dict s m0); [|destruct Hm]. destruct Hm as [<-|[]]. apply D.
Qed.
Definition edeep (s : strategies) (e : key * nat * tree) : Prop := deep s (snd e).
Lemma filter_td ts s : filter (is_td s) ts <> [] -> is_td_strategy s = true.
Proof.
  intros N. destruct (filter (is_td s) ts) as [|t l] eqn:E; [congruence|]. assert (I : In t (filter (is_td s) ts)) by (rewrite E; now left).
  apply filter_In in I as [_ I]. unfold is_td, node_is_typed_dict in I. destruct (tkind t); try discriminate. now apply andb_true_iff in I as [_ I].
Qed.
Lemma merge_list_utree s bld bld' ch : Forall (deep s) ch ->
  (is_td_strategy s = true -> forall n d, okd s d -> good s (bld' n (dmap d)) (bld n d)) ->
  merge_list s bld' (map utree ch) = rmap (map uentry) (merge_list s bld ch) /\ forall r, merge_list s bld ch = Ok r -> Forall (edeep s) r.
Proof.
  intros D H. unfold merge_list. rewrite metas_utree, merge_umeta by (now apply metas_deep). assert (D' := D). rewrite Forall_forall in D'. destruct (should_merge _ _).
  - rewrite (filter_utree (is_td s)) by apply is_td_utree. destruct (from_multiple_utree s bld bld' (filter (is_td s) ch)) as [E F].
    + intros t Ht. apply filter_In in Ht as [Ht _]. auto.
    + intros N. apply H. eapply filter_td; eauto.
    + rewrite E. split.
      * apply bind_rmap. intros a _. cbn [rmap]. f_equal. rewrite !map_map, map_length. apply map_ext. intros c. rewrite is_td_utree. now destruct (is_td s c).
      * intros r Hr. apply bind_Ok in Hr as (a & Ha & Hr). injection Hr as <-. apply Forall_forall. intros e He. apply in_map_iff in He as (c & <- & Hc). unfold edeep. destruct (is_td s c); cbn [snd]; auto.
  - cbn [rmap]. rewrite no_sharing_utree. split; auto. intros r Hr. injection Hr as <-. apply Forall_forall. intros e He. unfold no_sharing in He. apply in_map_iff in He as (c & <- & Hc). unfold edeep. cbn; auto.
Qed.
Lemma merge_set_utree s ord bld bld' ch : set_like ord -> (forall i l, ord i (map utree l) = map utree (ord i l)) -> Forall (deep s) ch ->
  (is_td_strategy s = true -> forall n d, okd s d -> good s (bld' n (dmap d)) (bld n d)) ->
  merge_set s ord bld' (map utree ch) = rmap (map uentry) (merge_set s ord bld ch) /\ forall r, merge_set s ord bld ch = Ok r -> Forall (edeep s) r.
Proof.
  intros Sl O D H. assert (D' := D). rewrite Forall_forall in D'.
  assert (Do : forall i, Forall (deep s) (ord i ch)). { intros i. apply Forall_forall. intros t Ht. apply D'. eapply Permutation_in; [apply Permutation_sym, Sl|exact Ht]. }
  unfold merge_set. rewrite !O, metas_utree, merge_umeta by (now apply metas_deep). destruct (should_merge _ _).
  - rewrite (filter_utree (is_td s)) by apply is_td_utree. destruct (from_multiple_utree s bld bld' (filter (is_td s) (ord 1 ch))) as [E F].
    + intros t Ht. apply filter_In in Ht as [Ht _]. specialize (Do 1). rewrite Forall_forall in Do. auto.
    + intros N. apply H. eapply filter_td; eauto.
    + rewrite E. split.
      * apply bind_rmap. intros a _. cbn [rmap]. f_equal. rewrite <- no_sharing_utree. f_equal. rewrite <- O. f_equal.
        rewrite (filter_utree (fun c => negb (is_td s c))) by (intros; now rewrite is_td_utree). rewrite exists_utree.
        destruct (existsb _ _); auto. now rewrite map_app.
      * intros r Hr. apply bind_Ok in Hr as (a & Ha & Hr). injection Hr as <-. apply Forall_forall. intros e He. unfold no_sharing in He. apply in_map_iff in He as (c & <- & Hc). unfold edeep. cbn [snd].
        apply (Permutation_in c (Permutation_sym (Sl 2 _))) in Hc. destruct (existsb _ _); [apply filter_In in Hc as [Hc _]; auto|]. apply in_app_iff in Hc as [Hc|[<-|[]]]; auto. apply filter_In in Hc as [Hc _]; auto.
  - cbn [rmap]. rewrite no_sharing_utree. split; auto. intros r Hr. injection Hr as <-. apply Forall_forall. intros e He. unfold no_sharing in He. apply in_map_iff in He as (c & <- & Hc). unfold edeep. cbn [snd].
    specialize (Do 0). rewrite Forall_forall in Do. auto.
Qed.
Definition uchild (kc : key * tree) : key * tree := (fst kc, utree (snd kc)).
Lemma build_values_utree s bld bld' p kvs : (forall n k x, In (k, x) kvs -> good s (bld' n (undoc x)) (bld n x)) ->
  build_values bld' p (dmap kvs) = rmap (map uchild) (build_values bld p kvs) /\ forall r, build_values bld p kvs = Ok r -> Forall (fun kc => deep s (snd kc)) r.
Proof.
  induction kvs as [|[k v] kvs IH]; intros H.
  - cbn [build_values dmap vmap map filter]. split; auto. intros r E. injection E as <-. constructor.
  - rewrite dmap_cons. destruct IH as [I1 I2]; [intros; eapply H; right; eauto|]. cbn [build_values]. destruct (is_hidden k) eqn:E; auto. cbn [build_values]. rewrite E.
    destruct (H (value_name p k) k v (or_introl eq_refl)) as [F G]. rewrite F. split.
    + apply bind_rmap. intros a _. rewrite I1. apply bind_rmap. intros b _. reflexivity.
    + intros r Hr. apply bind_Ok in Hr as (a & Ha & Hr). apply bind_Ok in Hr as (b & Hb & Hr). injection Hr as <-. constructor; cbn [snd]; auto.
Qed.
Definition ugroup (e : tree * list key) : tree * list key := (utree (fst e), snd e).
Lemma groups_utree s cs : groups_of s (map uchild cs) = map ugroup (groups_of s cs).
Proof.
  assert (A : forall k c gs, add_group s k (utree c) (map ugroup gs) = map ugroup (add_group s k c gs)).
  { intros k c. induction gs as [|[t ks] gs IH]; cbn [map add_group ugroup fst snd]; auto. rewrite teq_utree. destruct (teq s c t); cbn; auto. now rewrite IH. }
  unfold groups_of. change (@nil (tree * list key)) with (map ugroup []) at 1. generalize (@nil (tree * list key)).
  induction cs as [|c cs IH]; intros gs; cbn [map fold_left]; auto. cbn [uchild fst snd]. rewrite A. apply IH.
Qed.
Lemma rename_groups_utree p gs : forall last, rename_groups p (map ugroup gs) last = map ugroup (rename_groups p gs last).
Proof.
  induction gs as [|[t ks] gs IH]; intros last; cbn [map rename_groups ugroup fst snd]; auto. rewrite ti_utree. cbn [uinfo i_type].
  unfold group_name. rewrite ti_utree. cbn [uinfo i_type]. destruct (Nat.ltb 1 (List.length ks)); cbn [map]; rewrite IH; f_equal. unfold ugroup. cbn [fst snd]. now rewrite rename_utree.
Qed.
Lemma before_none_map {A} (f : A -> A) (kf : A -> key) l : (forall a, kf (f a) = kf a) -> before_none kf (map f l) = map f (before_none kf l).
Proof. intros H. induction l; cbn; auto. rewrite H. destruct (kf a); cbn; auto; now rewrite IHl. Qed.
Lemma share_utree s p cs : share_groups s p (map uchild cs) = map uentry (share_groups s p cs).
Proof.
  unfold share_groups. rewrite groups_utree, rename_groups_utree, before_none_map by auto. rewrite !map_map. cbn [uchild fst snd]. apply map_ext. intros [k c]. cbn [fst snd].
  set (gs := rename_groups p _ _). assert (F : find (fun e => existsb (key_eqb k) (snd e)) (map ugroup gs) = option_map ugroup (find (fun e => existsb (key_eqb k) (snd e)) gs)).
  { clear. induction gs as [|[t ks] gs IH]; cbn [map find ugroup snd]; auto. destruct (existsb _ ks); auto. }
  rewrite F. destruct (find _ gs) as [[t ks]|]; reflexivity.
Qed.
Lemma share_deep s p cs : Forall (fun kc => deep s (snd kc)) cs -> Forall (edeep s) (share_groups s p cs).
Proof.
  rewrite !Forall_forall. intros H e He. apply share_groups_trees in He as (_ & k0 & t1 & H2 & H3). apply (H (k0, t1)) in H2. cbn [snd] in H2. unfold edeep. unfold etree in H3. destruct H3 as [->|(l & ->)]; auto. now apply deep_ren.
Qed.
Lemma iter_utree cs : iter_entries (map uentry cs) = map uentry (iter_entries cs).
Proof. apply before_none_map. auto. Qed.
Lemma height_utree cs : height_of (map uentry cs) = height_of cs.
Proof. unfold height_of. rewrite iter_utree, map_map. f_equal. f_equal. apply map_ext. intros e. apply theight_utree. Qed.
Lemma inner_utree n d r k t cs : inner n d r (ukind k) t (map uentry cs) = utree (inner n d r k t cs).
Proof. unfold inner. rewrite height_utree. reflexivity. Qed.
Lemma inner_deep s n d r k t cs : kok s k -> Forall (edeep s) cs -> deep s (inner n d r k t cs).
Proof. rewrite Forall_forall. intros K H. constructor; auto. Qed.
