(** The tree of a value accepts the value, provided equal trees accept the same values and merged dicts agree. *)
From Coq Require Import Ascii String List Bool Arith ZArith Lia Permutation.
From Verif Require Import PyStr PyStrFacts Utils Strategies Dispatch Values Tree Build TreeFacts SpecNames NamesFacts SpecData SpecMerge BuildFacts BuildInd TotalFacts TreeProofs SeqFacts FloatFacts MergeFacts GroupFacts SpecTypes SpecSound SoundTree.
Import ListNotations.
Local Open Scope string_scope.
Local Open Scope nat_scope.

(** Updating with metadata of a dict with the same keys changes nothing. *)
Lemma update_meta_same d d' : NoDup (map fst d) -> (forall k, has_key k d -> is_hidden k = false) -> (forall k, has_key k d <-> has_key k d') ->
  update_meta (init_meta d) (init_meta d') = init_meta d.
Proof.
  intros N H E. unfold update_meta. cbn [m_data m_initial m_required init_meta].
  assert (D : fold_left (fun (d0 : list (key * pyval)) kv => if dmem (fst kv) d0 then d0 else dset (fst kv) (snd kv) d0) d' d = d).
  { assert (G : forall l, (forall kv, In kv l -> has_key (fst kv) d) -> fold_left (fun (d0 : list (key * pyval)) kv => if dmem (fst kv) d0 then d0 else dset (fst kv) (snd kv) d0) l d = d).
    { induction l as [|kv l IH]; intros Hl; cbn [fold_left]; auto. assert (M : dmem (fst kv) d = true) by (apply dmem_spec, Hl; now left).
      rewrite M. apply IH. intros; apply Hl; now right. }
    apply G. intros kv Hkv. apply E. apply in_map. exact Hkv. }
  rewrite D. f_equal.
  set (R := map (fun k => (k, true)) (filter (fun k => negb (is_hidden k)) (map fst d))).
  assert (RK : forall k, has_key k d -> dmem k R = true).
  { intros k Hk. apply dmem_spec. unfold R. rewrite map_map. cbn [fst]. rewrite map_id. apply filter_In. split; auto. now rewrite H. }
  assert (R1 : fold_left (fun r kv => if dmem (fst kv) r || is_hidden (fst kv) then r else dset (fst kv) false r) d R = R).
  { assert (G : forall l, (forall kv, In kv l -> has_key (fst kv) d) -> fold_left (fun r (kv : key * pyval) => if dmem (fst kv) r || is_hidden (fst kv) then r else dset (fst kv) false r) l R = R).
    { induction l as [|kv l IH]; intros Hl; cbn [fold_left]; auto. rewrite RK by (apply Hl; now left). apply IH. intros; apply Hl; now right. }
    apply G. intros kv Hkv. apply in_map. exact Hkv. }
  rewrite R1. destruct (map fst d') as [|k0 ks] eqn:Ed.
  - assert (d = []) as ->. { destruct d as [|kv d]; auto. exfalso. assert (F : has_key (fst kv) d') by (apply E; now left). unfold has_key in F. now rewrite Ed in F. }
    reflexivity.
  - rewrite <- Ed. clear R1. assert (G : forall l, (forall k, In k l -> has_key k d) ->
      fold_left (fun r k => if existsb (key_eqb k) (map fst d') || is_hidden k then r else dset k false r) l R = R).
    { induction l as [|k l IH]; intros Hl; cbn [fold_left]; auto. assert (M : existsb (key_eqb k) (map fst d') = true).
      { apply (kin_spec k (map fst d')). apply E. apply Hl. now left. }
      rewrite M. apply IH. intros; apply Hl; now right. }
    transitivity (Meta d (map fst d) R); [f_equal; apply G; auto | reflexivity].
Qed.

Section Sound.
  Variable s : strategies.
  Variable ord : set_order.
  Hypothesis Hord : set_like ord.
  Variable good : pyval -> Prop.
  Hypothesis good_el : forall k t l x, good (VSeq k t l) -> In x l -> good x.
  Hypothesis good_val : forall k t d key x, good (VMap k t d) -> In (key, x) d -> good x.
  Hypothesis good_limit : forall k t l, good (VSeq k t l) -> limit s l = l.
  Hypothesis good_data : forall k t d, good (VMap k t d) -> k = MProxy \/ is_td_strategy s = false -> limit s d = d.
  Hypothesis good_once : forall k t d, good (VMap k t d) -> NoDup (map fst d).
  Hypothesis good_keys : forall k t d key x, good (VMap k t d) -> In (key, x) d -> ~ doc_key key.
  Hypothesis good_exhaust : forall v, good v -> exhaust v = v.
  Hypothesis good_merge : forall k t l D, is_td_strategy s = true -> good (VSeq k t l) -> NoDup (map fst D) -> string_dicts l <> [] ->
    (forall key x, In (key, x) D -> exists d, In d (string_dicts l) /\ In (key, x) d) ->
    (forall d key, In d (string_dicts l) -> has_key key d -> has_key key D) -> good (VMap MDict ty_dict D).

  Lemma good_hidden k t d key : good (VMap k t d) -> has_key key d -> is_hidden key = false.
  Proof.
    intros G H. apply in_map_iff in H as ([k' x] & <- & Hx). apply hidden_false. cbn [fst]. eapply good_keys; eauto.
  Qed.
  Lemma good_visible k t d : good (VMap k t d) -> visible_keys d = map fst d.
  Proof.
    intros G. unfold visible_keys. assert (F : forall l : list key, (forall x, In x l -> is_hidden x = false) -> filter (fun k => negb (is_hidden k)) l = l).
    { induction l as [|x l IH]; intros Hl; cbn [filter]; auto. rewrite Hl by now left. cbn [negb]. f_equal. apply IH. intros; apply Hl; now right. }
    apply F. intros x Hx. eapply good_hidden; eauto.
  Qed.

  (** [c] is the tree of [x]. *)
  Definition tree_of (f d : nat) (x : pyval) (c : tree) : Prop := exists name, build s ord f name d false x = Ok c.

  Lemma td_value f d x c : tree_of f d x c -> is_td s c = true -> exists ty kvs, x = VMap MDict ty kvs /\ string_keys kvs /\
    is_td_strategy s = true /\ tkind c = NDict kvs (init_meta kvs) /\ map ekey (tcs c) = visible_keys kvs.
  Proof.
    intros (name & H) T. pose proof (td_is_strategy s c T) as St. destruct (build_td_dict s ord f name d false x c H T) as (ty & kvs & ->).
    destruct (build_dict_node s ord f name d false ty kvs c St H) as [K E].
    exists ty, kvs. split; auto. split; [|repeat split; auto].
    unfold is_td, node_is_typed_dict in T. rewrite K in T. unfold is_typed_dict in T. apply andb_true_iff in T as [T _]. cbn [m_data init_meta] in T. now apply string_keys_all.
  Qed.
  Lemma td_keys f d x c ty kvs : good x -> tree_of f d x c -> is_td s c = true -> x = VMap MDict ty kvs -> forall k, child_key c k <-> has_key k kvs.
  Proof.
    intros G H T -> k. destruct (td_value f d _ c H T) as (ty' & kvs' & E & _ & _ & _ & C). injection E as <- <-.
    unfold child_key. rewrite C, (good_visible _ _ _ G). reflexivity.
  Qed.

  Lemma update_same f d x y c c' : good x -> good y -> tree_of f d x c -> tree_of f d y c' -> is_td s c = true -> is_td s c' = true ->
    teq s c' c = true -> update_node c c' = c.
  Proof.
    intros Gx Gy Hx Hy T T' E. destruct (td_value f d x c Hx T) as (ty & kx & -> & _ & _ & Kx & Cx). destruct (td_value f d y c' Hy T') as (ty' & ky & -> & _ & _ & Ky & Cy).
    unfold update_node. rewrite Kx, Ky. rewrite update_meta_same.
    - cbn [m_data init_meta]. rewrite <- Kx at 1. destruct c as [[] cs]. cbn in *. reflexivity.
    - eapply good_once; eauto.
    - intros k. eapply good_hidden; eauto.
    - intros k. rewrite <- (td_keys f d _ c _ _ Gx Hx T eq_refl k), <- (td_keys f d _ c' _ _ Gy Hy T' eq_refl k). symmetry. eapply td_teq_keys; eauto.
  Qed.

  (** ** Sequences before the merge *)
  Definition represents (f d : nat) (l : list pyval) (chs : list tree) : Prop :=
    (forall c, In c chs -> exists x, In x l /\ tree_of f d x c) /\
    (forall x, In x l -> exists tx c, tree_of f d x tx /\ In c chs /\ teq s tx c = true).
  Lemma represents_set f d parent l chs : (forall x, In x l -> good x) ->
    build_set s (fun n x => build s ord f n d false x) parent l ([], []) = Ok chs -> represents f d l chs.
  Proof.
    intros G H. eapply (build_set_inv s _ parent (fun done st => incl done l -> represents f d done (fst st)) l []) in H as (names & H); [apply H; apply incl_refl| |split; intros ? []].
    intros done [chs0 names] v child Hv I Hc Hi. cbn [fst snd] in *. assert (Hd : incl done l) by (intros x Hx; apply Hi, in_app_iff; now left).
    destruct (I Hd) as [A B]. assert (Tv : tree_of f d v child) by (eexists; exact Hc).
    assert (Keep : forall chs', (forall c, In c chs0 -> In c chs') -> (exists c, In c chs' /\ teq s child c = true) -> (forall c, In c chs' -> In c chs0 \/ c = child) -> represents f d (done ++ [v]) chs').
    { intros chs' H1 H2 H3. split.
      - intros c Hc0. apply H3 in Hc0 as [Hc0| ->]; [|exists v; split; auto; apply in_app_iff; right; now left].
        destruct (A c Hc0) as (x & Hx & T). exists x. split; auto. apply in_app_iff. now left.
      - intros x Hx. apply in_app_iff in Hx as [Hx|[<-|[]]].
        + destruct (B x Hx) as (tx & c & T & Hc0 & E). exists tx, c. auto.
        + destruct H2 as (c & Hc0 & E). exists child, c. auto. }
    unfold add_child. destruct (existsb (teq s child) chs0) eqn:E.
    - apply existsb_exists in E as (c0 & Hc0 & E0). destruct (node_is_typed_dict s child) eqn:T; cbn [fst].
      + replace (map (fun c => if teq s child c then update_node c child else c) chs0) with chs0; [apply Keep; eauto|].
        symmetry. rewrite <- (map_id chs0) at 2. apply map_ext_in. intros c Hc1. destruct (teq s child c) eqn:Ec; auto.
        destruct (A c Hc1) as (x & Hx & Tx). eapply update_same; [| |exact Tx|exact Tv| |exact T|exact Ec]; auto.
        eapply td_teq; [|exact T|exact Ec]. destruct Tx as (n & Tx). eapply build_has_cs; eauto.
      + apply Keep; eauto.
    - cbn [fst]. apply Keep.
      + intros c Hc0. apply in_app_iff. now left.
      + exists child. split; [apply in_app_iff; right; now left | apply teq_refl].
      + intros c Hc0. apply in_app_iff in Hc0 as [Hc0|[<-|[]]]; auto.
  Qed.

  (** Up to renaming, the children of a tuple are the trees of its elements. *)
  Definition renamed (c c0 : tree) : Prop := c = c0 \/ exists n, c = rename n c0.
  Lemma represents_list f d parent l chs :
    build_list s (fun n x => build s ord f n d false x) parent l [] [] = Ok chs ->
    Forall2 (fun x c => exists c0, tree_of f d x c0 /\ renamed c c0) l chs.
  Proof.
    intros H. eapply (build_list_inv s _ parent (fun done chs _ => Forall2 (fun x c => exists c0, tree_of f d x c0 /\ renamed c c0) done chs) l []) in H as (added & H); [exact H| |constructor].
    intros done chs0 added v child Hv I Hc. assert (Tv : tree_of f d v child) by (eexists; exact Hc).
    destruct (lookup_tree s child added) as [n|]; apply Forall2_app; auto; constructor; auto; exists child; (split; [auto|]); unfold renamed; eauto.
  Qed.

  (** ** The merge *)
  Definition merged_of (chs : list tree) (D : dict) (M : meta) : Prop :=
    (exists c, In c chs /\ is_td s c = true) /\
    (forall k, has_key k D <-> exists c, In c chs /\ is_td s c = true /\ has_key k (node_data c)) /\
    (forall k x, In (k, x) D -> exists c, In c chs /\ is_td s c = true /\ In (k, x) (node_data c)) /\
    (forall k, dget k (m_required M) = Some true <-> forall c, In c chs -> is_td s c = true -> has_key k (node_data c)) /\
    string_keys (m_data M) /\
    (forall k c c' x y, In c chs -> is_td s c = true -> In c' chs -> is_td s c' = true -> In (k, x) (node_data c) -> In (k, y) (node_data c') ->
       ty_id (type_of x) = ty_id (type_of y) \/
       ((ty_id (type_of x) = t_int \/ ty_id (type_of x) = t_float) /\ (ty_id (type_of y) = t_int \/ ty_id (type_of y) = t_float))).

  Lemma one_type_two l a b : one_type l -> In a l -> In b l -> a = b \/ ((a = t_int \/ a = t_float) /\ (b = t_int \/ b = t_float)).
  Proof.
    intros [(t & H)|(l' & -> & H)] Ha Hb; [left; rewrite (H a Ha), (H b Hb); reflexivity|]. right.
    assert (G : forall x, In x (l' ++ [t_float])%list -> x = t_int \/ x = t_float) by (intros x Hx; apply in_app_iff in Hx as [Hx|[<-|[]]]; auto). auto.
  Qed.
  Lemma types_under_In k (ds : list dict) d x : In d ds -> In (k, x) d -> In (ty_id (type_of x)) (types_under k ds).
  Proof.
    intros Hd Hx. unfold types_under. apply in_flat_map. exists d. split; auto. apply in_map_iff. exists (k, x). split; auto. apply filter_In. split; auto.
    now apply key_eqb_spec.
  Qed.
  Lemma types_agree_two ds k d d' x y : types_agree ds -> In d ds -> In d' ds -> In (k, x) d -> In (k, y) d' ->
    ty_id (type_of x) = ty_id (type_of y) \/
    ((ty_id (type_of x) = t_int \/ ty_id (type_of x) = t_float) /\ (ty_id (type_of y) = t_int \/ ty_id (type_of y) = t_float)).
  Proof.
    intros A Hd Hd' Hx Hy. eapply one_type_two; [apply (A k d); auto; change k with (fst (k, x)); now apply in_map| |].
    - now apply (types_under_In k ds d).
    - now apply (types_under_In k ds d').
  Qed.
  Lemma should_types ms : should_merge s ms = true -> types_agree (map m_data ms).
  Proof. unfold should_merge. intros H. apply andb_true_iff in H as [_ H]. now apply value_types_spec. Qed.

  (** The children come from good values, up to renaming. *)
  Definition from_good (f d : nat) (l : list pyval) (chs : list tree) : Prop :=
    forall c, In c chs -> exists x c0, In x l /\ good x /\ tree_of f d x c0 /\ renamed c c0.
  Lemma renamed_kind c c0 : renamed c c0 -> tkind c = tkind c0.
  Proof. intros [-> | (n & ->)]; auto. unfold rename. apply ren_kind. Qed.
  Lemma renamed_td c c0 : renamed c c0 -> is_td s c = is_td s c0.
  Proof. intros R. unfold is_td, node_is_typed_dict. now rewrite (renamed_kind _ _ R). Qed.
  Lemma renamed_hash c c0 : renamed c c0 -> thash s c = thash s c0.
  Proof. intros [-> | (n & ->)]; auto. apply thash_rename. Qed.
  Lemma renamed_fits c c0 v : renamed c c0 -> fits s c v <-> fits s c0 v.
  Proof. intros [-> | (n & ->)]; [reflexivity|]. apply fits_rename. Qed.
  Lemma good_td f d l chs c : from_good f d l chs -> In c chs -> is_td s c = true ->
    exists x ty kvs, In x l /\ good x /\ x = VMap MDict ty kvs /\ string_keys kvs /\ tkind c = NDict kvs (init_meta kvs) /\
      (forall k, child_key c k <-> has_key k kvs) /\ pre s c [kvs].
  Proof.
    intros F Hc T. destruct (F c Hc) as (x & c0 & Hx & G & Tx & R). assert (T0 : is_td s c0 = true) by (rewrite <- (renamed_td _ _ R); exact T).
    destruct (td_value f d x c0 Tx T0) as (ty & kvs & -> & K & St & Ek & Cs). exists (VMap MDict ty kvs), ty, kvs. do 4 (split; auto).
    split; [rewrite (renamed_kind _ _ R); exact Ek|].
    assert (Ck : forall k, child_key c k <-> child_key c0 k).
    { intros k. destruct R as [-> | (n & ->)]; [reflexivity|]. unfold child_key, rename. rewrite ren_cs, map_map.
      replace (map _ (tcs c0)) with (map ekey (tcs c0)); [reflexivity|]. apply map_ext. now intros [[? ?] ?]. }
    split.
    - intros k. rewrite Ck. eapply td_keys; eauto.
    - destruct Tx as (n & Tx). pose proof (pre_build s ord f n d false ty kvs c0 Tx T0) as P. destruct R as [-> | (m & ->)]; auto. now apply pre_ren.
  Qed.

  Lemma merged_facts f d k t l chs ms trees m : good (VSeq k t l) -> from_good f d l chs ->
    (forall x ty kvs, In x l -> x = VMap MDict ty kvs -> string_keys kvs -> exists c, In c chs /\ is_td s c = true /\ (forall key, has_key key (node_data c) <-> has_key key kvs)) ->
    (forall c, In c trees <-> In c chs /\ is_td s c = true) ->
    should_merge s (metas_of s ms) = true -> (forall c, In c ms <-> In c chs) ->
    from_multiple (fun n d0 => build s ord f n d false (exhaust (VMap MDict ty_dict d0))) trees = Ok m ->
    exists D M tD, m = set_meta M tD /\ tree_of f d (VMap MDict ty_dict D) tD /\ good (VMap MDict ty_dict D) /\ string_keys D /\ merged_of chs D M.
  Proof.
    intros G F All Ht Sm Hms H. apply from_multiple_Ok in H as (first & rest & t0 & E & H & ->).
    set (D := fold_left (fun d t => dupdate d (node_data t)) trees []) in *.
    set (M := fold_left (fun m t => update_meta m (node_meta t)) trees (node_meta first)) in *.
    assert (HF : In first trees) by (rewrite E; now left).
    assert (Src : forall c, In c trees -> exists ty, In (VMap MDict ty (node_data c)) l /\ good (VMap MDict ty (node_data c)) /\ string_keys (node_data c) /\ node_meta c = init_meta (node_data c) /\ (forall k, child_key c k <-> has_key k (node_data c))).
    { intros c Hc. apply Ht in Hc as [Hc T]. destruct (good_td f d l chs c F Hc T) as (x & ty & kvs & Hx & Gx & -> & K & Ek & Ck & _).
      exists ty. unfold node_data, node_meta. rewrite Ek. auto. }
    assert (DK : forall k, has_key k D <-> exists c, In c chs /\ is_td s c = true /\ has_key k (node_data c)).
    { intros k0. unfold D. rewrite merged_keys. split.
      - intros [[]|(c & Hc & B)]. apply Ht in Hc as [Hc T]. eauto.
      - intros (c & Hc & T & B). right. exists c. split; auto. now apply Ht. }
    assert (DV : forall k x, In (k, x) D -> exists c, In c chs /\ is_td s c = true /\ In (k, x) (node_data c)).
    { intros k0 x Hx. unfold D in Hx. apply merged_In in Hx as [[]|(c & Hc & Hx)]. exists c. apply Ht in Hc as [Hc T]. auto. }
    assert (SD : string_keys D).
    { intros k0 Hk. apply DK in Hk as (c & Hc & T & Hk). destruct (Src c) as (ty & _ & _ & K & _); [now apply Ht|]. now apply K. }
    assert (GD : good (VMap MDict ty_dict D)).
    { apply (good_merge k t l D); auto.
      - apply Ht in HF as [_ HF]. now apply td_is_strategy in HF.
      - unfold D. assert (Gd : forall ts (d0 : dict), NoDup (map fst d0) -> NoDup (map fst (fold_left (fun d t => dupdate d (node_data t)) ts d0))).
        { induction ts as [|t1 ts IH]; intros d0 N; cbn [fold_left]; auto. apply IH. now apply dupdate_NoDup. }
        apply Gd. constructor.
      - destruct (Src first HF) as (ty & Hin & _ & K & _). intros N. assert (X : In (node_data first) (string_dicts l)) by (apply string_dicts_In; eauto). rewrite N in X. destruct X.
      - intros key x Hx. destruct (DV key x Hx) as (c & Hc & T & Hx'). exists (node_data c). split; auto. apply string_dicts_In. destruct (Src c) as (ty & Hin & _ & K & _); [now apply Ht|]. eauto.
      - intros d0 key Hd Hk. apply string_dicts_In in Hd as (K & ty & Hin). destruct (All _ ty d0 Hin eq_refl K) as (c & Hc & T & Ck). apply DK. exists c. split; auto. split; auto. now apply Ck. }
    exists D, M, t0. split; auto. split; [eexists; rewrite <- (good_exhaust _ GD) at 1; exact H|]. split; auto. split; auto.
    split; [exists first; now apply Ht|]. split; auto. split; auto.
    assert (MO : meta_ok M (child_key first) (fun k => child_key first k \/ exists c ds, In (c, ds) (map (fun c => (c, [node_data c])) trees) /\ child_key c k)
                   (fun k => child_key first k /\ forall c ds, In (c, ds) (map (fun c => (c, [node_data c])) trees) -> child_key c k)).
    { unfold M. replace trees with (map fst (map (fun c : tree => (c, [node_data c])) trees)) at 1 by (rewrite map_map; apply map_id).
      apply (fold_meta s); [|tauto|].
      - intros c ds Hc. apply in_map_iff in Hc as (c1 & E1 & Hc). injection E1 as <- <-. apply Ht in Hc as [Hc T].
        destruct (good_td f d l chs c1 F Hc T) as (x & ty & kvs & Hx & Gx & -> & K & Ek & Ck & P). unfold node_data. now rewrite Ek.
      - destruct (Src first HF) as (ty & _ & _ & _ & -> & Ck). eapply meta_ok_ext; [|apply meta_ok_init]. intros k0 _. rewrite Ck. tauto. }
    assert (MA : forall k, (child_key first k /\ forall c ds, In (c, ds) (map (fun c => (c, [node_data c])) trees) -> child_key c k) <-> (forall c, In c chs -> is_td s c = true -> has_key k (node_data c))).
    { intros k0. split.
      - intros [_ A] c Hc T. assert (Hc' : In c trees) by now apply Ht. destruct (Src c Hc') as (_ & _ & _ & _ & _ & Ck). apply Ck. apply (A c [node_data c]). apply in_map_iff. eauto.
      - intros A. assert (B : forall c, In c trees -> child_key c k0). { intros c Hc. destruct (Src c Hc) as (_ & _ & _ & _ & _ & Ck). apply Ck. apply Ht in Hc as [Hc T]. now apply A. }
        split; [now apply B|]. intros c ds Hc. apply in_map_iff in Hc as (c1 & E1 & Hc). injection E1 as <- <-. now apply B. }
    assert (ND : forall c k0, In c trees -> has_key k0 (node_data c) -> ~ doc_key k0).
    { intros c k0 Hc Hk. destruct (Src c Hc) as (ty & _ & Gc & _). apply in_map_iff in Hk as ([k1 x] & <- & Hx). eapply good_keys; eauto. }
    split; [|split].
    - intros k0. rewrite <- MA. destruct MO as [MO MN]. destruct (is_hidden k0) eqn:Hh.
      + apply hidden_doc in Hh. rewrite (MN k0 Hh). split; [discriminate|]. intros [A _]. exfalso. destruct (Src first HF) as (_ & _ & _ & _ & _ & Ck). apply Ck in A. eapply ND; eauto.
      + apply hidden_false in Hh. destruct (MO k0 Hh) as (_ & _ & A & _). exact A.
    - intros k0 Hk. unfold M in Hk. assert (FM : forall ts m0, (forall c, In c ts -> In c trees) -> has_key k0 (m_data (fold_left (fun m t => update_meta m (node_meta t)) ts m0)) -> has_key k0 (m_data m0) \/ exists c, In c trees /\ has_key k0 (node_data c)).
      { induction ts as [|c ts IH]; intros m0 Hi; cbn [fold_left]; auto. intros Hk0. apply IH in Hk0 as [Hk0|Hk0]; auto; [|intros; apply Hi; now right].
        unfold has_key in Hk0. apply update_meta_keys in Hk0 as [Hk0|Hk0]; auto. right. exists c. assert (Hc : In c trees) by (apply Hi; now left). split; auto.
        destruct (Src c Hc) as (_ & _ & _ & _ & Em & _). rewrite Em in Hk0. exact Hk0. }
      apply FM in Hk as [Hk|(c & Hc & Hk)]; auto.
      + destruct (Src first HF) as (_ & _ & _ & K & Em & _). rewrite Em in Hk. now apply K.
      + destruct (Src c Hc) as (_ & _ & _ & K & _). now apply K.
    - intros k0 c c' x y Hc T Hc' T' Hx Hy. assert (MM : forall c, In c chs -> is_td s c = true -> In (node_data c) (map m_data (metas_of s ms))).
      { intros c1 Hc1 T1. destruct (good_td f d l chs c1 F Hc1 T1) as (_ & _ & kvs & _ & _ & _ & _ & Ek & _). apply in_map_iff. exists (init_meta kvs). unfold node_data. rewrite Ek. split; auto.
        unfold metas_of. apply in_flat_map. exists c1. split; [now apply Hms|]. rewrite Ek. unfold is_td, node_is_typed_dict in T1. rewrite Ek in T1. rewrite T1. now left. }
      eapply (types_agree_two (map m_data (metas_of s ms)) k0); [apply should_types; exact Sm|apply MM; [exact Hc|exact T]|apply MM; [exact Hc'|exact T']|exact Hx|exact Hy].
  Qed.

  Lemma represents_from_good f d k t l chs : good (VSeq k t l) -> represents f d l chs -> from_good f d l chs.
  Proof. intros G [A _] c Hc. destruct (A c Hc) as (x & Hx & T). exists x, c. split; auto. split; [eapply good_el; eauto|]. split; auto. now left. Qed.
  Lemma tree_td f d x ty kvs c : tree_of f d x c -> x = VMap MDict ty kvs -> string_keys kvs -> is_td_strategy s = true -> is_td s c = true.
  Proof. intros (n & H) -> K St. eapply build_is_td; eauto. Qed.
  Lemma tree_has_cs f d x c : tree_of f d x c -> has_cs s c.
  Proof. intros (n & H). eapply build_has_cs; eauto. Qed.
  Lemma represents_all f d k t l chs : good (VSeq k t l) -> represents f d l chs -> is_td_strategy s = true ->
    forall x ty kvs, In x l -> x = VMap MDict ty kvs -> string_keys kvs -> exists c, In c chs /\ is_td s c = true /\ (forall key, has_key key (node_data c) <-> has_key key kvs).
  Proof.
    intros G R St x ty kvs Hx -> K. pose proof (represents_from_good f d k t l chs G R) as F. destruct R as [A B]. destruct (B _ Hx) as (tx & c & Tx & Hc & E).
    pose proof (tree_td f d _ ty kvs tx Tx eq_refl K St) as Td. destruct (A c Hc) as (x0 & Hx0 & T0). pose proof (tree_has_cs _ _ _ _ T0) as HC.
    assert (Tc : is_td s c = true) by (eapply td_teq; eauto). exists c. split; auto. split; auto. intros key.
    destruct (good_td f d l chs c F Hc Tc) as (x1 & ty1 & kvs1 & _ & _ & _ & _ & Ek & Ck & _). unfold node_data. rewrite Ek. rewrite <- Ck.
    rewrite <- (td_keys f d _ tx _ _ (good_el _ _ _ _ G Hx) Tx Td eq_refl key). symmetry. eapply td_teq_keys; eauto.
  Qed.

  (** The children of a sequence that is no fixed size tuple. *)
  Definition unfixed (k : seqkind) : Prop := ~ (k = KTuple /\ s_tuple s = TFixed).
  Definition merged_case (f d : nat) (chs : list tree) (D : dict) (M : meta) (tD : tree) : Prop :=
    tree_of f d (VMap MDict ty_dict D) tD /\ good (VMap MDict ty_dict D) /\ string_keys D /\ merged_of chs D M.
  Lemma set_children f name d root k t l tr : good (VSeq k t l) -> unfixed k -> build s ord (S f) name d root (VSeq k t l) = Ok tr ->
    tkind tr = NSeq k /\ i_type (ti tr) = t /\
    exists chs, represents f (S d) l chs /\
      ((forall c, In c (map etree (tcs tr)) <-> In c chs) \/
       exists D M tD, merged_case f (S d) chs D M tD /\
         forall c, In c (map etree (tcs tr)) <-> (In c chs /\ is_td s c = false) \/ c = set_meta M tD).
  Proof.
    intros G U H. cbn [build] in H. destruct (negb (is_compatible name)); [discriminate|]. rewrite (good_limit _ _ _ G) in H.
    set (bld := fun n x => build s ord f n (S d) false x) in *. set (bd := fun n d0 => build s ord f n (S d) false (exhaust (VMap MDict ty_dict d0))) in *.
    assert (H' : exists cs, bind (build_set s bld name l ([], [])) (merge_set s ord bd) = Ok cs /\ tr = inner name d root (NSeq k) t cs).
    { destruct k; try (apply bind_Ok in H as (cs & H & E); injection E as <-; eauto; fail).
      destruct (s_tuple s) eqn:Et; [|apply bind_Ok in H as (cs & H & E); injection E as <-; eauto]. exfalso. apply U. auto. }
    destruct H' as (cs & H' & ->). cbn [inner tcs ti i_type i_kind]. split; [reflexivity|]. split; [reflexivity|].
    apply bind_Ok in H' as (chs & H1 & H2). apply represents_set in H1; [|intros; eapply good_el; eauto]. exists chs. split; auto.
    apply merge_set_spec in H2; auto.
    assert (NS : forall l, map etree (no_sharing l) = l) by (intros l'; unfold no_sharing; rewrite map_map; apply map_id).
    destruct H2 as [(_ & l' & P & ->)|(Sm & trees & m & l' & P & Hm & P' & ->)]; rewrite NS.
    - left. intros c. split; intros Hc; [now apply (Permutation_in _ (Permutation_sym P)) | now apply (Permutation_in _ P)].
    - right. assert (Ht : forall c, In c trees <-> In c chs /\ is_td s c = true).
      { intros c. rewrite <- filter_In. split; intros Hc; [now apply (Permutation_in _ (Permutation_sym P)) | now apply (Permutation_in _ P)]. }
      assert (St : is_td_strategy s = true).
      { apply from_multiple_Ok in Hm as (first & rest & _ & E & _). assert (Hf : In first trees) by (rewrite E; now left). apply Ht in Hf as [_ Hf]. now apply td_is_strategy in Hf. }
      destruct (merged_facts f (S d) k t l chs (ord 0 chs) trees m G (represents_from_good _ _ _ _ _ _ G H1) (represents_all _ _ _ _ _ _ G H1 St) Ht Sm) as (D & M & tD & -> & TD & GD & KD & MD); auto.
      { intros c. pose proof (Hord 0 chs) as Q. split; intros Hc; [now apply (Permutation_in _ (Permutation_sym Q)) | now apply (Permutation_in _ Q)]. }
      exists D, M, tD. split; [repeat split; auto; apply MD|].
      assert (Tm : is_td s (set_meta M tD) = true).
      { destruct (td_value f (S d) _ tD TD (tree_td _ _ _ _ _ _ TD eq_refl KD St)) as (ty & kvs & _ & _ & _ & Ek & _). unfold set_meta. rewrite Ek. unfold is_td, node_is_typed_dict, is_typed_dict. cbn [tkind ti i_kind].
        rewrite St, andb_true_r. apply string_keys_all. apply MD. }
      assert (NE : existsb (teq s (set_meta M tD)) (filter (fun c => negb (is_td s c)) chs) = false).
      { destruct (existsb (teq s (set_meta M tD)) (filter (fun c => negb (is_td s c)) chs)) eqn:E; auto. exfalso.
        apply existsb_exists in E as (c & Hc & E). apply filter_In in Hc as [Hc Nc]. apply negb_true_iff in Nc. destruct H1 as [A _]. destruct (A c Hc) as (x & _ & Tx).
        rewrite (td_not_teq_rest s _ c Tm (tree_has_cs _ _ _ _ Tx) Nc) in E. discriminate. }
      cbv zeta in P'. rewrite NE in P'. intros c. transitivity (In c (filter (fun c => negb (is_td s c)) chs ++ [set_meta M tD])%list).
      + split; intros Hc; [now apply (Permutation_in _ (Permutation_sym P')) | now apply (Permutation_in _ P')].
      + rewrite in_app_iff, filter_In, negb_true_iff. cbn [In]. intuition congruence.
  Qed.

  (** The children of a fixed size tuple. *)
  Lemma tuple_children_of f name d root t l tr : good (VSeq KTuple t l) -> s_tuple s = TFixed -> build s ord (S f) name d root (VSeq KTuple t l) = Ok tr ->
    tkind tr = NSeq KTuple /\ i_type (ti tr) = t /\
    exists chs, Forall2 (fun x c => exists c0, tree_of f (S d) x c0 /\ renamed c c0) l chs /\
      (map etree (tcs tr) = chs \/
       exists D M tD, merged_case f (S d) chs D M tD /\ map etree (tcs tr) = map (fun c => if is_td s c then set_meta M tD else c) chs).
  Proof.
    intros G U H. cbn [build] in H. destruct (negb (is_compatible name)); [discriminate|]. rewrite (good_limit _ _ _ G), U in H.
    apply bind_Ok in H as (cs & H & E). injection E as <-. cbn [inner tcs ti i_type i_kind]. split; [reflexivity|]. split; [reflexivity|].
    apply bind_Ok in H as (chs & H1 & H2). apply represents_list in H1. exists chs. split; auto.
    assert (NS : forall l, map etree (no_sharing l) = l) by (intros l'; unfold no_sharing; rewrite map_map; apply map_id).
    apply merge_list_spec in H2 as [(_ & ->)|(Sm & m & Hm & ->)]; [left; apply NS|]. right.
    assert (F : from_good f (S d) l chs).
    { clear -H1 G good_el. assert (Q : forall x, In x l -> good x) by (intros; eapply good_el; eauto). clear G. induction H1 as [|x c l chs (c0 & T & R) H IH]; intros c1 Hc; [destruct Hc|]. destruct Hc as [<-|Hc].
      - exists x, c0. split; [now left|]. split; [apply Q; now left|]. auto.
      - destruct (IH (fun x Hx => Q x (or_intror Hx)) c1 Hc) as (x1 & c2 & Hx & Gx & T1 & R1). exists x1, c2. split; [now right|]. auto. }
    assert (Ht : forall c, In c (filter (is_td s) chs) <-> In c chs /\ is_td s c = true) by (intros; apply filter_In).
    assert (St : is_td_strategy s = true).
    { apply from_multiple_Ok in Hm as (first & rest & _ & E & _). assert (Hf : In first (filter (is_td s) chs)) by (rewrite E; now left). apply Ht in Hf as [_ Hf]. now apply td_is_strategy in Hf. }
    destruct (merged_facts f (S d) KTuple t l chs chs (filter (is_td s) chs) m G F) as (D & M & tD & -> & TD & GD & KD & MD); auto.
    - intros x ty kvs Hx -> K. assert (X : exists c c0, In c chs /\ tree_of f (S d) (VMap MDict ty kvs) c0 /\ renamed c c0).
      { clear -H1 Hx. induction H1 as [|x c l chs (c0 & T & R) H IH]; [destruct Hx|]. destruct Hx as [->|Hx]; [exists c, c0; split; [now left|auto]|]. destruct (IH Hx) as (c1 & c2 & A & B). exists c1, c2. split; [now right|auto]. }
      destruct X as (c & c0 & Hc & T & R). pose proof (tree_td f (S d) _ ty kvs c0 T eq_refl K St) as T0. exists c. split; auto. split; [rewrite (renamed_td _ _ R); exact T0|].
      destruct (td_value f (S d) _ c0 T T0) as (ty' & kvs' & E' & _ & _ & Ek & _). injection E' as <- <-. unfold node_data. rewrite (renamed_kind _ _ R), Ek. reflexivity.
    - reflexivity.
    - exists D, M, tD. split; [repeat split; auto; apply MD|]. rewrite map_map. apply map_ext. intros c. destruct (is_td s c); reflexivity.
  Qed.

  (** The children of a dict or proxy. *)
  Lemma map_children_of f name d root k t kvs tr : good (VMap k t kvs) -> build s ord (S f) name d root (VMap k t kvs) = Ok tr ->
    tkind tr = (match k with MProxy => NProxy | MDict => NDict kvs (init_meta kvs) end) /\ i_type (ti tr) = t /\
    map ekey (tcs tr) = map fst kvs /\
    forall e, In e (tcs tr) -> exists x tx k0 x0 c0, In (ekey e, x) kvs /\ tree_of f (S d) x tx /\ In (k0, x0) kvs /\ tree_of f (S d) x0 c0 /\ teq s tx c0 = true /\ renamed (etree e) c0.
  Proof.
    intros G H. cbn [build] in H.
    assert (H' : exists cs, build_values (fun n x => build s ord f n (S d) false x) name kvs = Ok cs /\
              tr = inner name d root (match k with MProxy => NProxy | MDict => NDict kvs (init_meta kvs) end) t (share_groups s name cs)).
    { destruct k.
      - replace (if is_td_strategy s then kvs else limit s kvs) with kvs in H by (destruct (is_td_strategy s) eqn:St; auto; symmetry; eapply good_data; eauto).
        apply bind_Ok in H as (cs & H & E). injection E as <-. eauto.
      - destruct (negb (is_compatible name)); [discriminate|]. rewrite (good_data _ _ _ G) in H by auto. apply bind_Ok in H as (cs & H & E). injection E as <-. eauto. }
    destruct H' as (cs & HV & ->). cbn [inner tcs ti i_type i_kind]. split; [reflexivity|]. split; [reflexivity|].
    pose proof (build_values_keys _ _ _ _ HV) as Kc. rewrite (good_visible _ _ _ G) in Kc. split.
    - rewrite share_groups_keys. exact Kc.
    - intros e He. assert (N : NoDup (map fst cs)) by (rewrite Kc; eapply good_once; eauto).
      destruct (share_groups_spec s name cs N e He) as (c & k0 & c0 & A & B & E & R).
      destruct (build_values_In _ _ _ _ _ _ HV A) as (_ & x & Hx & Bx). destruct (build_values_In _ _ _ _ _ _ HV B) as (_ & x0 & Hx0 & Bx0).
      exists x, c, k0, x0, c0. split; auto. split; [eexists; eauto|]. split; auto. split; [eexists; eauto|]. split; auto.
  Qed.

  (** Children of equal typed dict nodes, key by key. *)
  Lemma td_teq_children a b e : is_td s a = true -> is_td s b = true -> teq s a b = true -> In e (tcs a) ->
    exists e', In e' (tcs b) /\ ekey e' = ekey e /\ heq (thash s (etree e)) (thash s (etree e')) = true.
  Proof.
    destruct a as [ia csa], b as [ib csb]. intros A B E He. unfold is_td, node_is_typed_dict, teq, tkind in *. cbn [ti tcs] in *.
    apply andb_true_iff in E as [_ E]. cbn [thash] in E. destruct (i_kind ia); try discriminate. destruct (i_kind ib); try discriminate. rewrite A, B in E.
    apply heq_set in E as [E _]. destruct (E _ (in_map (fun e => HTd (fst (fst e)) (thash s (snd e))) _ _ He)) as (x & Hx & Ex). apply in_map_iff in Hx as (e' & <- & He').
    cbn [heq] in Ex. apply andb_true_iff in Ex as [Ex Eh]. apply key_eqb_spec in Ex. exists e'. split; auto.
  Qed.
  Lemma In_once (kvs : dict) k x y : NoDup (map fst kvs) -> In (k, x) kvs -> In (k, y) kvs -> x = y.
  Proof.
    induction kvs as [|[k0 z] kvs IH]; intros N Hx Hy; [destruct Hx|]. cbn [map fst] in N. inversion N as [|? ? Nk N']; subst.
    destruct Hx as [Hx|Hx], Hy as [Hy|Hy].
    - congruence.
    - injection Hx as -> ->. exfalso. apply Nk. change k with (fst (k, y)). now apply in_map.
    - injection Hy as -> ->. exfalso. apply Nk. change k with (fst (k, x)). now apply in_map.
    - auto.
  Qed.
  (** The value under the key of a child has a tree equal to the child. *)
  Lemma map_child f name d root k t kvs tr e x : good (VMap k t kvs) -> build s ord (S f) name d root (VMap k t kvs) = Ok tr ->
    In e (tcs tr) -> In (ekey e, x) kvs ->
    exists tx x0 c0, tree_of f (S d) x tx /\ good x0 /\ tree_of f (S d) x0 c0 /\ teq s tx c0 = true /\ renamed (etree e) c0.
  Proof.
    intros G H He Hx. destruct (map_children_of f name d root k t kvs tr G H) as (_ & _ & _ & A). destruct (A e He) as (x1 & tx & k0 & x0 & c0 & Hx1 & Tx & Hx0 & T0 & E & R).
    assert (x1 = x) as -> by (eapply In_once; [eapply good_once; eauto| |]; eauto). exists tx, x0, c0. split; auto. split; [eapply good_val; eauto|]. auto.
  Qed.

  (** ** Covering *)
  Lemma covers_seq_inv k t l w : covers (VSeq k t l) w -> exists l', w = VSeq k t l' /\
    (forall y, In y l' -> exists x, In x l /\ covers x y) /\ (k = KTuple -> Forall2 covers l l').
  Proof.
    intros C. inversion C as [v|fa fb Ef|v w' Iv Iw Et|k' t' l1 l' Nk F|t' l1 l' F|]; subst; try contradiction.
    - exists l. split; auto. split; [intros y Hy; exists y; split; auto; apply cov_refl|]. intros _. clear. induction l; constructor; auto. apply cov_refl.
    - exists l'. split; auto. split; auto. intros; contradiction.
    - exists l'. split; auto. split; auto. clear C. intros y Hy. induction F as [|x0 y0 l l' C F IH]; [destruct Hy|]. destruct Hy as [<-|Hy]; [exists x0; split; [now left|auto]|].
      destruct (IH Hy) as (x & Hx & Cx). exists x. split; [now right|auto].
  Qed.
  Lemma covers_map_inv k t d w : covers (VMap k t d) w -> exists d', w = VMap k t d' /\
    (forall key, has_key key d <-> has_key key d') /\ (forall key y, In (key, y) d' -> exists x, In (key, x) d /\ covers x y).
  Proof.
    intros C. inversion C as [v|fa fb Ef|v w' Iv Iw Et|? ? ? ? ? ? |? ? ? ?|k' t' d0 d' K F]; subst; try contradiction.
    - exists d. split; auto. split; [reflexivity|]. intros key y Hy. exists y. split; auto. apply cov_refl.
    - exists d'. auto.
  Qed.

  Hypothesis good_dict : forall t d, good (VMap MDict t d) -> t = ty_dict.
  Hypothesis good_same : forall f d x y tx ty, good x -> good y -> tree_of f d x tx -> tree_of f d y ty -> heq (thash s tx) (thash s ty) = true ->
    ty_id (type_of x) = ty_id (type_of y) /\ forall w, fits s tx w -> fits s ty w.
  Hypothesis good_rows : forall k t l d d' key x y, good (VSeq k t l) -> is_td_strategy s = true -> In d (string_dicts l) -> In d' (string_dicts l) ->
    In (key, x) d -> In (key, y) d' ->
    (ty_id (type_of x) = ty_id (type_of y) -> covers x y) /\ ~ (ty_id (type_of x) = t_int /\ ty_id (type_of y) = t_float).

  Lemma teq_heq a b : teq s a b = true -> heq (thash s a) (thash s b) = true.
  Proof. unfold teq. intros E. now apply andb_true_iff in E. Qed.

  Lemma child_fits_value f name d root k t kvs tr e x w : good (VMap k t kvs) -> build s ord (S f) name d root (VMap k t kvs) = Ok tr ->
    In e (tcs tr) -> In (ekey e, x) kvs -> (forall tx, tree_of f (S d) x tx -> fits s tx w) -> fits s (etree e) w.
  Proof.
    intros G H He Hx F. destruct (map_child f name d root k t kvs tr e x G H He Hx) as (tx & x0 & c0 & Tx & G0 & T0 & E & R).
    apply (renamed_fits _ _ w R). eapply (good_same f (S d) x x0); [exact (good_val _ _ _ _ _ G Hx)|auto|exact Tx|exact T0|now apply teq_heq|auto].
  Qed.

  (** A merged node accepts every dict that was merged. *)
  Lemma merged_fits f d k t l chs D M tD x w :
    (forall f' name d root v t w, f' <= f -> good v -> covers v w -> build s ord f' name d root v = Ok t -> fits s t w) ->
    good (VSeq k t l) -> from_good f d l chs -> merged_case f d chs D M tD ->
    In x l -> (exists tx c, tree_of f d x tx /\ In c chs /\ is_td s c = true /\ teq s tx c = true) -> covers x w -> fits s (set_meta M tD) w.
  Proof.
    intros IH G F (TD & GD & KD & _ & DK & DV & DR & KM & DT) Hx (tx & c & Tx & Hc & Tc & E) C.
    pose proof (td_is_strategy s c Tc) as St. pose proof (tree_td _ _ _ _ _ _ TD eq_refl KD St) as TtD.
    assert (Td : is_td s tx = true) by (eapply td_teq; [eapply tree_has_cs; eauto|exact Tc|rewrite teq_sym; exact E]).
    assert (Gx : good x) by (eapply good_el; eauto).
    destruct (td_value f d x tx Tx Td) as (ty & dx & Ex & Kx & _ & Ekx & _). subst x. pose proof (good_dict _ _ Gx) as ->.
    destruct (covers_map_inv _ _ _ _ C) as (dw & -> & Kw & Cw).
    destruct (good_td f d l chs c F Hc Tc) as (xc & tyc & dc & Hxc & Gc & -> & Kc & Ekc & Ckc & _).
    assert (NDc : node_data c = dc) by (unfold node_data; now rewrite Ekc).
    assert (KK : forall key, has_key key dx <-> has_key key dc).
    { intros key. rewrite <- (td_keys f d _ tx _ _ Gx Tx Td eq_refl key), <- Ckc. eapply td_teq_keys; eauto. }
    destruct (td_value f d _ tD TD TtD) as (tyD & dD & ED & _ & _ & EkD & _). injection ED as <- <-.
    destruct TD as (nD & TD). destruct f as [|f]; [destruct nD; discriminate|].
    destruct (map_children_of f nD d false MDict ty_dict D tD GD TD) as (_ & TyD & KsD & _).
    assert (FG : fits s (set_meta M tD) (VMap MDict ty_dict dw) = (exists d0, VMap MDict ty_dict dw = VMap MDict ty_dict d0 /\ (if is_typed_dict s M then open_fits (map (child_fits s) (tcs tD)) d0 /\ requires M d0 else plain_map_fits (map (child_fits s) (tcs tD)) d0))).
    { unfold set_meta. rewrite EkD. rewrite fits_node. cbv zeta. cbn [i_kind i_type]. rewrite TyD. reflexivity. }
    rewrite FG. clear FG. exists dw. split; auto.
    assert (TM : is_typed_dict s M = true) by (unfold is_typed_dict; rewrite St, andb_true_r; now apply string_keys_all). rewrite TM. split.
    - intros key y Hy. destruct (Cw key y Hy) as (z & Hz & Cz).
      assert (HzK : has_key key dx) by (change key with (fst (key, z)); now apply in_map).
      (* the value of the representative *)
      assert (E0 : exists z0, In (key, z0) dc /\ ty_id (type_of z) = ty_id (type_of z0)).
      { destruct Tx as (nx & Tx). destruct (map_children_of f nx d false MDict ty_dict dx tx Gx Tx) as (_ & _ & Kex & _).
        assert (He : In key (map ekey (tcs tx))) by (rewrite Kex; exact HzK). apply in_map_iff in He as (e & <- & He).
        destruct (td_teq_children tx c e Td Tc E He) as (e' & He' & Ke & Eh).
        destruct (map_child f nx d false MDict ty_dict dx tx e z Gx Tx He Hz) as (tz & z1 & c1 & Tz & G1 & T1 & Ez & R1).
        destruct (F c Hc) as (xc' & c0 & Hxc' & Gc' & (n0 & T0) & R0). assert (Tc0 : is_td s c0 = true) by (rewrite <- (renamed_td _ _ R0); exact Tc).
        destruct (td_value (S f) d xc' c0 (ex_intro _ n0 T0) Tc0) as (ty' & dc' & -> & _ & _ & Ek' & _). rewrite (renamed_kind _ _ R0), Ek' in Ekc. injection Ekc as -> _.
        destruct (map_children_of f n0 d false MDict ty' dc c0 Gc' T0) as (_ & _ & Kec & A).
        assert (X : exists e0, In e0 (tcs c0) /\ ekey e0 = ekey e' /\ thash s (etree e0) = thash s (etree e')).
        { destruct R0 as [-> | (m & ->)]; [exists e'; auto|]. unfold rename in He'. rewrite ren_cs in He'. apply in_map_iff in He' as ([[k0 m0] c2] & <- & He0).
          exists (k0, m0, c2). split; auto. split; [reflexivity|]. cbn [ren_entry etree snd]. symmetry. apply thash_ren. }
        destruct X as (e0 & He0 & Ke0 & Et0). destruct (A e0 He0) as (z0 & tz0 & k0 & x0 & c2 & Hz0 & Tz0 & Hx0 & T2 & E2 & R2).
        rewrite Ke0, Ke in Hz0. exists z0. split; auto.
        assert (HH : heq (thash s tz) (thash s tz0) = true).
        { apply heq_trans with (thash s c1); [now apply teq_heq|]. rewrite <- (renamed_hash _ _ R1). apply heq_trans with (thash s (etree e')); [exact Eh|]. rewrite <- Et0, (renamed_hash _ _ R2). rewrite heq_sym. now apply teq_heq. }
        apply (good_same f (S d) z z0 tz tz0 (good_val _ _ _ _ _ Gx Hz) (good_val _ _ _ _ _ Gc Hz0)); auto. }
      destruct E0 as (z0 & Hz0 & Id0).
      assert (HD : has_key key D). { apply DK. exists c. split; auto. split; auto. rewrite NDc. now apply KK. }
      apply in_map_iff in HD as ([key' u] & Ek & Hu). cbn [fst] in Ek. subst key'.
      destruct (DV key u Hu) as (c' & Hc' & Tc' & Hu').
      destruct (good_td (S f) d l chs c' F Hc' Tc') as (xc2 & tyc2 & dc2 & Hxc2 & Gc2 & -> & Kc2 & Ekc2 & _). assert (NDc2 : node_data c' = dc2) by (unfold node_data; now rewrite Ekc2). rewrite NDc2 in Hu'.
      assert (Sx : In dx (string_dicts l)) by (apply string_dicts_In; eauto).
      assert (Sc : In dc (string_dicts l)) by (apply string_dicts_In; eauto).
      assert (Sc2 : In dc2 (string_dicts l)) by (apply string_dicts_In; eauto).
      assert (Id1 : ty_id (type_of u) = ty_id (type_of z0)).
      { destruct (good_rows k t l dc2 dc key u z0 G St Sc2 Sc Hu' Hz0) as [_ N1]. destruct (good_rows k t l dc dc2 key z0 u G St Sc Sc2 Hz0 Hu') as [_ N2].
        rewrite <- NDc in Hz0. rewrite <- NDc2 in Hu'. destruct (DT key c' c u z0 Hc' Tc' Hc Tc Hu' Hz0) as [Eq|[A B]]; [auto|].
        destruct A as [A|A], B as [B|B]; try congruence; exfalso; [apply N1|apply N2]; auto. }
      assert (Cu : covers u z). { apply (good_rows k t l dc2 dx key u z G St Sc2 Sx Hu' Hz). congruence. }
      assert (He : In key (map ekey (tcs tD))). { rewrite KsD. change key with (fst (key, u)). now apply in_map. }
      apply in_map_iff in He as (e & <- & He). exists (child_fits s e). split; [now apply in_map|]. split; [reflexivity|]. cbn [child_fits snd].
      eapply (child_fits_value f nD d false MDict ty_dict D tD e u y GD TD He Hu). intros tu (nu & Tu). eapply (IH f nu (S d) false u tu y); [lia|exact (good_val _ _ _ _ _ GD Hu)| |exact Tu].
      eapply covers_trans; [apply le_n|exact Cu|exact Cz].
    - intros key Hr. apply Kw, KK. rewrite <- NDc. now apply (DR key).
  Qed.

  Lemma fits_instance name d root v t w : is_instance v -> covers v w -> leaf name d root NInst (type_of v) = Ok t -> fits s t w.
  Proof.
    intros I C H. unfold leaf in H. destruct (is_compatible name); [|discriminate]. injection H as <-. rewrite fits_node. cbn [i_kind i_type]. right. unfold class_accepts. right. right. left.
    inversion C; subst; try contradiction; congruence.
  Qed.

  Theorem build_fits : forall f name d root v t w, good v -> covers v w -> build s ord f name d root v = Ok t -> fits s t w.
  Proof.
    induction f as [f IH] using lt_wf_ind. intros name d root v t w G C H.
    assert (Refl : forall x, (forall k t l, x <> VSeq k t l) -> (forall k t d, x <> VMap k t d) -> (forall f, x <> VFun f) -> ~ is_instance x -> covers x w -> w = x).
    { intros x A B Nf I Cx. inversion Cx; subst; auto; try contradiction; exfalso; [eapply Nf | eapply A | eapply A | eapply B]; reflexivity. }
    assert (Leaf : forall k ty, leaf name d root k ty = Ok t -> t = Node (Info name d 0 root k ty) []).
    { intros k ty L. unfold leaf in L. destruct (is_compatible name); congruence. }
    destruct v as [x|t0|fn|m n|u|u|u dt|k t0 l|k t0 kvs].
    - destruct f; cbn [build] in H; eapply fits_instance; eauto; exact I.
    - destruct f; cbn [build] in H; eapply fits_instance; eauto; exact I.
    - assert (Ew : exists g, w = VFun g /\ same_function fn g) by (inversion C; subst; try contradiction; eauto using same_function_refl).
      destruct f; cbn [build] in H; apply Leaf in H; subst t; exact Ew.
    - rewrite (Refl (VClass m n)); auto; try discriminate. destruct f; cbn [build] in H; apply Leaf in H; subst t; rewrite fits_node; cbn; eauto.
    - rewrite (Refl (VModule u)); auto; try discriminate. destruct f; cbn [build] in H; apply Leaf in H; subst t; rewrite fits_node; cbn; eauto.
    - rewrite (Refl (VIO u)); auto; try discriminate. destruct f; cbn [build] in H; apply Leaf in H; subst t; rewrite fits_node; cbn; eauto.
    - rewrite (Refl (VNdarray u dt)); auto; try discriminate. destruct f; cbn [build] in H; apply Leaf in H; subst t; rewrite fits_node; cbn; eauto.
    - (* sequences *)
      destruct f as [|f]; [cbn [build] in H; destruct (negb (is_compatible name)); discriminate|].
      destruct (covers_seq_inv _ _ _ _ C) as (l' & -> & Cl & Ct).
      assert (IH' : forall f' name d root v t w, f' <= f -> good v -> covers v w -> build s ord f' name d root v = Ok t -> fits s t w) by (intros; eapply (IH f'); eauto; lia).
      assert (Dk : (k = KTuple /\ s_tuple s = TFixed) \/ unfixed k) by (unfold unfixed; destruct k, (s_tuple s); auto; right; intros [? ?]; discriminate).
      destruct Dk as [[-> Et]|U].
      + destruct (tuple_children_of f name d root t0 l t G Et H) as (Ek & Ety & chs & FA & CS). specialize (Ct eq_refl).
        assert (F : from_good f (S d) l chs).
        { clear -FA G good_el. assert (Q : forall x, In x l -> good x) by (intros; eapply good_el; eauto). clear G. induction FA as [|x c l chs (c0 & T & R) H IH]; intros c1 Hc; [destruct Hc|]. destruct Hc as [<-|Hc].
          - exists x, c0. split; [now left|]. split; [apply Q; now left|]. auto.
          - destruct (IH (fun x Hx => Q x (or_intror Hx)) c1 Hc) as (x1 & c2 & Hx & Gx & T1 & R1). exists x1, c2. split; [now right|]. auto. }
        destruct t as [i cs]. unfold tkind in Ek. cbn [ti tcs] in *. rewrite fits_node, Ek. cbv zeta. rewrite Ety. clear Ety. exists l'. split; auto. unfold seq_fits. rewrite Et.
        assert (Q : Forall2 (fun c y => fits s c y) (map etree cs) l').
        { assert (Base : forall x c y, In x l -> (exists c0, tree_of f (S d) x c0 /\ renamed c c0) -> covers x y -> fits s c y).
          { intros x c y Hx (c0 & (n0 & T0) & R0) Cy. apply (renamed_fits _ _ y R0). eapply (IH' f); [lia|exact (good_el _ _ _ _ G Hx)|exact Cy|exact T0]. }
          destruct CS as [-> | (D & M & tD & MC & ->)].
          - assert (Bl : forall x, In x l -> In x l) by auto. revert Bl. generalize l at 2 as l0. intros l0 Bl. 
            assert (Gen : forall l1 chs1 l1', Forall2 (fun x c => exists c0, tree_of f (S d) x c0 /\ renamed c c0) l1 chs1 -> Forall2 covers l1 l1' -> incl l1 l -> Forall2 (fun c y => fits s c y) chs1 l1').
            { intros l1 chs1 l1' FA1. revert l1'. induction FA1 as [|x c l1 chs1 T FA1 IHl]; intros l1' Ct1 Hi; inversion Ct1; subst; constructor.
              - eapply Base; eauto. apply Hi. now left.
              - apply IHl; auto. intros z Hz. apply Hi. now right. }
            eapply Gen; eauto. apply incl_refl.
          - assert (Gen : forall l1 chs1 l1', Forall2 (fun x c => exists c0, tree_of f (S d) x c0 /\ renamed c c0) l1 chs1 -> Forall2 covers l1 l1' -> incl l1 l -> incl chs1 chs ->
              Forall2 (fun c y => fits s c y) (map (fun c => if is_td s c then set_meta M tD else c) chs1) l1').
            { intros l1 chs1 l1' FA1. revert l1'. induction FA1 as [|x c l1 chs1 T FA1 IHl]; intros l1' Ct1 Hi Hj; inversion Ct1 as [|? y ? l1'' Cy Ct2]; subst; cbn [map]; constructor.
              - destruct (is_td s c) eqn:Tc; [|eapply Base; eauto; apply Hi; now left]. destruct T as (c0 & T0 & R0).
                eapply (merged_fits f (S d) KTuple t0 l chs D M tD x y IH' G F MC); [apply Hi; now left| |exact Cy].
                exists c0, c. split; auto. split; [apply Hj; now left|]. split; auto. destruct R0 as [-> | (n0 & ->)]; [apply teq_refl|]. rewrite teq_sym. apply teq_rename.
              - apply IHl; auto; intros z Hz; [apply Hi|apply Hj]; now right. }
            eapply Gen; eauto; apply incl_refl. }
        clear -Q. remember (map etree cs) as cl eqn:E. revert cs E. induction Q as [|c y cl l' H Q IH]; intros cs E; destruct cs as [|e cs]; try discriminate; cbn [map]; constructor.
        * cbn [map] in E. injection E as -> _. exact H.
        * apply IH. cbn [map] in E. now injection E.
      + assert (SF : forall ps, seq_fits s k ps l' = (forall x, In x l' -> exists p, In p ps /\ snd p x)).
        { intros ps. unfold seq_fits. unfold unfixed in U. destruct k, (s_tuple s); try reflexivity. exfalso. now apply U. }
        destruct (set_children f name d root k t0 l t G U H) as (Ek & Ety & chs & R & CS).
        pose proof (represents_from_good f (S d) k t0 l chs G R) as F.
        destruct t as [i cs]. unfold tkind in Ek. cbn [ti tcs] in *. rewrite fits_node, Ek. cbv zeta. rewrite Ety. exists l'. split; auto. rewrite SF.
        intros y Hy. destruct (Cl y Hy) as (x & Hx & Cx). destruct R as [A B]. destruct (B x Hx) as (tx & c & Tx & Hc & E).
        assert (Done : forall c0, In c0 (map etree cs) -> fits s c0 y -> exists p, In p (map (child_fits s) cs) /\ snd p y).
        { intros c0 Hc0 Fc. apply in_map_iff in Hc0 as (e & <- & He). exists (child_fits s e). split; [now apply in_map|exact Fc]. }
        assert (Fc : fits s c y).
        { destruct (A c Hc) as (x0 & Hx0 & T0). destruct Tx as (nx & Tx). apply (good_same f (S d) x x0 tx c); [exact (good_el _ _ _ _ G Hx)|exact (good_el _ _ _ _ G Hx0)|exists nx; exact Tx|exact T0|now apply teq_heq|].
          eapply (IH' f); [lia|exact (good_el _ _ _ _ G Hx)|exact Cx|exact Tx]. }
        destruct CS as [CS|(D & M & tD & MC & CS)].
        * apply (Done c); auto. now apply CS.
        * destruct (is_td s c) eqn:Tc.
          -- apply (Done (set_meta M tD)); [apply CS; now right|]. eapply (merged_fits f (S d) k t0 l chs D M tD x y IH' G F MC Hx); auto. exists tx, c. auto.
          -- apply (Done c); auto. apply CS. now left.
    - (* mappings *)
      destruct f as [|f]; [destruct k; cbn [build] in H; try destruct (negb (is_compatible name)); discriminate|].
      destruct (covers_map_inv _ _ _ _ C) as (dw & -> & Kw & Cw).
      destruct (map_children_of f name d root k t0 kvs t G H) as (Ek & Ety & Kc & _).
      assert (V : forall key y, In (key, y) dw -> exists e, In e (tcs t) /\ ekey e = key /\ fits s (etree e) y).
      { intros key y Hy. destruct (Cw key y Hy) as (x & Hx & Cx). assert (He : In key (map ekey (tcs t))) by (rewrite Kc; change key with (fst (key, x)); now apply in_map).
        apply in_map_iff in He as (e & <- & He). exists e. split; auto. split; auto. eapply (child_fits_value f name d root k t0 kvs t e x y G H He Hx).
        intros tx (nx & Tx). eapply (IH f); [lia|exact (good_val _ _ _ _ _ G Hx)|exact Cx|exact Tx]. }
      destruct t as [i cs]. unfold tkind in Ek. cbn [ti tcs] in *. rewrite fits_node, Ek. cbv zeta. rewrite Ety.
      assert (Pl : plain_map_fits (map (child_fits s) cs) dw).
      { intros key y Hy. destruct (V key y Hy) as (e & He & Ke & Fe). split; exists (child_fits s e); (split; [now apply in_map|]); cbn [child_fits fst snd]; congruence || auto. }
      destruct k; exists dw; (split; [reflexivity|]); auto. destruct (is_typed_dict s (init_meta kvs)); auto. split.
      + intros key y Hy. destruct (V key y Hy) as (e & He & Ke & Fe). exists (child_fits s e). split; [now apply in_map|]. split; auto.
      + intros key Hr. apply Kw. destruct (meta_ok_init kvs) as [MO MN]. destruct (is_hidden key) eqn:Hh; [apply hidden_doc in Hh; rewrite (MN key Hh) in Hr; discriminate|].
        apply hidden_false in Hh. destruct (MO key Hh) as (_ & _ & Q & _). now apply Q.
  Qed.

  (** A dict with string keys inside a sequence has a typed dict among the children that accepts it. *)
  Lemma set_meta_td M tD f d D : tree_of f d (VMap MDict ty_dict D) tD -> string_keys D -> is_td_strategy s = true -> string_keys (m_data M) -> is_td s (set_meta M tD) = true.
  Proof.
    intros TD KD St KM. destruct (td_value f d _ tD TD (tree_td _ _ _ _ _ _ TD eq_refl KD St)) as (ty & kvs & _ & _ & _ & Ek & _). unfold set_meta. rewrite Ek.
    unfold is_td, node_is_typed_dict, is_typed_dict. cbn [tkind ti i_kind]. rewrite St, andb_true_r. now apply string_keys_all.
  Qed.
  Lemma seq_td f name d root k t l tr ty kvs : good (VSeq k t l) -> build s ord f name d root (VSeq k t l) = Ok tr -> is_td_strategy s = true ->
    In (VMap MDict ty kvs) l -> string_keys kvs -> exists c, In c (map etree (tcs tr)) /\ is_td s c = true /\ fits s c (VMap MDict ty kvs).
  Proof.
    intros G H St Hx K. destruct f as [|f]; [cbn [build] in H; destruct (negb (is_compatible name)); discriminate|]. set (x := VMap MDict ty kvs) in *.
    assert (IH' : forall f' name d root v t w, f' <= f -> good v -> covers v w -> build s ord f' name d root v = Ok t -> fits s t w) by (intros; eapply build_fits; eauto).
    assert (Dk : (k = KTuple /\ s_tuple s = TFixed) \/ unfixed k) by (unfold unfixed; destruct k, (s_tuple s); auto; right; intros [? ?]; discriminate).
    destruct Dk as [[-> Et]|U].
    - destruct (tuple_children_of f name d root t l tr G Et H) as (_ & _ & chs & FA & CS).
      assert (F : from_good f (S d) l chs).
      { clear -FA G good_el. assert (Q : forall x, In x l -> good x) by (intros; eapply good_el; eauto). clear G. induction FA as [|x0 c l chs (c0 & T & R) H IH]; intros c1 Hc; [destruct Hc|]. destruct Hc as [<-|Hc].
        - exists x0, c0. split; [now left|]. split; [apply Q; now left|]. auto.
        - destruct (IH (fun x Hx => Q x (or_intror Hx)) c1 Hc) as (x1 & c2 & Hx & Gx & T1 & R1). exists x1, c2. split; [now right|]. auto. }
      assert (Ex : exists c c0, In c chs /\ tree_of f (S d) x c0 /\ renamed c c0).
      { clear -FA Hx. induction FA as [|y c l chs (c0 & T & R) H IH]; [destruct Hx|]. destruct Hx as [->|Hx]; [exists c, c0; split; [now left|auto]|]. destruct (IH Hx) as (c1 & c2 & A & B). exists c1, c2. split; [now right|auto]. }
      destruct Ex as (c & c0 & Hc & T0 & R0). pose proof (tree_td f (S d) x ty kvs c0 T0 eq_refl K St) as Td0.
      assert (Tc : is_td s c = true).
      { eapply td_teq; [| exact Td0 |]; [|rewrite teq_sym; destruct R0 as [-> | (n0 & ->)]; [apply teq_refl|apply teq_rename]].
        destruct R0 as [-> | (n0 & ->)]; [eapply tree_has_cs; eauto|]. apply has_cs_ren. eapply tree_has_cs; eauto. }
      destruct CS as [CS|(D & M & tD & MC & CS)].
      + exists c. rewrite CS. split; auto. split; auto. apply (renamed_fits _ _ x R0). destruct T0 as (n0 & T0). eapply (IH' f); [lia|exact (good_el _ _ _ _ G Hx)|apply cov_refl|exact T0].
      + exists (set_meta M tD). rewrite CS. split; [apply in_map_iff; exists c; now rewrite Tc|]. destruct MC as (TD & GD & KD & MD). split; [eapply set_meta_td; eauto; apply MD|].
        eapply (merged_fits f (S d) KTuple t l chs D M tD x x IH' G F); [repeat split; auto; apply MD|exact Hx| |apply cov_refl].
        exists c0, c. split; auto. split; auto. split; auto. destruct R0 as [-> | (n0 & ->)]; [apply teq_refl|]. rewrite teq_sym. apply teq_rename.
    - destruct (set_children f name d root k t l tr G U H) as (_ & _ & chs & R & CS). pose proof (represents_from_good f (S d) k t l chs G R) as F.
      destruct R as [A B]. destruct (B x Hx) as (tx & c & Tx & Hc & E). pose proof (tree_td f (S d) x ty kvs tx Tx eq_refl K St) as Td.
      destruct (A c Hc) as (x0 & Hx0 & T0). assert (Tc : is_td s c = true) by (eapply td_teq; [eapply tree_has_cs; eauto|exact Td|exact E]).
      destruct CS as [CS|(D & M & tD & MC & CS)].
      + exists c. split; [now apply CS|]. split; auto. destruct Tx as (nx & Tx). apply (good_same f (S d) x x0 tx c); [exact (good_el _ _ _ _ G Hx)|exact (good_el _ _ _ _ G Hx0)|exists nx; exact Tx|exact T0|now apply teq_heq|].
        eapply (IH' f); [lia|exact (good_el _ _ _ _ G Hx)|apply cov_refl|exact Tx].
      + exists (set_meta M tD). split; [apply CS; now right|]. pose proof MC as (TD & GD & KD & MD). split; [eapply set_meta_td; eauto; apply MD|].
        eapply (merged_fits f (S d) k t l chs D M tD x x IH' G F MC Hx); [|apply cov_refl]. exists tx, c. auto.
  Qed.
End Sound.
