(** Equal hash keys: trees of tidy data with equal hash keys accept the same values. *)
From Coq Require Import Ascii String List Bool Arith ZArith Lia Permutation.
From Verif Require Import PyStr PyStrFacts Utils Strategies Dispatch Values Tree Build TreeFacts SpecNames NamesFacts SpecData SpecMerge BuildFacts BuildInd TotalFacts TreeProofs SeqFacts FloatFacts MergeFacts GroupFacts SpecTypes SpecSound SoundTree SoundBuild.
Import ListNotations.
Local Open Scope string_scope.
Local Open Scope nat_scope.

Lemma td_strategy_iff s : is_td_strategy s = true <-> s_dict s = DTypedDict.
Proof. unfold is_td_strategy. destruct (s_dict s); split; congruence. Qed.

Lemma exhaust_same : forall n v, vdepth v <= n -> (forall x, sub x v -> match x with VSeq KIter _ _ => False | _ => True end) -> exhaust v = v.
Proof.
  induction n as [|n IH]; intros v Hn H.
  - destruct v as [| | | | | | |k t l|k t kvs]; auto; cbn [vdepth] in Hn; lia.
  - destruct v as [| | | | | | |k t l|k t kvs]; auto.
    + assert (E : map exhaust l = l).
      { assert (Hl : forall x, In x l -> vdepth x <= n) by (intros x Hx; eapply vdepth_seq; eauto).
        assert (Hs : forall x y, In x l -> sub y x -> match y with VSeq KIter _ _ => False | _ => True end) by (intros x y Hx Hy; apply H; eapply sub_seq; eauto).
        clear - IH Hl Hs. induction l as [|x l IHl]; auto. cbn [map]. f_equal; [apply IH; [apply Hl; now left | intros y; apply Hs; now left] | apply IHl; intros; [apply Hl | eapply Hs; [|eauto]]; now right]. }
      pose proof (H _ (sub_refl _)) as K. cbn [exhaust]. destruct k; rewrite ?E; auto. contradiction.
    + assert (E : map (fun kv => (fst kv, exhaust (snd kv))) kvs = kvs).
      { assert (Hl : forall kv, In kv kvs -> vdepth (snd kv) <= n) by (intros [k0 x] Hx; eapply vdepth_map; eauto).
        assert (Hs : forall kv y, In kv kvs -> sub y (snd kv) -> match y with VSeq KIter _ _ => False | _ => True end) by (intros [k0 x] y Hx Hy; apply H; eapply sub_map; eauto).
        clear - IH Hl Hs. induction kvs as [|[k0 x] kvs IHl]; auto. cbn [map fst snd]. f_equal; [f_equal; apply IH; [apply (Hl (k0, x)); now left | intros y Hy; apply (Hs (k0, x)); [now left|exact Hy]] | apply IHl; intros; [apply Hl | eapply Hs; [|eauto]]; now right]. }
      cbn [exhaust]. now rewrite E.
Qed.

Lemma Forall2_map_inv {A B} (f : A -> B) (P : B -> B -> Prop) : forall l m, Forall2 P (map f l) (map f m) -> Forall2 (fun x y => P (f x) (f y)) l m.
Proof. induction l as [|x l IH]; intros [|y m] H; cbn [map] in H; inversion H; subst; constructor; auto. Qed.

Section Plain.
  Variable s : strategies.
  Variable ord : set_order.
  Hypothesis Hord : set_like ord.
  Variable v0 : pyval.
  Hypothesis Hv : tidy s v0.

  (** The values that trees are built from: the parts of [v0] and merged dicts. *)
  Definition part (x : pyval) : Prop :=
    sub x v0 \/
    exists D, x = VMap MDict ty_dict D /\ NoDup (map fst D) /\ (forall k y, In (k, y) D -> sub y v0 /\ key_in k v0) /\
      (D = [] -> exists t, sub (VMap MDict t []) v0) /\ is_td_strategy s = true /\
      exists k t l, sub (VSeq k t l) v0 /\ forall key y, In (key, y) D -> exists d, In d (string_dicts l) /\ In (key, y) d.

  Lemma part_sub k t l : part (VSeq k t l) -> sub (VSeq k t l) v0.
  Proof. intros [H|(D & E & _)]; auto. discriminate. Qed.
  Lemma part_leaf x : is_leaf x -> part x -> sub x v0.
  Proof. intros L [H|(D & -> & _)]; auto. destruct L. Qed.
  Lemma part_el k t l x : part (VSeq k t l) -> In x l -> part x.
  Proof. intros H Hx. left. eapply sub_trans; [|eapply part_sub; exact H]. eapply sub_seq; [exact Hx|apply sub_refl]. Qed.
  Lemma part_val k t d key x : part (VMap k t d) -> In (key, x) d -> part x.
  Proof.
    intros [H|(D & E & _ & A & _)] Hx; left.
    - eapply sub_trans; [|exact H]. eapply sub_map; [exact Hx|apply sub_refl].
    - injection E as -> -> ->. now apply (A key).
  Qed.
  Lemma part_key k t d key x : part (VMap k t d) -> In (key, x) d -> key_in key v0.
  Proof.
    intros [H|(D & E & _ & A & _)] Hx; [exists k, t, d, x; auto|]. injection E as -> -> ->. now apply (A key x).
  Qed.
  Lemma part_limit k t l : part (VSeq k t l) -> limit s l = l.
  Proof. intros H. apply part_sub in H. destruct (tidy_limit s v0 Hv) as [A _]. eauto. Qed.
  Lemma part_data k t d : part (VMap k t d) -> k = MProxy \/ is_td_strategy s = false -> limit s d = d.
  Proof.
    intros H N. destruct H as [H|(D & E & _ & _ & _ & St & _)].
    - destruct (tidy_limit s v0 Hv) as [_ A]. apply (A k t d H). destruct N as [N|N]; auto. right. intros F. apply td_strategy_iff in F. congruence.
    - injection E as -> -> ->. destruct N; congruence.
  Qed.
  Lemma part_once k t d : part (VMap k t d) -> NoDup (map fst d).
  Proof. intros [H|(D & E & N & _)]; [eapply (tidy_unique s v0 Hv); eauto|]. injection E as -> -> ->. exact N. Qed.
  Lemma part_keys k t d key x : part (VMap k t d) -> In (key, x) d -> ~ doc_key key.
  Proof. intros H Hx. apply (tidy_nodoc s v0 Hv). eapply part_key; eauto. Qed.
  Lemma part_dict k t d : part (VMap k t d) -> t = map_class k.
  Proof.
    intros [H|(D & E & _)]; [|injection E as -> -> ->; auto]. destruct (tidy_plain s v0 Hv) as [A _]. exact (A _ H).
  Qed.
  Lemma part_maps k t d k' t' d' : part (VMap k t d) -> part (VMap k' t' d') -> ~ typed_map s k d -> ~ typed_map s k' d' -> k = k'.
  Proof.
    assert (M : forall k t d, part (VMap k t d) -> ~ typed_map s k d -> sub (VMap k t d) v0).
    { clear. intros k t d [H|(D & E & _ & _ & _ & St & k0 & t0 & l & _ & R)] N; auto. exfalso. injection E as -> -> ->. apply N. split; auto. split; [now apply td_strategy_iff|].
      intros key Hkey. apply in_map_iff in Hkey as ([key' y] & <- & Hy). destruct (R _ _ Hy) as (d & Hd & Hk). apply string_dicts_In in Hd as (K & _). apply K. apply in_map_iff. now exists (key', y). }
    intros A B N N'. destruct (tidy_plain s v0 Hv) as (_ & _ & Q & _). exact (Q k t d k' t' d' (M _ _ _ A N) (M _ _ _ B N') N N').
  Qed.
  Lemma sub_exhaust_same x : sub x v0 -> exhaust x = x.
  Proof.
    intros H. eapply exhaust_same; [apply le_n|]. intros y Hy. assert (Sy : sub y v0) by (eapply sub_trans; eauto). destruct (tidy_plain s v0 Hv) as [A _]. specialize (A y Sy).
    destruct y as [| | | | | | |k t l|k t kvs]; auto. destruct k; auto.
  Qed.
  Lemma part_exhaust x : part x -> exhaust x = x.
  Proof.
    intros [H|(D & -> & _ & A & _)]; [now apply sub_exhaust_same|]. cbn [exhaust]. f_equal.
    assert (G : forall kv, In kv D -> exhaust (snd kv) = snd kv) by (intros [k x] Hx; apply sub_exhaust_same; now apply (A k x)).
    clear A. induction D as [|[k x] D IH]; auto. cbn [map fst snd]. f_equal; [f_equal; apply (G (k, x)); now left | apply IH; intros; apply G; now right].
  Qed.
  Lemma part_merge k t l D : is_td_strategy s = true -> part (VSeq k t l) -> NoDup (map fst D) -> string_dicts l <> [] ->
    (forall key x, In (key, x) D -> exists d, In d (string_dicts l) /\ In (key, x) d) ->
    (forall d key, In d (string_dicts l) -> has_key key d -> has_key key D) -> part (VMap MDict ty_dict D).
  Proof.
    intros St H N Ne A B. apply part_sub in H. right. exists D. split; auto. split; auto. split; [|split; [|split; [auto|eauto]]].
    - intros key x Hx. destruct (A key x Hx) as (d & Hd & Hx'). apply string_dicts_In in Hd as (_ & ty & Hd).
      assert (Sd : sub (VMap MDict ty d) v0) by (eapply sub_trans; [eapply sub_seq; [exact Hd|apply sub_refl]|exact H]). split.
      + eapply sub_trans; [eapply sub_map; [exact Hx'|apply sub_refl]|exact Sd].
      + exists MDict, ty, d, x. auto.
    - intros ->. destruct (string_dicts l) as [|d ds] eqn:E; [congruence|]. assert (Hd : In d (string_dicts l)) by (rewrite E; now left).
      assert (d = []) as ->. { destruct d as [|[key x] d]; auto. exfalso. destruct (B ((key, x) :: d) key (or_introl eq_refl) (or_introl eq_refl)). }
      apply string_dicts_In in Hd as (_ & ty & Hd). exists ty. eapply sub_trans; [eapply sub_seq; [exact Hd|apply sub_refl]|exact H].
  Qed.

  Notation tree_of := (tree_of s ord).
  Notation merged_case := (merged_case s ord part).

  (** ** Sequences, sets and tuples alike *)
  Definition plain_child (f d : nat) (l : list pyval) (c : tree) : Prop := exists x c0, In x l /\ tree_of f d x c0 /\ renamed c c0.
  Definition unmerged_seq (f d : nat) (l : list pyval) (cs : list tree) : Prop :=
    (forall c, In c cs -> plain_child f d l c) /\
    (is_td_strategy s = true -> forall dx, In dx (string_dicts l) -> exists c, In c cs /\ is_td s c = true /\ forall k, child_key c k <-> has_key k dx).
  Definition merged_seq (f d : nat) (l : list pyval) (cs : list tree) (D : dict) (M : meta) (tD : tree) : Prop :=
    tree_of f d (VMap MDict ty_dict D) tD /\ part (VMap MDict ty_dict D) /\ string_keys D /\ is_td_strategy s = true /\ string_keys (m_data M) /\
    string_dicts l <> [] /\
    (forall k, has_key k D <-> in_some (string_dicts l) k) /\
    (forall k, dget k (m_required M) = Some true <-> in_all (string_dicts l) k) /\
    In (set_meta M tD) cs /\
    (forall c, In c cs -> (plain_child f d l c /\ is_td s c = false) \/ c = set_meta M tD).

  Lemma merged_keys_iff f d k t l chs D M tD : part (VSeq k t l) -> from_good s ord part f d l chs -> merged_case f d chs D M tD -> is_td_strategy s = true ->
    (forall x ty kvs, In x l -> x = VMap MDict ty kvs -> string_keys kvs -> exists c, In c chs /\ is_td s c = true /\ (forall key, has_key key (node_data c) <-> has_key key kvs)) ->
    string_dicts l <> [] /\ (forall k, has_key k D <-> in_some (string_dicts l) k) /\ (forall k, dget k (m_required M) = Some true <-> in_all (string_dicts l) k).
  Proof.
    intros P F (_ & _ & _ & (c1 & Hc1 & T1) & DK & _ & DR & _) St All.
    assert (Src : forall c, In c chs -> is_td s c = true -> exists d0, In d0 (string_dicts l) /\ node_data c = d0 /\ forall k, has_key k d0 -> ~ doc_key k).
    { intros c Hc T. destruct (good_td s ord part part_keys f d l chs c F Hc T) as (x & ty & kvs & Hx & Gx & -> & K & Ek & _ & _). exists kvs. split; [apply string_dicts_In; eauto|]. split; [unfold node_data; now rewrite Ek|].
      intros k0 Hk. apply in_map_iff in Hk as ([k1 y] & <- & Hy). eapply part_keys; eauto. }
    assert (Ne : string_dicts l <> []) by (destruct (Src c1 Hc1 T1) as (d0 & Hd & _); intros N; rewrite N in Hd; destruct Hd).
    assert (Dst : forall d0, In d0 (string_dicts l) -> exists c, In c chs /\ is_td s c = true /\ forall key, has_key key (node_data c) <-> has_key key d0).
    { intros d0 Hd. apply string_dicts_In in Hd as (K & ty & Hd). eapply All; eauto. }
    split; auto. split; intros k0.
    - rewrite DK. split.
      + intros (c & Hc & T & Hk). destruct (Src c Hc T) as (d0 & Hd & E & Nd). rewrite E in Hk. split; [now apply Nd|]. eauto.
      + intros (_ & d0 & Hd & Hk). destruct (Dst d0 Hd) as (c & Hc & T & E). exists c. split; auto. split; auto. now apply E.
    - rewrite DR. split.
      + intros A. destruct (Src c1 Hc1 T1) as (d1 & Hd1 & E1 & Nd1). split; [apply Nd1; rewrite <- E1; auto|]. split; auto. intros d0 Hd. destruct (Dst d0 Hd) as (c & Hc & T & E). apply E. auto.
      + intros (_ & _ & A) c Hc T. destruct (Src c Hc T) as (d0 & Hd & -> & _). auto.
  Qed.

  Lemma seq_children f name d root k t l tr : part (VSeq k t l) -> build s ord (S f) name d root (VSeq k t l) = Ok tr ->
    tkind tr = NSeq k /\ i_type (ti tr) = t /\ (l <> [] -> tcs tr <> []) /\
    (unmerged_seq f (S d) l (map etree (tcs tr)) \/ exists D M tD, merged_seq f (S d) l (map etree (tcs tr)) D M tD).
  Proof.
    intros P H. assert (Dk : fixed_kind s k \/ unfixed s k) by (unfold unfixed, fixed_kind; destruct k, (s_tuple s); auto; right; intros [? ?]; discriminate).
    destruct Dk as [[-> Et]|U].
    - destruct (tuple_children_of s ord part part_el part_limit part_keys part_exhaust part_merge f name d root t l tr P Et H) as (Ek & Ety & chs & FA & CS).
      split; auto. split; auto.
      assert (FG : from_good s ord part f (S d) l chs).
      { clear -FA P Hv. assert (Q : forall x, In x l -> part x) by (intros; eapply part_el; eauto). clear P. induction FA as [|x c l chs (c0 & T & R) H IH]; intros c1 Hc; [destruct Hc|]. destruct Hc as [<-|Hc].
        - exists x, c0. split; [now left|]. split; [apply Q; now left|]. auto.
        - destruct (IH (fun x Hx => Q x (or_intror Hx)) c1 Hc) as (x1 & c2 & Hx & Gx & T1 & R1). exists x1, c2. split; [now right|]. auto. }
      assert (PC : forall c, In c chs -> plain_child f (S d) l c) by (intros c Hc; destruct (FG c Hc) as (x & c0 & Hx & _ & T & R); exists x, c0; auto).
      assert (All : is_td_strategy s = true -> forall x ty kvs, In x l -> x = VMap MDict ty kvs -> string_keys kvs -> exists c, In c chs /\ is_td s c = true /\ (forall key, child_key c key <-> has_key key kvs) /\ (forall key, has_key key (node_data c) <-> has_key key kvs)).
      { intros St x ty kvs Hx -> K. assert (X : exists c c0, In c chs /\ tree_of f (S d) (VMap MDict ty kvs) c0 /\ renamed c c0).
        { clear -FA Hx. induction FA as [|x c l chs (c0 & T & R) H IH]; [destruct Hx|]. destruct Hx as [->|Hx]; [exists c, c0; split; [now left|auto]|]. destruct (IH Hx) as (c1 & c2 & A & B). exists c1, c2. split; [now right|auto]. }
        destruct X as (c & c0 & Hc & T & R). pose proof (tree_td s ord f (S d) _ ty kvs c0 T eq_refl K St) as T0.
        assert (Tc : is_td s c = true) by (rewrite (renamed_td s _ _ R); exact T0). exists c. split; auto. split; auto.
        destruct (td_value s ord f (S d) _ c0 T T0) as (ty' & kvs' & E' & _ & _ & Ek0 & _). injection E' as <- <-.
        destruct (good_td s ord part part_keys f (S d) l chs c FG Hc Tc) as (_ & _ & kv2 & _ & _ & _ & _ & Ek2 & Ck & _). rewrite (renamed_kind _ _ R), Ek0 in Ek2. injection Ek2 as <-.
        split; auto. intros key. unfold node_data. rewrite (renamed_kind _ _ R), Ek0. reflexivity. }
      destruct CS as [CS|(D & M & tD & MC & CS)].
      + split; [intros Nl F; rewrite F in CS; cbn [map] in CS; subst chs; inversion FA; congruence|]. left. rewrite CS. split; auto.
        intros St dx Hd. apply string_dicts_In in Hd as (K & ty & Hd). destruct (All St _ ty dx Hd eq_refl K) as (c & A & B & C & _). eauto.
      + split; [intros Nl F; rewrite F in CS; destruct chs; [inversion FA; congruence|discriminate]|]. right. exists D, M, tD.
        assert (St : is_td_strategy s = true) by (destruct MC as (_ & _ & _ & (c1 & Hc1 & T1) & _); now apply td_is_strategy in T1).
        destruct (merged_keys_iff f (S d) KTuple t l chs D M tD P FG MC St) as (A & B & C).
        { intros x ty kvs Hx E K. destruct (All St x ty kvs Hx E K) as (c & A1 & A2 & _ & A3). eauto. }
        destruct MC as (M1 & M2 & M3 & (c1 & Hc1 & T1) & _ & _ & _ & M7 & _). rewrite CS.
        split; [auto|]. split; [auto|]. split; [auto|]. split; [auto|]. split; [auto|]. split; [auto|]. split; [auto|]. split; [auto|]. split.
        * apply in_map_iff. exists c1. rewrite T1. auto.
        * intros c Hc. apply in_map_iff in Hc as (c2 & <- & Hc). destruct (is_td s c2) eqn:T2; auto.
    - destruct (set_children s ord Hord part part_el part_limit part_once part_keys part_exhaust part_merge f name d root k t l tr P U H) as (Ek & Ety & chs & R & CS).
      split; auto. split; auto. pose proof (represents_from_good s ord part part_el f (S d) k t l chs P R) as FG.
      assert (PC : forall c, In c chs -> plain_child f (S d) l c) by (intros c Hc; destruct (FG c Hc) as (x & c0 & Hx & _ & T & Rn); exists x, c0; auto).
      assert (Ne : l <> [] -> exists c, In c chs).
      { intros Nl. destruct l as [|x l]; [congruence|]. destruct R as [_ B]. destruct (B x (or_introl eq_refl)) as (tx & c & _ & Hc & _). eauto. }
      destruct CS as [CS|(D & M & tD & MC & CS)].
      + split. { intros Nl F. destruct (Ne Nl) as (c & Hc). apply CS in Hc. rewrite F in Hc. destruct Hc. }
        left. split; [intros c Hc; apply PC; now apply CS|]. intros St dx Hd. apply string_dicts_In in Hd as (K & ty & Hd).
        destruct (represents_all s ord part part_el part_keys f (S d) k t l chs P R St _ ty dx Hd eq_refl K) as (c & Hc & T & Kc). exists c. split; [now apply CS|]. split; auto.
        destruct (good_td s ord part part_keys f (S d) l chs c FG Hc T) as (_ & _ & kv2 & _ & _ & _ & _ & Ek2 & Ck & _). intros key. rewrite Ck, <- Kc. unfold node_data. now rewrite Ek2.
      + split. { intros Nl F. assert (Hm : In (set_meta M tD) (map etree (tcs tr))) by (apply CS; now right). rewrite F in Hm. destruct Hm. }
        right. exists D, M, tD. assert (St : is_td_strategy s = true) by (destruct MC as (_ & _ & _ & (c1 & Hc1 & T1) & _); now apply td_is_strategy in T1).
        destruct (merged_keys_iff f (S d) k t l chs D M tD P FG MC St) as (A & B & C).
        { exact (represents_all s ord part part_el part_keys f (S d) k t l chs P R St). }
        destruct MC as (M1 & M2 & M3 & (c1 & Hc1 & T1) & _ & _ & _ & M7 & _).
        split; [auto|]. split; [auto|]. split; [auto|]. split; [auto|]. split; [auto|]. split; [auto|]. split; [auto|]. split; [auto|]. split.
        * apply CS. now right.
        * intros c Hc. apply CS in Hc as [[Hc T]|E]; auto.
  Qed.

  (** ** Hash keys *)
  Lemma thash_top t : match thash s t with HMap _ _ | HTd _ _ => False | _ => True end.
  Proof.
    destruct t as [i cs]. cbn [thash]. destruct (i_kind i) as [|fn| | | | |k| |d m]; auto.
    - unfold fun_hash. destruct (f_sig fn) as [[sig n]|]; auto. destruct (f_lambda fn); exact I.
    - destruct k; try exact I. destruct (s_tuple s); exact I.
    - destruct (is_typed_dict s m); exact I.
  Qed.
  Definition leaf_hash (x : pyval) : hk := match x with VFun f => fun_hash f | _ => HTy (ty_id (type_of x)) end.
  Lemma tree_leaf f d x t : tree_of f d x t -> is_leaf x -> thash s t = leaf_hash x.
  Proof.
    intros (name & H) L.
    destruct x; try contradiction; destruct f; cbn [build] in H; unfold leaf in H; destruct (is_compatible name); try discriminate; injection H as <-; reflexivity.
  Qed.
  Definition shash (k : seqkind) (cs : list tree) : hk := match k, s_tuple s with KTuple, TFixed => HTup (map (thash s) cs) | _, _ => HSet (map (thash s) cs) end.
  Lemma tree_seq t k : tkind t = NSeq k -> thash s t = shash k (map etree (tcs t)).
  Proof. destruct t as [i cs]. unfold tkind. cbn [ti tcs thash]. intros ->. unfold shash. rewrite map_map. destruct k, (s_tuple s); reflexivity. Qed.
  Definition entry_hash (td : bool) (e : key * nat * tree) : hk := if td then HTd (ekey e) (thash s (etree e)) else HMap (ty_id (key_type (ekey e))) (thash s (etree e)).
  Lemma tree_map t d m : tkind t = NDict d m -> thash s t = HSet (map (entry_hash (is_typed_dict s m)) (tcs t)).
  Proof. destruct t as [i cs]. unfold tkind. cbn [ti tcs thash]. intros ->. destruct (is_typed_dict s m); reflexivity. Qed.
  Definition map_kind (k : mapkind) (kvs : list (key * pyval)) : nkind := match k with MProxy => NProxy | MDict => NDict kvs (init_meta kvs) end.
  Lemma tree_mapping t k kvs : tkind t = map_kind k kvs -> thash s t = HSet (map (entry_hash (is_td s t)) (tcs t)).
  Proof.
    destruct k; cbn [map_kind]; intros E.
    - rewrite (tree_map t _ _ E). unfold is_td, node_is_typed_dict. now rewrite E.
    - unfold is_td, node_is_typed_dict. rewrite E. destruct t as [i cs]. unfold tkind in E. cbn [ti tcs thash] in *. rewrite E. reflexivity.
  Qed.
  Lemma shash_cases k cs : (fixed_kind s k /\ shash k cs = HTup (map (thash s) cs)) \/ (~ fixed_kind s k /\ shash k cs = HSet (map (thash s) cs)).
  Proof. unfold shash, fixed_kind. destruct k, (s_tuple s); auto; right; (split; [intros [? ?]; discriminate|reflexivity]). Qed.

  Lemma part_kinds k t l k' t' l' : part (VSeq k t l) -> part (VSeq k' t' l') -> (fixed_kind s k <-> fixed_kind s k') -> k = k' /\ t = t'.
  Proof. intros A B E. destruct (tidy_plain s v0 Hv) as (_ & Q & _). eapply Q; eauto using part_sub. Qed.
  Lemma part_empty k t l k' t' : part (VSeq k t l) -> l = [] -> part (VMap k' t' []) -> fixed_kind s k.
  Proof.
    intros A -> B. apply part_sub in A. destruct (tidy_empty s v0 Hv) as [Q _]. destruct B as [B|(D & E & _ & _ & F & _)].
    - eapply Q; eauto.
    - injection E as -> -> <-. destruct (F eq_refl) as (t1 & B). eapply Q; eauto.
  Qed.
  Lemma part_empty_maps t t' : part (VMap MDict t []) -> part (VMap MProxy t' []) -> False.
  Proof.
    intros A B. destruct (tidy_empty s v0 Hv) as [_ Q]. assert (B' : sub (VMap MProxy t' []) v0) by (destruct B as [B|(D & E & _)]; [exact B|discriminate]).
    destruct A as [A|(D & E & _ & _ & F & _)]; [eapply Q; eauto|]. injection E as -> <-. destruct (F eq_refl) as (t1 & A). eapply Q; eauto.
  Qed.

  Lemma dict_tree f d k t kvs tr : part (VMap k t kvs) -> tree_of (S f) d (VMap k t kvs) tr ->
    tkind tr = map_kind k kvs /\ i_type (ti tr) = t /\ map ekey (tcs tr) = map fst kvs /\
    forall e, In e (tcs tr) -> exists x0 c0, part x0 /\ tree_of f (S d) x0 c0 /\ renamed (etree e) c0.
  Proof.
    intros P (name & H). destruct (map_children_of s ord part part_data part_once part_keys part_merge f name d false k t kvs tr P H) as (A & B & C & D). do 3 (split; auto).
    intros e He. destruct (D e He) as (x & tx & k0 & x0 & c0 & Hx & Tx & Hx0 & T0 & _ & R). exists x0, c0. split; auto. eapply part_val; eauto.
  Qed.
  Lemma dict_td kvs : is_typed_dict s (init_meta kvs) = true <-> is_td_strategy s = true /\ string_keys kvs.
  Proof. unfold is_typed_dict. cbn [m_data init_meta]. rewrite andb_true_iff, string_keys_all. tauto. Qed.

  (** No sequence and no leaf has the hash key of a dict. *)
  Lemma seq_not_dict f d d' k t l k' t' kvs tx ty : part (VSeq k t l) -> part (VMap k' t' kvs) -> tree_of f d (VSeq k t l) tx -> tree_of f d' (VMap k' t' kvs) ty ->
    heq (thash s tx) (thash s ty) = true -> False.
  Proof.
    intros Px Py (n & Tx) Ty E. destruct f as [|f]; [cbn [build] in Tx; destruct (negb (is_compatible n)); discriminate|].
    destruct (seq_children f n d false k t l tx Px Tx) as (Ek & _ & Ne & _). destruct (dict_tree f d' k' t' kvs ty Py Ty) as (Ek' & _ & Kc & _).
    rewrite (tree_seq tx k Ek), (tree_mapping ty _ _ Ek') in E. destruct (shash_cases k (map etree (tcs tx))) as [[Fk Es]|[Fk Es]]; rewrite Es in E; [discriminate|].
    apply heq_set in E as [E1 E2]. apply Fk. destruct l as [|x l].
    - destruct kvs as [|kv kvs]; [eapply part_empty; eauto|]. destruct (tcs ty) as [|e cs]; [discriminate|]. destruct (E2 _ (or_introl eq_refl)) as (h & Hh & Eh).
      apply in_map_iff in Hh as (c & <- & _). pose proof (thash_top c) as Q. exfalso. unfold entry_hash in Eh. destruct (thash s c), (is_td s ty); try discriminate; contradiction.
    - destruct (tcs tx) as [|e cs]; [exfalso; now apply Ne|]. cbn [map] in E1. destruct (E1 _ (or_introl eq_refl)) as (h & Hh & Eh).
      apply in_map_iff in Hh as (c & <- & _). pose proof (thash_top (etree e)) as Q. exfalso. unfold entry_hash in Eh. destruct (thash s (etree e)), (is_td s ty); try discriminate; contradiction.
  Qed.
  Lemma leaf_hash_no_set f d x tx h : part x -> is_leaf x -> tree_of f d x tx -> match h with HTy _ | HStr _ => False | _ => True end -> heq (thash s tx) h = true -> False.
  Proof.
    intros P L T N E. rewrite (tree_leaf f d x tx T L) in E. unfold leaf_hash, fun_hash in E.
    destruct x as [| |fn| | | | | |]; try contradiction; try (destruct h; try discriminate; contradiction). destruct (f_sig fn) as [[p n]|]; [destruct (f_lambda fn)|]; destruct h; try discriminate; contradiction.
  Qed.

  Lemma tree_zero d x t : tree_of 0 d x t -> is_leaf x.
  Proof. intros (n & H). destruct x; try exact I; cbn [build] in H; [destruct (negb (is_compatible n)); discriminate|]. destruct k; try discriminate. destruct (negb (is_compatible n)); discriminate. Qed.
  Lemma dict_hash f d k t kvs tr : part (VMap k t kvs) -> tree_of f d (VMap k t kvs) tr -> exists f', f = S f' /\ match thash s tr with HSet _ => True | _ => False end.
  Proof.
    intros P T. destruct f as [|f]; [apply tree_zero in T; destruct T|]. exists f. split; auto. destruct (dict_tree f d k t kvs tr P T) as (Ek & _). now rewrite (tree_mapping tr _ _ Ek).
  Qed.
  Lemma seq_hash f d k t l tr : part (VSeq k t l) -> tree_of f d (VSeq k t l) tr -> exists f', f = S f' /\ match thash s tr with HSet _ | HTup _ => True | _ => False end.
  Proof.
    intros P T. destruct f as [|f]; [apply tree_zero in T; destruct T|]. exists f. split; auto. destruct T as (n & T). destruct (seq_children f n d false k t l tr P T) as (Ek & _). rewrite (tree_seq tr k Ek).
    destruct (shash_cases k (map etree (tcs tr))) as [[_ ->]|[_ ->]]; exact I.
  Qed.

  (** A tree with the hash key of a typed dict is a typed dict. *)
  Lemma heq_td f d d' x y tx ty : part x -> part y -> tree_of f d x tx -> tree_of f d' y ty -> is_td s tx = true -> heq (thash s tx) (thash s ty) = true -> is_td s ty = true.
  Proof.
    intros Px Py Tx Ty T E. destruct (td_value s ord f d x tx Tx T) as (t & kvs & -> & K & St & Ek & _).
    destruct (dict_hash f d MDict t kvs tx Px Tx) as (f' & -> & Hs).
    assert (L : is_leaf y -> False). { intros L. rewrite heq_sym in E. eapply leaf_hash_no_set; [exact Py|exact L|exact Ty| |exact E]. destruct (thash s tx); auto. }
    destruct y as [| | | | | | |k t' l|k t' kvs']; try (exfalso; apply L; exact I).
    - exfalso. rewrite heq_sym in E. eapply seq_not_dict; [exact Py|exact Px|exact Ty|exact Tx|exact E].
    - destruct (dict_tree f' d' k t' kvs' ty Py Ty) as (Ek' & _ & Kc & _). destruct (dict_tree f' d MDict t kvs tx Px Tx) as (_ & _ & Kx & _).
      destruct (is_td s ty) eqn:F; auto. exfalso.
      rewrite (tree_mapping tx MDict kvs Ek), (tree_mapping ty _ _ Ek'), F in E. rewrite T in E. apply heq_set in E as [E1 E2].
      destruct (tcs ty) as [|e cs] eqn:Ec.
      + destruct kvs' as [|kv kvs']; [|discriminate]. destruct (tcs tx) as [|e cs]; [|destruct (E1 _ (or_introl eq_refl)) as (h & [] & _)]. destruct kvs as [|kv kvs]; [|discriminate].
        destruct k; [|eapply part_empty_maps; eauto]. unfold is_td, node_is_typed_dict in F. rewrite Ek' in F. cbn [map_kind] in F. unfold is_typed_dict in F. cbn in F. congruence.
      + destruct (E2 _ (or_introl eq_refl)) as (h & Hh & Eh). apply in_map_iff in Hh as (e1 & <- & _). discriminate.
  Qed.

  Definition same_at (f : nat) : Prop := forall d d' x y tx ty, part x -> part y -> tree_of f d x tx -> tree_of f d' y ty -> heq (thash s tx) (thash s ty) = true ->
    ty_id (type_of x) = ty_id (type_of y) /\ (forall w, fits s tx w -> fits s ty w) /\
    (is_td s tx = true -> is_td s ty = true -> forall dw, open_fits (map (child_fits s) (tcs tx)) dw -> open_fits (map (child_fits s) (tcs ty)) dw).

  (** Trees of dicts. *)
  Lemma same_dict f d d' k t kvs k' t' kvs' tx ty : same_at f -> part (VMap k t kvs) -> part (VMap k' t' kvs') ->
    tree_of (S f) d (VMap k t kvs) tx -> tree_of (S f) d' (VMap k' t' kvs') ty -> heq (thash s tx) (thash s ty) = true ->
    k = k' /\ t = t' /\ (forall w, fits s tx w -> fits s ty w) /\
    (is_td s tx = true -> is_td s ty = true -> forall dw, open_fits (map (child_fits s) (tcs tx)) dw -> open_fits (map (child_fits s) (tcs ty)) dw).
  Proof.
    intros IH Px Py Tx Ty E. pose proof (part_dict _ _ _ Px) as Ct. pose proof (part_dict _ _ _ Py) as Ct'.
    destruct (dict_tree f d k t kvs tx Px Tx) as (Ek & Et & Kc & Ch). destruct (dict_tree f d' k' t' kvs' ty Py Ty) as (Ek' & Et' & Kc' & Ch').
    assert (Td : is_td s tx = is_td s ty).
    { destruct (is_td s tx) eqn:A; [symmetry; exact (heq_td _ _ _ _ _ _ _ Px Py Tx Ty A E)|]. destruct (is_td s ty) eqn:B; auto. rewrite heq_sym in E.
      rewrite (heq_td _ _ _ _ _ _ _ Py Px Ty Tx B E) in A. discriminate. }
    assert (Mk : forall k kvs tr, tkind tr = map_kind k kvs -> is_td s tr = true <-> typed_map s k kvs).
    { clear. intros k kvs tr Ek. unfold is_td, node_is_typed_dict, typed_map. rewrite Ek. destruct k; cbn [map_kind]; [|split; [discriminate|intros [? _]; discriminate]]. rewrite dict_td, td_strategy_iff. tauto. }
    assert (Kk : k = k').
    { destruct (is_td s tx) eqn:A.
      - apply (Mk _ _ _ Ek) in A as [-> _]. symmetry in Td. now apply (Mk _ _ _ Ek') in Td as [-> _].
      - apply (part_maps _ _ _ _ _ _ Px Py); intros N; [apply (Mk _ _ _ Ek) in N|apply (Mk _ _ _ Ek') in N]; congruence. }
    split; [exact Kk|]. split; [congruence|]. rename k into kd.
    assert (E0 := E). rewrite (tree_mapping tx _ _ Ek), (tree_mapping ty _ _ Ek') in E0. apply heq_set in E0 as [E1 E2].
    assert (Inc : forall e e', In e (tcs tx) -> In e' (tcs ty) -> heq (thash s (etree e)) (thash s (etree e')) = true -> forall w, fits s (etree e) w -> fits s (etree e') w).
    { intros e e' He He' Eh w Hw. destruct (Ch e He) as (x0 & c0 & P0 & T0 & R0). destruct (Ch' e' He') as (x1 & c1 & P1 & T1 & R1).
      apply (renamed_fits s _ _ w R0) in Hw. apply (renamed_fits s _ _ w R1). eapply (IH (S d) (S d') x0 x1 c0 c1); auto. now rewrite <- (renamed_hash s _ _ R0), <- (renamed_hash s _ _ R1). }
    assert (Open : is_td s tx = true -> forall dw, open_fits (map (child_fits s) (tcs tx)) dw -> open_fits (map (child_fits s) (tcs ty)) dw).
    { intros T dw. apply open_sub. intros p Hp. apply in_map_iff in Hp as (e & <- & He). destruct (E1 _ (in_map _ _ _ He)) as (h & Hh & Eh). apply in_map_iff in Hh as (e' & <- & He').
      rewrite <- Td in Eh. unfold entry_hash in Eh. rewrite T in Eh. cbn [heq] in Eh. apply andb_true_iff in Eh as [Eh1 Eh2]. apply key_eqb_spec in Eh1. exists (child_fits s e'). split; [now apply in_map|].
      cbn [child_fits fst snd]. split; [now symmetry|]. apply (Inc e e'); auto. }
    split; [|intros T _; now apply Open].
    assert (KE : forall k, In k (map ekey (tcs tx)) -> key_in k v0).
    { intros k Hk. rewrite Kc in Hk. apply in_map_iff in Hk as ([k1 y] & <- & Hy). exact (part_key _ _ _ _ _ Px Hy). }
    assert (KE' : forall k, In k (map ekey (tcs ty)) -> key_in k v0).
    { intros k Hk. rewrite Kc' in Hk. apply in_map_iff in Hk as ([k1 y] & <- & Hy). exact (part_key _ _ _ _ _ Py Hy). }
    assert (Kt : is_td s tx = true -> forall k, has_key k kvs <-> has_key k kvs').
    { intros T k. unfold has_key. rewrite <- Kc, <- Kc'. split; intros Hk; apply in_map_iff in Hk as (e & <- & He).
      - destruct (E1 _ (in_map _ _ _ He)) as (h & Hh & Eh). apply in_map_iff in Hh as (e' & <- & He'). rewrite <- Td in Eh. unfold entry_hash in Eh. rewrite T in Eh. cbn [heq] in Eh. apply andb_true_iff in Eh as [Eh1 _]. apply key_eqb_spec in Eh1.
        rewrite Eh1. now apply in_map.
      - destruct (E2 _ (in_map _ _ _ He)) as (h & Hh & Eh). apply in_map_iff in Hh as (e' & <- & He'). rewrite <- Td in Eh. unfold entry_hash in Eh. rewrite T in Eh. cbn [heq] in Eh. apply andb_true_iff in Eh as [Eh1 _]. apply key_eqb_spec in Eh1.
        rewrite <- Eh1. now apply in_map. }
    assert (Fm : forall tr k kvs w, tkind tr = map_kind k kvs -> fits s tr w <-> exists dw, w = VMap k (i_type (ti tr)) dw /\
              if is_td s tr then open_fits (map (child_fits s) (tcs tr)) dw /\ requires (init_meta kvs) dw else plain_map_fits (map (child_fits s) (tcs tr)) dw).
    { clear. intros [i cs] k kvs w Ek. unfold is_td, node_is_typed_dict. rewrite Ek. unfold tkind in Ek. cbn [ti tcs] in *. rewrite fits_node. cbv zeta. rewrite Ek. destruct k; cbn [map_kind]; tauto. }
    intros w Hw. apply (Fm _ _ _ w Ek) in Hw. apply (Fm _ _ _ w Ek'). rewrite Et in Hw. rewrite Et'.
    destruct Hw as (dw & -> & Hw). exists dw. split; [congruence|]. clear Fm. set (cx := tcs tx) in *. set (cy := tcs ty) in *. rewrite <- Td. destruct (is_td s tx) eqn:T.
    - destruct Hw as [Hw1 Hw2]. split; [now apply Open|]. intros k Hk. apply Hw2. clear Hw1 Hw2.
      destruct (is_hidden k) eqn:Hh; [destruct (meta_ok_init kvs') as [_ MN]; apply hidden_doc in Hh; rewrite (MN k Hh) in Hk; discriminate|]. apply hidden_false in Hh.
      destruct (meta_ok_init kvs') as [MO _]. destruct (MO k Hh) as (_ & _ & Q & _). apply Q in Hk. apply (Kt eq_refl) in Hk. destruct (meta_ok_init kvs) as [MO' _]. destruct (MO' k Hh) as (_ & _ & Q' & _). now apply Q'.
    - intros k x Hx. destruct (Hw k x Hx) as [(p & Hp & Ep) (q & Hq & Fq)].
      assert (Find : forall e, In e cx -> exists e', In e' cy /\ key_type (ekey e') = key_type (ekey e) /\ forall z, fits s (etree e) z -> fits s (etree e') z).
      { intros e He. destruct (E1 _ (in_map _ _ _ He)) as (h & Hh & Eh). apply in_map_iff in Hh as (e' & <- & He'). rewrite <- Td in Eh. unfold entry_hash in Eh. cbn [heq] in Eh. apply andb_true_iff in Eh as [Eh1 Eh2]. apply Nat.eqb_eq in Eh1.
        exists e'. split; auto. split; [|apply (Inc e e'); auto]. apply (tidy_keys s v0 Hv); [apply KE'; now apply in_map|apply KE; now apply in_map|auto]. }
      apply in_map_iff in Hp as (e & <- & He). apply in_map_iff in Hq as (e2 & <- & He2). destruct (Find e He) as (e' & He' & A & _). destruct (Find e2 He2) as (e2' & He2' & _ & B). split.
      + exists (child_fits s e'). split; [now apply in_map|]. cbn [child_fits fst] in *. congruence.
      + exists (child_fits s e2'). split; [now apply in_map|]. cbn [child_fits snd] in *. auto.
  Qed.

  (** Merged nodes. *)
  Lemma merged_td f d l cs D M tD : merged_seq f d l cs D M tD -> is_td s tD = true /\ is_td s (set_meta M tD) = true /\ thash s (set_meta M tD) = thash s tD /\
    tcs (set_meta M tD) = tcs tD /\ (forall k, child_key tD k <-> has_key k D).
  Proof.
    intros (TD & PD & KD & St & KM & _). pose proof (tree_td s ord f d _ _ _ _ TD eq_refl KD St) as T. destruct (td_value s ord f d _ tD TD T) as (t & kvs & E & _ & _ & Ek & _). injection E as <- <-.
    split; auto. assert (TM : is_typed_dict s M = true) by (unfold is_typed_dict; rewrite St, andb_true_r; now apply string_keys_all).
    assert (T0 : is_typed_dict s (init_meta D) = true) by (unfold is_td, node_is_typed_dict in T; now rewrite Ek in T).
    split; [unfold set_meta, is_td, node_is_typed_dict; rewrite Ek; exact TM|]. split; [|split].
    - unfold set_meta. rewrite Ek. destruct tD as [i cs0]. unfold tkind in Ek. cbn [ti tcs] in *. cbn [thash i_kind]. rewrite Ek, TM, T0. reflexivity.
    - unfold set_meta. rewrite Ek. reflexivity.
    - intros k. eapply td_keys; eauto using part_keys.
  Qed.
  Lemma merged_fits_iff f d l cs D M tD w : merged_seq f d l cs D M tD -> fits s (set_meta M tD) w <-> exists dw, w = VMap MDict ty_dict dw /\ open_fits (map (child_fits s) (tcs tD)) dw /\ requires M dw.
  Proof.
    intros MS. destruct (merged_td _ _ _ _ _ _ _ MS) as (T & TM & _). pose proof MS as (TD & PD & KD & St & KM & _). destruct (dict_hash f d MDict ty_dict D tD PD TD) as (f' & -> & _).
    destruct (dict_tree f' d MDict ty_dict D tD PD TD) as (Ek & Et & _). cbn [map_kind] in Ek. unfold set_meta in *. rewrite Ek in *. rewrite fits_node. cbv zeta. cbn [i_kind i_type]. unfold is_td, node_is_typed_dict in TM. cbn [tkind ti i_kind] in TM. unfold tkind in TM. cbn [ti i_kind] in TM. rewrite TM, Et. reflexivity.
  Qed.
  Lemma td_fits_iff f d kvs tr w : part (VMap MDict ty_dict kvs) -> tree_of f d (VMap MDict ty_dict kvs) tr -> is_td s tr = true ->
    fits s tr w <-> exists dw, w = VMap MDict ty_dict dw /\ open_fits (map (child_fits s) (tcs tr)) dw /\ forall k, has_key k kvs -> has_key k dw.
  Proof.
    intros P Tr T. destruct (dict_hash f d MDict ty_dict kvs tr P Tr) as (f' & -> & _). destruct (dict_tree f' d MDict ty_dict kvs tr P Tr) as (Ek & Et & _). cbn [map_kind] in Ek.
    assert (T0 : is_typed_dict s (init_meta kvs) = true) by (unfold is_td, node_is_typed_dict in T; now rewrite Ek in T).
    destruct tr as [i cs]. unfold tkind in Ek. cbn [ti tcs] in *. rewrite fits_node. cbv zeta. rewrite Ek, Et, T0.
    assert (R : forall dw, requires (init_meta kvs) dw <-> forall k, has_key k kvs -> has_key k dw).
    { intros dw. destruct (meta_ok_init kvs) as [MO MN]. split.
      - intros R k Hk. apply R. assert (Nd : ~ doc_key k) by (apply in_map_iff in Hk as ([k1 y] & <- & Hy); eapply part_keys; eauto). destruct (MO k Nd) as (_ & _ & Q & _). now apply Q.
      - intros R k Hk. apply R. destruct (is_hidden k) eqn:Hh; [apply hidden_doc in Hh; rewrite (MN k Hh) in Hk; discriminate|]. apply hidden_false in Hh. destruct (MO k Hh) as (_ & _ & Q & _). now apply Q. }
    split; intros (dw & -> & A & B); exists dw; (split; [auto|]); (split; [auto|]); now apply R.
  Qed.

  Lemma td_heq_keys a b : is_td s a = true -> is_td s b = true -> heq (thash s a) (thash s b) = true -> forall k, child_key a k <-> child_key b k.
  Proof.
    intros A B E. eapply (td_teq_keys s); eauto. unfold teq. rewrite E, andb_true_r. unfold is_td, node_is_typed_dict in *. destruct (tkind a); try discriminate. destruct (tkind b); try discriminate. reflexivity.
  Qed.

  (** Children with equal hash keys in sequences with equal hash keys. *)
  Lemma pair_incl f d d' k t l k' t' l' cs cs' c c' : same_at f -> part (VSeq k t l) -> part (VSeq k' t' l') ->
    (unmerged_seq f d l cs \/ exists D M tD, merged_seq f d l cs D M tD) -> (unmerged_seq f d' l' cs' \/ exists D M tD, merged_seq f d' l' cs' D M tD) ->
    (forall c, In c cs -> exists c', In c' cs' /\ heq (thash s c) (thash s c') = true) -> (forall c', In c' cs' -> exists c, In c cs /\ heq (thash s c) (thash s c') = true) ->
    In c cs -> In c' cs' -> heq (thash s c) (thash s c') = true -> forall w, fits s c w -> fits s c' w.
  Proof.
    intros IH Px Py Cx Cy R1 R2 Hc Hc' E w Hw.
    assert (Opt : is_td_strategy s = true -> string_dicts l <> [] -> string_dicts l' <> [] -> (forall key, in_some (string_dicts l) key <-> in_some (string_dicts l') key) ->
              forall key, in_all (string_dicts l) key <-> in_all (string_dicts l') key).
    { intros St. apply td_strategy_iff in St. pose proof (tidy_optional s v0 Hv St) as Q. eapply Q; eauto using part_sub. }
    assert (PP : plain_child f d l c -> plain_child f d' l' c' -> fits s c' w).
    { intros (x & c0 & Hx & T0 & R0) (x' & c0' & Hx' & T0' & R0'). apply (renamed_fits s _ _ w R0) in Hw. apply (renamed_fits s _ _ w R0').
      eapply (IH d d' x x' c0 c0'); [exact (part_el _ _ _ _ Px Hx)|exact (part_el _ _ _ _ Py Hx')|auto|auto| |auto]. now rewrite <- (renamed_hash s _ _ R0), <- (renamed_hash s _ _ R0'). }
    (* a child that is no typed dict is not equal to a merged node *)
    assert (PM : plain_child f d l c -> forall D M tD, merged_seq f d' l' cs' D M tD -> c' = set_meta M tD -> fits s c' w).
    { intros (x & c0 & Hx & T0 & R0) D M tD MS ->. destruct (merged_td _ _ _ _ _ _ _ MS) as (T & _ & Eh & _). pose proof MS as (TD & PD & KD & St & KM & Ne & DK & DR & _).
      apply (renamed_fits s _ _ w R0) in Hw. rewrite Eh, (renamed_hash s _ _ R0) in E.
      destruct (IH d d' x _ c0 tD (part_el _ _ _ _ Px Hx) PD T0 TD E) as (_ & F & _). apply F in Hw. apply (td_fits_iff f d' D tD w PD TD T) in Hw as (dw & -> & A & B).
      apply (merged_fits_iff _ _ _ _ _ _ _ _ MS). exists dw. split; auto. split; auto. intros k0 Hk. apply B, DK. apply DR in Hk as (N & _ & Q). split; auto.
      destruct (string_dicts l') as [|d0 ds]; [congruence|]. exists d0. split; [now left|apply Q; now left]. }
    destruct Cx as [[Ux Sx]|(D & M & tD & MS)].
    - destruct Cy as [[Uy Sy]|(D' & M' & tD' & MS')]; [apply PP; auto|].
      pose proof MS' as (_ & _ & _ & _ & _ & _ & _ & _ & _ & Ch'). destruct (Ch' c' Hc') as [[Pc' _]|Ec']; [apply PP; auto|]. eapply PM; eauto.
    - pose proof MS as (TD & PD & KD & St & KM & Ne & DK & DR & _ & Ch). destruct (Ch c Hc) as [[Pc Nt]| ->].
      { destruct Cy as [[Uy Sy]|(D' & M' & tD' & MS')]; [apply PP; auto|]. pose proof MS' as (_ & _ & _ & _ & _ & _ & _ & _ & _ & Ch'). destruct (Ch' c' Hc') as [[Pc' _]|Ec']; [apply PP; auto|]. eapply PM; eauto. }
      destruct (merged_td _ _ _ _ _ _ _ MS) as (T & _ & Eh & _ & CK). rewrite Eh in E. apply (merged_fits_iff _ _ _ _ _ _ _ _ MS) in Hw as (dw & -> & Op & Rq).
      (* which plain children are typed dicts *)
      assert (ToTd : forall c2, plain_child f d' l' c2 -> heq (thash s tD) (thash s c2) = true -> is_td s c2 = true).
      { intros c2 (x & c0 & Hx & T0 & R0) E2. rewrite (renamed_td s _ _ R0). rewrite (renamed_hash s _ _ R0) in E2. exact (heq_td f d d' _ x tD c0 PD (part_el _ _ _ _ Py Hx) TD T0 T E2). }
      destruct Cy as [[Uy Sy]|(D' & M' & tD' & MS')].
      + destruct (Uy c' Hc') as (x' & c0' & Hx' & T0' & R0'). assert (Tc' : is_td s c' = true) by (apply ToTd; auto; exists x', c0'; auto).
        assert (Tc0 : is_td s c0' = true) by (rewrite <- (renamed_td s _ _ R0'); exact Tc').
        destruct (td_value s ord f d' x' c0' T0' Tc0) as (ty' & kv' & -> & K' & _ & _ & _). pose proof (part_el _ _ _ _ Py Hx') as Px'. pose proof (part_dict _ _ _ Px') as Ety'. cbn [map_class] in Ety'. subst ty'.
        apply (renamed_fits s _ _ (VMap MDict ty_dict dw) R0'). apply (td_fits_iff f d' kv' c0' _ Px' T0' Tc0). exists dw. split; auto.
        assert (E0 : heq (thash s tD) (thash s c0') = true) by (now rewrite <- (renamed_hash s _ _ R0')).
        destruct (IH d d' _ _ tD c0' PD Px' TD T0' E0) as (_ & _ & Q). split; [now apply Q|].
        assert (Keys : forall k, has_key k kv' <-> has_key k D).
        { intros k0. rewrite <- CK. rewrite (td_heq_keys tD c0' T Tc0 E0 k0). symmetry. eapply (td_keys s ord part part_keys); eauto. }
        (* all dicts of l' have the keys of D *)
        assert (AllD : forall d0, In d0 (string_dicts l') -> forall k, has_key k d0 <-> has_key k D).
        { intros d0 Hd k0. destruct (Sy St d0 Hd) as (c2 & Hc2 & T2 & K2). rewrite <- K2. destruct (R2 c2 Hc2) as (c1 & Hc1 & E1).
          destruct (Ch c1 Hc1) as [[(x1 & c10 & Hx1 & T1 & Rn1) Nt1]| ->].
          - exfalso. destruct (Uy c2 Hc2) as (x2 & c20 & Hx2 & T20 & Rn2). rewrite heq_sym, (renamed_hash s _ _ Rn1), (renamed_hash s _ _ Rn2) in E1.
            rewrite (renamed_td s _ _ Rn1) in Nt1. rewrite (renamed_td s _ _ Rn2) in T2.
            rewrite (heq_td f d' d x2 x1 c20 c10 (part_el _ _ _ _ Py Hx2) (part_el _ _ _ _ Px Hx1) T20 T1 T2 E1) in Nt1. discriminate.
          - rewrite Eh in E1. rewrite <- CK. symmetry. exact (td_heq_keys tD c2 T T2 E1 k0). }
        assert (Hd' : In kv' (string_dicts l')) by (apply string_dicts_In; eauto).
        assert (Ne' : string_dicts l' <> []) by (intros N; rewrite N in Hd'; destruct Hd').
        assert (ND : forall k, has_key k D -> ~ doc_key k) by (intros k0 Hk; apply in_map_iff in Hk as ([k1 y] & <- & Hy); exact (part_keys _ _ _ _ _ PD Hy)).
        intros k0 Hk. apply Rq. apply DR. apply (Opt St Ne Ne').
        * intros key. rewrite <- DK. split.
          -- intros Hk0. split; [now apply ND|]. exists kv'. split; auto. now apply Keys.
          -- intros (_ & d0 & Hd0 & Hk0). now apply (AllD d0).
        * apply Keys in Hk. split; [now apply ND|]. split; auto. intros d0 Hd0. now apply (AllD d0).
      + pose proof MS' as (TD' & PD' & KD' & _ & KM' & Ne' & DK' & DR' & _ & Ch'). destruct (Ch' c' Hc') as [[Pc' Nt']| ->].
        { exfalso. rewrite (ToTd c' Pc' E) in Nt'. discriminate. }
        destruct (merged_td _ _ _ _ _ _ _ MS') as (T' & _ & Eh' & _ & CK'). rewrite Eh' in E. apply (merged_fits_iff _ _ _ _ _ _ _ _ MS'). exists dw. split; auto.
        destruct (IH d d' _ _ tD tD' PD PD' TD TD' E) as (_ & _ & Q). split; [now apply Q|]. intros k0 Hk. apply Rq, DR. apply DR' in Hk. apply (Opt St Ne Ne'); auto.
        intros key. rewrite <- DK, <- DK', <- CK, <- CK'. apply td_heq_keys; auto.
  Qed.

  (** Leaves with equal hash keys. *)
  Lemma any_repeat_inj n m : join ", " (repeat "Any" n) = join ", " (repeat "Any" m) -> n = m.
  Proof.
    assert (L : forall n, String.length (join ", " (repeat "Any" (S n))) = 3 + 5 * n).
    { clear. induction n as [|n IH]; [reflexivity|]. change (repeat "Any" (S (S n))) with ("Any" :: repeat "Any" (S n)). rewrite join_cons by discriminate.
      rewrite !length_app_s. rewrite IH. cbn [String.length]. lia. }
    intros E. apply (f_equal String.length) in E. destruct n as [|n], m as [|m]; auto.
    - rewrite L in E. cbn in E. lia.
    - rewrite L in E. cbn in E. lia.
    - rewrite !L in E. lia.
  Qed.
  Lemma fun_hash_same f g : sub (VFun f) v0 -> sub (VFun g) v0 -> heq (fun_hash f) (fun_hash g) = true -> same_function f g.
  Proof.
    intros Hf Hg E. destruct (tidy_plain s v0 Hv) as [A _]. pose proof (A _ Hf) as Pf. pose proof (A _ Hg) as Pg. cbv beta iota in Pf, Pg. unfold fun_hash in E. unfold same_function.
    destruct (f_sig f) as [[p n]|], (f_sig g) as [[q m]|]; auto.
    - destruct (f_lambda f), (f_lambda g); cbn [heq] in E; apply String.eqb_eq in E.
      + split; auto. apply any_repeat_inj. do 1 apply app_inj_l in E. now apply app_inj_r in E.
      + exfalso. destruct Pg as (_ & r & ->). discriminate.
      + exfalso. destruct Pf as (_ & r & ->). discriminate.
      + auto.
    - destruct (f_lambda f); cbn [heq] in E; apply String.eqb_eq in E; [discriminate|]. destruct Pf as (_ & r & ->). discriminate.
    - destruct (f_lambda g); cbn [heq] in E; apply String.eqb_eq in E; [discriminate|]. destruct Pg as (_ & r & ->). discriminate.
  Qed.
  Lemma leaf_same x y : sub x v0 -> sub y v0 -> is_leaf x -> is_leaf y -> heq (leaf_hash x) (leaf_hash y) = true ->
    ty_id (type_of x) = ty_id (type_of y) /\ match x, y with VFun f, VFun g => same_function g f | _, _ => True end.
  Proof.
    intros Hx Hy Lx Ly E.
    assert (Nf : forall f n, heq (fun_hash f) (HTy n) = true -> False).
    { clear. intros f n. unfold fun_hash. destruct (f_sig f) as [[p m]|]; [destruct (f_lambda f)|]; discriminate. }
    assert (Nf' : forall f n, heq (HTy n) (fun_hash f) = true -> False) by (intros f n; rewrite heq_sym; apply Nf).
    destruct x, y; try contradiction; cbn [leaf_hash] in E; try (exfalso; eapply Nf; exact E); try (exfalso; eapply Nf'; exact E);
      try (cbn [heq] in E; apply Nat.eqb_eq in E; split; [exact E|exact I]).
    split.
    - destruct (tidy_plain s v0 Hv) as (_ & _ & _ & Q). apply (Q f f0 Hx Hy). now apply fun_hash_same.
    - rewrite heq_sym in E. now apply fun_hash_same.
  Qed.

  Theorem same_trees : forall f, same_at f.
  Proof.
    induction f as [f IH] using lt_wf_ind. intros d d' x y tx ty Px Py Tx Ty E.
    assert (Lx : is_leaf x \/ ~ is_leaf x) by (destruct x; cbn [is_leaf]; auto).
    destruct Lx as [Lx|Lx].
    - assert (Ly : is_leaf y).
      { destruct y as [| | | | | | |k t l|k t kvs]; try exact I; exfalso.
        - destruct (seq_hash _ _ _ _ _ _ Py Ty) as (f' & _ & Hs). eapply leaf_hash_no_set; [exact Px|exact Lx|exact Tx| |exact E]. destruct (thash s ty); auto.
        - destruct (dict_hash _ _ _ _ _ _ Py Ty) as (f' & _ & Hs). eapply leaf_hash_no_set; [exact Px|exact Lx|exact Tx| |exact E]. destruct (thash s ty); auto. }
      rewrite (tree_leaf _ _ _ _ Tx Lx), (tree_leaf _ _ _ _ Ty Ly) in E.
      destruct (leaf_same x y (part_leaf x Lx Px) (part_leaf y Ly Py) Lx Ly E) as (Ei & Ef). clear E. rename Ei into E. split; auto.
      pose proof (tidy_leaves s v0 Hv x y (part_leaf x Lx Px) (part_leaf y Ly Py) Lx Ly E) as Sl.
      destruct Tx as (nx & Tx), Ty as (ny & Ty).
      assert (Lf : forall f n d v t, is_leaf v -> build s ord f n d false v = Ok t -> exists k, t = Node (Info n d 0 false k (type_of v)) [] /\
                match v with VFun g => k = NFun g | VClass _ m => k = NClass m | VModule _ => k = NModule | VIO _ => k = NIO | VNdarray _ dt => k = NNumpy dt | _ => k = NInst end).
      { clear. intros f n d v t L B. destruct v; try contradiction; destruct f; cbn [build] in B; unfold leaf in B; destruct (is_compatible n); try discriminate; injection B as <-; eexists; split; reflexivity. }
      destruct (Lf _ _ _ _ _ Lx Tx) as (kx & -> & Kx). destruct (Lf _ _ _ _ _ Ly Ty) as (ky & -> & Ky).
      split.
      + intros w. rewrite !fits_node. cbv zeta. cbn [i_kind i_type]. unfold same_leaf in Sl.
        destruct x, y; try (subst kx ky; intros (g & -> & Fg); exists g; split; [reflexivity|]; eapply same_function_trans; [exact Ef|exact Fg]); try contradiction; subst kx ky;
          match type of Sl with _ /\ _ => destruct Sl as [Ix [Iy Sl]]; try contradiction; rewrite Sl; auto | _ = _ => subst; auto | _ => auto end.
      + intros Td. unfold is_td, node_is_typed_dict in Td. cbn [tkind ti i_kind] in Td. unfold tkind in Td. cbn [ti i_kind] in Td. destruct x; try contradiction; subst kx; discriminate.
    - destruct x as [| | | | | | |k t l|k t kvs]; try (exfalso; apply Lx; exact I).
      + destruct (seq_hash _ _ _ _ _ _ Px Tx) as (f' & -> & Hs).
        assert (Ly : ~ is_leaf y). { intros Ly. rewrite heq_sym in E. eapply leaf_hash_no_set; [exact Py|exact Ly|exact Ty| |exact E]. destruct (thash s tx); auto. }
        destruct y as [| | | | | | |k' t' l'|k' t' kvs']; try (exfalso; apply Ly; exact I).
        * destruct Tx as (nx & Tx), Ty as (ny & Ty).
          destruct (seq_children f' nx d false k t l tx Px Tx) as (Ek & Et & _ & Cx). destruct (seq_children f' ny d' false k' t' l' ty Py Ty) as (Ek' & Et' & _ & Cy).
          rewrite (tree_seq tx k Ek), (tree_seq ty k' Ek') in E.
          set (cs := map etree (tcs tx)) in *. set (cs' := map etree (tcs ty)) in *.
          assert (Fx : fixed_kind s k <-> fixed_kind s k').
          { destruct (shash_cases k cs) as [[A A']|[A A']], (shash_cases k' cs') as [[B B']|[B B']]; rewrite A', B' in E; try discriminate; tauto. }
          destruct (part_kinds _ _ _ _ _ _ Px Py Fx) as [-> ->]. split; [reflexivity|].
          assert (PI : (forall c, In c cs -> exists c', In c' cs' /\ heq (thash s c) (thash s c') = true) -> (forall c', In c' cs' -> exists c, In c cs /\ heq (thash s c) (thash s c') = true) ->
             forall c c', In c cs -> In c' cs' -> heq (thash s c) (thash s c') = true -> forall w, fits s c w -> fits s c' w).
          { intros R1 R2 c c' Hc Hc' Ec. apply (pair_incl f' (S d) (S d') k' t' l k' t' l' cs cs'); auto. }
          split; [|intros Td; unfold is_td, node_is_typed_dict in Td; rewrite Ek in Td; discriminate].
          intros w Hw. destruct tx as [ix cx], ty as [iy cy]. unfold tkind in *. cbn [ti tcs] in *. rewrite fits_node in *. rewrite Ek in Hw. rewrite Ek'. cbv zeta in *. rewrite Et in Hw. rewrite Et'.
          destruct Hw as (lw & -> & Hw). exists lw. split; auto.
          destruct (shash_cases k' cs) as [[[-> Fs] A]|[NF A]].
          -- unfold shash in E. rewrite Fs in E. rewrite heq_tup in E. apply heql_Forall2 in E.
             assert (E' : Forall2 (fun c c' => heq (thash s c) (thash s c') = true) cs cs').
             { now apply Forall2_map_inv in E. }
             assert (F1 : forall c, In c cs -> exists c', In c' cs' /\ heq (thash s c) (thash s c') = true).
             { clear -E'. induction E' as [|c c' cs cs' H E' IH]; intros c0 Hc0; [destruct Hc0|]. destruct Hc0 as [<-|Hc0]; [exists c'; split; [now left|auto]|]. destruct (IH c0 Hc0) as (c1 & A & B). exists c1. split; [now right|auto]. }
             assert (F2 : forall c', In c' cs' -> exists c, In c cs /\ heq (thash s c) (thash s c') = true).
             { clear -E'. induction E' as [|c c' cs cs' H E' IH]; intros c0 Hc0; [destruct Hc0|]. destruct Hc0 as [<-|Hc0]; [exists c; split; [now left|auto]|]. destruct (IH c0 Hc0) as (c1 & A & B). exists c1. split; [now right|auto]. }
             specialize (PI F1 F2). eapply seq_sub; [|exact Hw]. subst cs cs'. clear -E' PI.
             assert (Gen : forall a b, Forall2 (fun c c' => heq (thash s c) (thash s c') = true) (map etree a) (map etree b) -> incl a cx -> incl b cy ->
                Forall2 (fun p q : key * (pyval -> Prop) => forall x, snd p x -> snd q x) (map (child_fits s) a) (map (child_fits s) b)).
             { induction a as [|e a IHa]; intros [|e' b] F Ia Ib; cbn [map] in *; inversion F; subst; constructor.
               - cbn [child_fits snd]. apply PI; auto; apply in_map; [apply Ia | apply Ib]; now left.
               - apply IHa; auto; intros z Hz; [apply Ia | apply Ib]; now right. }
             apply Gen; auto; apply incl_refl.
          -- destruct (shash_cases k' cs') as [[F' _]|[_ B]]; [contradiction|]. rewrite A, B in E. apply heq_set in E as [E1 E2].
             assert (F1 : forall c, In c cs -> exists c', In c' cs' /\ heq (thash s c) (thash s c') = true).
             { intros c Hc. destruct (E1 _ (in_map _ _ _ Hc)) as (h & Hh & Eh). apply in_map_iff in Hh as (c' & <- & Hc'). eauto. }
             assert (F2 : forall c', In c' cs' -> exists c, In c cs /\ heq (thash s c) (thash s c') = true).
             { intros c Hc. destruct (E2 _ (in_map _ _ _ Hc)) as (h & Hh & Eh). apply in_map_iff in Hh as (c' & <- & Hc'). eauto. }
             specialize (PI F1 F2).
             assert (SF : forall ps, seq_fits s k' ps lw = (forall x, In x lw -> exists p, In p ps /\ snd p x)).
             { intros ps. unfold seq_fits, fixed_kind in *. destruct k', (s_tuple s); try reflexivity. exfalso. now apply NF. }
             rewrite SF in *. intros z Hz. destruct (Hw z Hz) as (p & Hp & Fp). apply in_map_iff in Hp as (e & <- & He). destruct (F1 (etree e)) as (c' & Hc' & Ec); [now apply in_map|].
             pose proof Hc' as Hc2. unfold cs' in Hc2. apply in_map_iff in Hc2 as (e' & <- & He'). exists (child_fits s e'). split; [now apply in_map|]. cbn [child_fits snd] in *. eapply PI; [|exact Hc'|exact Ec|exact Fp]. now apply in_map.
        * exfalso. eapply seq_not_dict; [exact Px|exact Py|exact Tx|exact Ty|exact E].
      + destruct (dict_hash _ _ _ _ _ _ Px Tx) as (f' & -> & Hs).
        assert (Ly : ~ is_leaf y). { intros Ly. rewrite heq_sym in E. eapply leaf_hash_no_set; [exact Py|exact Ly|exact Ty| |exact E]. destruct (thash s tx); auto. }
        destruct y as [| | | | | | |k' t' l'|k' t' kvs']; try (exfalso; apply Ly; exact I).
        * exfalso. rewrite heq_sym in E. eapply seq_not_dict; [exact Py|exact Px|exact Ty|exact Tx|exact E].
        * destruct (same_dict f' d d' k t kvs k' t' kvs' tx ty) as (_ & -> & Q); auto.
  Qed.

  Lemma part_rows k t l d d' key x y : part (VSeq k t l) -> is_td_strategy s = true -> In d (string_dicts l) -> In d' (string_dicts l) ->
    In (key, x) d -> In (key, y) d' ->
    (ty_id (type_of x) = ty_id (type_of y) -> covers x y) /\ ~ (ty_id (type_of x) = t_int /\ ty_id (type_of y) = t_float).
  Proof. intros P St Hd Hd' Hx Hy. apply td_strategy_iff in St. exact (tidy_rows s v0 Hv St k t l d d' key x y (part_sub _ _ _ P) Hd Hd' Hx Hy). Qed.

  (** The tree of a part accepts the part. *)
  Theorem tidy_fits f name d root v t : part v -> build s ord f name d root v = Ok t -> fits s t v.
  Proof.
    intros P H. apply (build_fits s ord Hord part part_el part_val part_limit part_data part_once part_keys part_exhaust part_merge) with (f := f) (name := name) (d := d) (root := root) (v := v); auto.
    - intros t0 d0 P0. exact (part_dict _ _ _ P0).
    - intros f0 d0 x y tx ty Px Py Tx Ty E. destruct (same_trees f0 d0 d0 x y tx ty Px Py Tx Ty E) as (A & B & _). auto.
    - exact part_rows.
    - apply cov_refl.
  Qed.
  Lemma tidy_td f name d root k t l tr ty kvs : part (VSeq k t l) -> build s ord f name d root (VSeq k t l) = Ok tr -> is_td_strategy s = true ->
    In (VMap MDict ty kvs) l -> string_keys kvs -> exists c, In c (map etree (tcs tr)) /\ is_td s c = true /\ fits s c (VMap MDict ty kvs).
  Proof.
    intros P H. apply (seq_td s ord Hord part part_el part_val part_limit part_data part_once part_keys part_exhaust part_merge) with (f := f) (name := name) (d := d) (root := root) (t := t) (k := k); auto.
    - intros t0 d0 P0. exact (part_dict _ _ _ P0).
    - intros f0 d0 x y tx ty0 Px Py Tx Ty E. destruct (same_trees f0 d0 d0 x y tx ty0 Px Py Tx Ty E) as (A & B & _). auto.
    - exact part_rows.
  Qed.
End Plain.
