(** The way of documentation entries through the construction. *)
From Coq Require Import Ascii String List Bool Arith Lia Permutation.
From Verif Require Import PyStr PyStrFacts Utils Strategies Dispatch Values Tree Build TreeFacts SpecNames NamesFacts SpecData SpecMerge BuildFacts BuildInd TotalFacts TreeProofs SeqFacts FloatFacts MergeFacts GroupFacts Provenance TypedFacts SpecExact SpecTypes SpecNotes.
Import ListNotations.
Local Open Scope string_scope.

(** ** The first of equal values *)
Section Groups.
  Variable s : strategies.
  Lemma add_group_old k c gs : forall t ks, In (t, ks) gs -> exists ks', In (t, ks') (add_group s k c gs) /\ incl ks ks'.
  Proof.
    induction gs as [|[u us] gs IH]; intros t ks H; [destruct H|]. cbn [add_group]. destruct (teq s c u) eqn:E.
    - destruct H as [H|H]; [injection H as <- <-; exists (us ++ [k])%list; split; [now left|apply incl_appl, incl_refl]|exists ks; split; [now right|apply incl_refl]].
    - destruct H as [H|H]; [injection H as <- <-; exists us; split; [now left|apply incl_refl]|]. destruct (IH _ _ H) as (ks' & A & B). exists ks'. split; [now right|exact B].
  Qed.
  (** The groups that hold the key [k] have the node [c]. *)
  Definition owned (k : key) (c : tree) (gs : list (tree * list key)) : Prop :=
    (exists ks, In (c, ks) gs /\ In k ks) /\ forall t ks, In (t, ks) gs -> In k ks -> t = c.
  Lemma owned_add k c k' c' gs : k' <> k -> owned k c gs -> owned k c (add_group s k' c' gs).
  Proof.
    intros N [(ks & A & B) C]. split.
    - destruct (add_group_old k' c' gs _ _ A) as (ks' & A' & I). eauto.
    - clear A B ks. revert C. induction gs as [|[u us] gs IH]; intros C t ks H Hk; cbn [add_group] in H.
      + destruct H as [H|[]]. injection H as <- <-. destruct Hk as [->|[]]. congruence.
      + destruct (teq s c' u).
        * destruct H as [H|H]; [|eapply C; eauto; now right]. injection H as <- <-. apply in_app_iff in Hk as [Hk|[Hk|[]]]; [eapply C; eauto; now left|congruence].
        * destruct H as [H|H]; [eapply C; eauto; now left|]. eapply IH; eauto. intros t0 ks0 Ht0. apply C. now right.
  Qed.
  Lemma owned_new k c gs : (forall t ks, In (t, ks) gs -> teq s c t = false /\ ~ In k ks) -> owned k c (add_group s k c gs).
  Proof.
    intros H. assert (E : add_group s k c gs = (gs ++ [(c, [k])])%list).
    { induction gs as [|[u us] gs IH]; cbn [add_group app]; auto. destruct (H u us (or_introl eq_refl)) as [-> _]. rewrite IH; auto. intros t ks Ht. apply H. now right. }
    rewrite E. split; [exists [k]; split; [apply in_app_iff; right; now left|now left]|]. intros t ks Ht Hk. apply in_app_iff in Ht as [Ht|[Ht|[]]]; [destruct (H _ _ Ht); contradiction|congruence].
  Qed.
  Lemma groups_keys cs : forall gs t ks k, In (t, ks) (fold_left (fun gs kc => add_group s (fst kc) (snd kc) gs) cs gs) -> In k ks ->
    (exists t' ks', In (t', ks') gs /\ In k ks') \/ In k (map fst cs).
  Proof.
    induction cs as [|[k0 c0] cs IH]; intros gs t ks k H Hk; cbn [fold_left] in H; [eauto|]. destruct (IH _ _ _ _ H Hk) as [(t' & ks' & A & B)|A]; [|right; cbn; auto].
    cbn [fst snd] in A. clear IH H Hk. induction gs as [|[u us] gs IHg]; cbn [add_group] in A.
    - destruct A as [A|[]]. injection A as <- <-. destruct B as [<-|[]]. right. now left.
    - destruct (teq s c0 u).
      + destruct A as [A|A]; [injection A as <- <-|left; exists t', ks'; split; [now right|exact B]]. apply in_app_iff in B as [B|[<-|[]]]; [left; exists u, us; split; [now left|exact B]|right; now left].
      + destruct A as [A|A]; [injection A as <- <-; left; exists u, us; split; [now left|exact B]|]. destruct (IHg A) as [(t1 & ks1 & C & D)|D]; [left; exists t1, ks1; split; [now right|exact D]|now right].
  Qed.
  Lemma first_owned p k c q : NoDup (map fst (p ++ (k, c) :: q)) -> (forall k' c', In (k', c') p -> teq s c c' = false) -> owned k c (groups_of s (p ++ (k, c) :: q)).
  Proof.
    intros N H. unfold groups_of. rewrite fold_left_app. cbn [fold_left fst snd]. rewrite map_app in N. cbn [map fst] in N.
    assert (Np : ~ In k (map fst p) /\ ~ In k (map fst q)). { apply NoDup_remove in N as [_ N]. rewrite in_app_iff in N. tauto. }
    assert (O : owned k c (add_group s k c (fold_left (fun gs kc => add_group s (fst kc) (snd kc) gs) p []))).
    { apply owned_new. intros t ks Ht. split.
      - destruct (groups_of_trees s p t ks Ht) as (k' & Hk'). eapply H; eauto.
      - intros Hk. destruct (groups_keys _ _ _ _ _ Ht Hk) as [(? & ? & [] & _)|F]. tauto. }
    revert O. generalize (add_group s k c (fold_left (fun gs kc => add_group s (fst kc) (snd kc) gs) p [])). destruct Np as [_ Nq]. clear - Nq. induction q as [|[k' c'] q IH]; intros gs O; cbn [fold_left fst snd]; auto.
    apply IH; [intros F; apply Nq; now right|]. apply owned_add; auto. intros F. apply Nq. now left.
  Qed.
  Lemma rename_groups_In parent gs : forall last t ks, In (t, ks) (rename_groups parent gs last) -> exists t0, In (t0, ks) gs /\ (t = t0 \/ exists n, t = rename n t0).
  Proof.
    induction gs as [|[u us] gs IH]; intros last t ks H; cbn [rename_groups] in H; [destruct H|]. destruct (Nat.ltb 1 (List.length us)).
    - destruct H as [H|H]; [injection H as <- <-; exists u; split; [now left|eauto]|]. destruct (IH _ _ _ H) as (t0 & A & B). exists t0. split; [now right|auto].
    - destruct H as [H|H]; [injection H as <- <-; exists u; split; [now left|auto]|]. destruct (IH _ _ _ H) as (t0 & A & B). exists t0. split; [now right|auto].
  Qed.
  Lemma rename_groups_snd parent gs : forall last, map snd (rename_groups parent gs last) = map snd gs.
  Proof. induction gs as [|[u us] gs IH]; intros last; cbn [rename_groups]; auto. destruct (Nat.ltb _ _); cbn [map snd]; now rewrite IH. Qed.
  Lemma first_shared parent p k c q : NoDup (map fst (p ++ (k, c) :: q)) -> (forall k' c', In (k', c') p -> teq s c c' = false) ->
    exists e, In e (share_groups s parent (p ++ (k, c) :: q)) /\ ekey e = k /\ (etree e = c \/ exists n, etree e = rename n c).
  Proof.
    intros N H. destruct (first_owned p k c q N H) as [(ks & A & B) C]. set (cs := (p ++ (k, c) :: q)%list) in *.
    assert (Hc : In (k, c) cs) by (apply in_app_iff; right; now left).
    eexists. split; [unfold share_groups; apply in_map_iff; exists (k, c); split; [reflexivity|exact Hc]|]. cbn [fst snd].
    destruct (find _ _) as [[t ks']|] eqn:F; [|split; [reflexivity|left; reflexivity]]. split; [reflexivity|]. apply find_some in F as [F1 F2]. cbn [snd] in F2.
    apply existsb_exists in F2 as (k' & Hk' & E). apply key_eqb_spec in E. subst k'. apply rename_groups_In in F1 as (t0 & G1 & G2). specialize (C _ _ G1 Hk'). subst t0. exact G2.
  Qed.
End Groups.

(** ** Nodes under keys *)
Inductive route : tree -> list string -> tree -> Prop :=
  | ro_here : forall t, route t [] t
  | ro_key : forall t e k p c, (forall e', In e' (tcs t) -> ekey e' <> KNone) -> In e (tcs t) -> ekey e = KStr k -> route (etree e) p c -> route t (k :: p) c.
Lemma route_at t p c : route t p c -> node_at t p c.
Proof. induction 1; [constructor|]. econstructor; eauto. Qed.
Lemma visible_one c t e : (forall e', In e' (tcs t) -> ekey e' <> KNone) -> In e (tcs t) -> visible c (etree e) -> visible c t.
Proof.
  destruct t as [i cs]. cbn [tcs]. intros N He V. apply in_split in He as (a & b & ->). destruct e as [[k m] x]. apply visible_below; auto.
  - apply Forall_forall. intros e' He'. apply N. apply in_app_iff. auto.
  - apply (N (k, m, x)). apply in_app_iff. right. now left.
Qed.
Lemma route_visible t p c x : route t p c -> visible x c -> visible x t.
Proof. induction 1; intros V; auto. eapply visible_one; eauto. Qed.
Lemma route_ren k new n t p c : route t p c -> exists k', route (ren k new n t) p (ren k' new n c).
Proof.
  intros R. revert k. induction R as [t|t e key p c N He Ek R IH]; intros k; [exists k; constructor|].
  destruct e as [[ke m] x]. destruct (IH (k * m)) as (k' & R'). exists k'. destruct t as [i cs]. cbn [tcs] in *. apply (ro_key _ (ke, m, ren (k * m) new n x)).
  - cbn [ren tcs]. intros e' He'. apply in_map_iff in He' as ([[k1 m1] x1] & <- & He1). apply (N _ He1).
  - cbn [ren tcs]. apply in_map_iff. exists (ke, m, x). auto.
  - exact Ek.
  - exact R'.
Qed.

(** ** Elements of sequences *)
Section Items.
  Variable s : strategies.
  Variable ord : set_order.
  Hypothesis Hord : set_like ord.
  (** A TypedDict node that knows all keys of [d], documentation keys included, and nothing but entries of dicts in [l]. *)
  Definition knows (l : list pyval) (d : dict) (c : tree) : Prop :=
    exists D m, tkind c = NDict D m /\ is_typed_dict s m = true /\ (forall k, has_key k d -> has_key k (m_data m)).
  Definition only_from (l : list pyval) (c : tree) : Prop :=
    is_td s c = true -> forall k x, In (k, x) (m_data (node_meta c)) -> exists ty d, In (VMap MDict ty d) l /\ In (k, x) d.
  Lemma update_meta_has k m m' : has_key k (m_data m) \/ has_key k (m_data m') -> has_key k (m_data (update_meta m m')).
  Proof. unfold has_key. apply update_meta_keys. Qed.
  Lemma knows_td l d c : knows l d c -> is_td s c = true.
  Proof. intros (D & m & E & T & _). unfold is_td, node_is_typed_dict. now rewrite E. Qed.
  Lemma td_kind c : is_td s c = true -> exists D m, tkind c = NDict D m /\ is_typed_dict s m = true /\ node_meta c = m /\ node_data c = D.
  Proof. unfold is_td, node_is_typed_dict, node_meta, node_data. destruct (tkind c) as [| | | | | | | |D m]; try discriminate. intros T. exists D, m. auto. Qed.
  Lemma knows_update l d c o : knows l d c \/ knows l d o -> is_td s c = true -> is_td s o = true -> knows l d (update_node c o).
  Proof.
    intros K Tc To. apply td_kind in Tc as (D & m & E & T & _). apply td_kind in To as (D' & m' & E' & T' & _). unfold update_node. rewrite E, E'. eexists _, _. cbn [tkind ti i_kind]. split; [reflexivity|]. split; [now apply update_meta_td|].
    intros k Hk. apply update_meta_has. destruct K as [(D1 & m1 & F & _ & K)|(D1 & m1 & F & _ & K)]; [left|right]; rewrite F in *; [injection E as <- <-|injection E' as <- <-]; auto.
  Qed.
  Lemma only_update l c o : is_td s c = true -> is_td s o = true -> only_from l c -> only_from l o -> only_from l (update_node c o).
  Proof.
    intros Tc To A B _ k x H. specialize (A Tc). specialize (B To). apply td_kind in Tc as (D & m & E & T & Em & _). apply td_kind in To as (D' & m' & E' & T' & Em' & _).
    unfold update_node, node_meta in H. rewrite E, E' in H. cbn [tkind ti i_kind] in H. apply update_meta_data in H as [H|H]; [apply A; now rewrite Em|apply B; now rewrite Em'].
  Qed.
  Lemma only_mono l l' c : incl l l' -> only_from l c -> only_from l' c.
  Proof. intros I H T k x Hx. destruct (H T k x Hx) as (ty & d & A & B). exists ty, d. auto. Qed.
  Lemma build_knows f name dp v c : is_td_strategy s = true -> build s ord f name dp false v = Ok c -> forall l, In v l ->
    only_from l c /\ forall ty d, v = VMap MDict ty d -> string_keys d -> knows l d c.
  Proof.
    intros TS H l Hl. split.
    - intros T k x Hx. destruct (build_td_dict s ord _ _ _ _ _ _ H T) as (ty & kvs & ->). apply build_dict_node in H as [K _]; auto. unfold node_meta in Hx. rewrite K in Hx. cbn [init_meta m_data] in Hx. eauto.
    - intros ty d -> Sk. apply build_dict_node in H as [K _]; auto. exists d, (init_meta d). split; auto. split; [|cbn [init_meta m_data]; auto].
      unfold is_typed_dict. rewrite TS, andb_true_r. cbn [init_meta m_data]. now apply string_keys_all.
  Qed.
  Lemma fold_metas l ts : forall m, (forall t, In t ts -> is_td s t = true /\ only_from l t) ->
    (forall k x, In (k, x) (m_data m) -> exists ty d, In (VMap MDict ty d) l /\ In (k, x) d) ->
    let M := fold_left (fun m t => update_meta m (node_meta t)) ts m in
    (forall k x, In (k, x) (m_data M) -> exists ty d, In (VMap MDict ty d) l /\ In (k, x) d) /\
    (forall k, has_key k (m_data m) -> has_key k (m_data M)) /\ (forall t k, In t ts -> has_key k (m_data (node_meta t)) -> has_key k (m_data M)).
  Proof.
    induction ts as [|t ts IH]; intros m Ht Hm; cbn [fold_left].
    - split; [auto|]. split; [auto|]. intros t k [].
    - destruct (IH (update_meta m (node_meta t))) as (A & B & C).
      + intros u Hu. apply Ht. now right.
      + intros k x Hx. apply update_meta_data in Hx as [Hx|Hx]; auto. destruct (Ht t (or_introl eq_refl)) as [T O]. now apply O.
      + split; [exact A|]. split; [intros k Hk; apply B, update_meta_has; auto|]. intros u k [<-|Hu] Hk; [apply B, update_meta_has; auto|eapply C; eauto].
  Qed.
  Lemma merged_knows l f dp trees m : is_td_strategy s = true -> from_multiple (fun n d0 => build s ord f n dp false (exhaust (VMap MDict ty_dict d0))) trees = Ok m ->
    (forall t, In t trees -> is_td s t = true /\ only_from l t) -> only_from l m /\ is_td s m = true /\ forall d t, In t trees -> knows l d t -> knows l d m.
  Proof.
    intros TS H Ht. pose proof H as H0. apply from_multiple_facts in H0 as [Tm _]; [|intros t Hi; now apply Ht].
    apply from_multiple_Ok in H as (first & rest & t0 & -> & H & ->). cbn [exhaust] in H. apply build_dict_node in H as [K _]; auto.
    set (M := fold_left _ (first :: rest) (node_meta first)) in *.
    destruct (fold_metas l (first :: rest) (node_meta first)) as (A & B & C); [auto|destruct (Ht first (or_introl eq_refl)) as [T O]; auto|]. change (fold_left _ (first :: rest) (node_meta first)) with M in A, B, C.
    unfold set_meta in *. rewrite K in *. split; [|split; [exact Tm|]].
    - intros _ k x Hx. unfold node_meta in Hx. cbn [tkind ti i_kind] in Hx. auto.
    - intros d t Hi (D & mt & E & T & Kn). eexists _, M. cbn [tkind ti i_kind]. split; [reflexivity|]. split; [unfold is_td, node_is_typed_dict in Tm; cbn [tkind ti i_kind] in Tm; exact Tm|].
      intros k Hk. apply (C t k Hi). unfold node_meta. rewrite E. auto.
  Qed.

  (** Every dict of a sequence has a node that knows its keys. *)
  Definition all_known (l : list pyval) (c : tree) : Prop :=
    Forall (fun e => ekey e = no_key) (tcs c) /\
    forall ty d, In (VMap MDict ty d) l -> string_keys d -> exists e, In e (tcs c) /\ knows l d (etree e) /\ only_from l (etree e).
  Lemma all_known_ren l c k new n : all_known l c -> all_known l (ren k new n c).
  Proof.
    intros [N H]. destruct c as [i cs]. cbn [tcs] in *. rewrite Forall_forall in N. split.
    - cbn [ren tcs]. apply Forall_forall. intros e He. apply in_map_iff in He as ([[k1 m1] x1] & <- & He1). apply (N _ He1).
    - intros ty d Hd Sk. destruct (H ty d Hd Sk) as ([[ke m] x] & He & Kn & On). unfold etree in *. cbn [snd] in *. exists (ke, m, ren (k * m) new n x). split; [cbn [ren tcs]; apply in_map_iff; exists (ke, m, x); auto|].
      cbn [snd]. split.
      + destruct Kn as (D & mm & E & X). exists D, mm. rewrite ren_kind. auto.
      + unfold only_from, is_td, node_is_typed_dict, node_meta in *. rewrite ren_kind. exact On.
  Qed.
  Lemma build_items f name dp r k ty l c : is_td_strategy s = true -> build s ord f name dp r (VSeq k ty l) = Ok c -> all_known (limit s l) c.
  Proof.
    intros TS H. destruct f as [|f]; cbn [build] in H; destruct (negb (is_compatible name)); try discriminate.
    apply bind_Ok in H as (cs & H & E). injection E as <-. unfold all_known. cbn [inner tcs].
    assert (Gset : bind (build_set s (fun n x => build s ord f n (S dp) false x) name (limit s l) ([], []))
              (merge_set s ord (fun n d0 => build s ord f n (S dp) false (exhaust (VMap MDict ty_dict d0)))) = Ok cs ->
      Forall (fun e => ekey e = no_key) cs /\ forall ty d, In (VMap MDict ty d) (limit s l) -> string_keys d -> exists e, In e cs /\ knows (limit s l) d (etree e) /\ only_from (limit s l) (etree e)).
    { clear H. intros H. apply bind_Ok in H as (ch & H1 & H2).
      eapply (build_set_inv _ _ _ (fun done st => Forall (fun c => has_cs s c /\ only_from done c) (fst st) /\
        forall ty d, In (VMap MDict ty d) done -> string_keys d -> exists c, In c (fst st) /\ knows done d c) _ []) in H1 as (names & F1 & F2).
      - cbn [fst app] in F1, F2. rewrite Forall_forall in F1.
        destruct (merge_set_spec s ord _ ch cs Hord H2) as [(_ & l' & P & ->)|(_ & trees & m & l' & P & Hm & P' & ->)]; (split; [apply Forall_forall; intros e He; unfold no_sharing in He; apply in_map_iff in He as (x & <- & Hx); reflexivity|]).
        + intros ty0 d Hd Sk. destruct (F2 ty0 d Hd Sk) as (c & Hc & Kn). exists (no_key, 1, c). split; [unfold no_sharing; apply in_map_iff; exists c; split; auto; now apply (Permutation_in _ P)|]. split; [exact Kn|]. now apply F1.
        + apply (merged_knows (limit s l)) in Hm as (Om & Tm & Km); auto.
          2: { intros t Hi. apply (Permutation_in _ (Permutation_sym P)) in Hi. apply filter_In in Hi as [Hi T]. split; auto. now apply F1. }
          cbv zeta in P'. replace (existsb (teq s m) (filter (fun c => negb (is_td s c)) ch)) with false in P'.
          2: { symmetry. apply not_true_iff_false. intros Ex. apply existsb_exists in Ex as (c & Hc & Ex). apply filter_In in Hc as [Hc T]. apply negb_true_iff in T.
               rewrite (td_not_teq_rest s) in Ex; [discriminate|auto|now apply F1|auto]. }
          intros ty0 d Hd Sk. destruct (F2 ty0 d Hd Sk) as (c & Hc & Kn). exists (no_key, 1, m). split; [unfold no_sharing; apply in_map_iff; exists m; split; auto; apply (Permutation_in _ P'); apply in_app_iff; right; now left|]. split; [|exact Om].
          apply (Km d c); auto. apply (Permutation_in _ P). apply filter_In. split; auto. eapply knows_td; eauto.
      - intros done [chs names] v child Hin [A B] Hb. cbn [fst snd] in *. rewrite Forall_forall in A. pose proof (build_has_cs _ _ _ _ _ _ _ _ Hb) as Hcs.
        destruct (build_knows _ _ _ _ _ TS Hb (done ++ [v])) as [On Kn]; [apply in_app_iff; right; now left|].
        assert (Up : forall c d, knows done d c -> knows (done ++ [v]) d c) by auto.
        assert (Inc : incl done (done ++ [v])) by apply incl_appl, incl_refl. unfold add_child.
        destruct (existsb (teq s child) chs) eqn:Ex.
        + destruct (node_is_typed_dict s child) eqn:T; cbn [fst].
          * split.
            -- apply Forall_forall. intros x Hx. apply in_map_iff in Hx as (y & <- & Hy). destruct (A y Hy) as [Ay Oy]. destruct (teq s child y) eqn:Ey; [|split; auto; now apply (only_mono done)].
               assert (Ty : is_td s y = true) by (eapply td_teq; eauto). split; [now apply has_cs_update|]. apply only_update; auto. now apply (only_mono done).
            -- intros ty0 d Hd Sk. apply in_app_iff in Hd as [Hd|[->|[]]].
               ++ destruct (B ty0 d Hd Sk) as (c & Hc & Kc). exists (if teq s child c then update_node c child else c). split; [apply in_map_iff; eauto|]. destruct (teq s child c) eqn:Ey; auto.
                  apply knows_update; auto. eapply knows_td; eauto.
               ++ apply existsb_exists in Ex as (c & Hc & Ey). exists (update_node c child). split; [apply in_map_iff; exists c; rewrite Ey; auto|]. apply knows_update; auto; [right; now apply (Kn ty0)|]. destruct (A c Hc) as [Ac _]. eapply td_teq; eauto.
          * split; [apply Forall_forall; intros x Hx; destruct (A x Hx); split; auto; now apply (only_mono done)|]. intros ty0 d Hd Sk. apply in_app_iff in Hd as [Hd|[->|[]]].
            -- destruct (B ty0 d Hd Sk) as (c & Hc & Kc). eauto.
            -- exfalso. specialize (Kn ty0 d eq_refl Sk). apply knows_td in Kn. unfold is_td in Kn. congruence.
        + cbn [fst]. split.
          * apply Forall_app. split; [apply Forall_forall; intros x Hx; destruct (A x Hx); split; auto; now apply (only_mono done)|]. constructor; auto.
          * intros ty0 d Hd Sk. apply in_app_iff in Hd as [Hd|[->|[]]].
            -- destruct (B ty0 d Hd Sk) as (c & Hc & Kc). exists c. split; auto. apply in_app_iff. auto.
            -- exists child. split; [apply in_app_iff; right; now left|]. now apply (Kn ty0).
      - cbn [fst]. split; [constructor|]. intros ty0 d []. }
    destruct k; try (apply Gset; exact H). destruct (s_tuple s) eqn:ET; [|apply Gset; exact H].
    clear Gset. apply bind_Ok in H as (ch & H1 & H2).
    eapply (build_list_inv _ _ _ (fun done ch _ => Forall (only_from done) ch /\ forall ty d, In (VMap MDict ty d) done -> string_keys d -> exists c, In c ch /\ knows done d c) _ []) in H1 as (names & F1 & F2).
    - cbn [app] in F1, F2. rewrite Forall_forall in F1. apply merge_list_spec in H2 as [(_ & ->)|(_ & m & Hm & ->)].
      + split; [apply Forall_forall; intros e He; unfold no_sharing in He; apply in_map_iff in He as (x & <- & Hx); reflexivity|].
        intros ty0 d Hd Sk. destruct (F2 ty0 d Hd Sk) as (c & Hc & Kn). exists (no_key, 1, c). split; [unfold no_sharing; apply in_map_iff; eauto|]. split; [exact Kn|]. now apply F1.
      + split; [apply Forall_forall; intros e He; apply in_map_iff in He as (x & <- & Hx); destruct (is_td s x); reflexivity|].
        apply (merged_knows (limit s l)) in Hm as (Om & Tm & Km); auto.
        2: { intros t Hi. apply filter_In in Hi as [Hi T]. split; auto. }
        intros ty0 d Hd Sk. destruct (F2 ty0 d Hd Sk) as (c & Hc & Kn). pose proof (knows_td _ _ _ Kn) as Tc. eexists. split; [apply in_map_iff; exists c; split; [rewrite Tc; reflexivity|exact Hc]|]. unfold etree. cbn [snd]. split; [|exact Om].
        apply (Km d c); auto. apply filter_In. auto.
    - intros done chs added v child Hin [A B] Hb. rewrite Forall_forall in A. destruct (build_knows _ _ _ _ _ TS Hb (done ++ [v])) as [On Kn]; [apply in_app_iff; right; now left|].
      assert (Inc : incl done (done ++ [v])) by apply incl_appl, incl_refl.
      assert (G : forall child', tkind child' = tkind child -> Forall (only_from (done ++ [v])) (chs ++ [child']) /\
        forall ty d, In (VMap MDict ty d) (done ++ [v]) -> string_keys d -> exists c, In c (chs ++ [child']) /\ knows (done ++ [v]) d c).
      { intros child' Ek. split.
        - apply Forall_app. split; [apply Forall_forall; intros x Hx; apply (only_mono done); auto|]. constructor; auto. unfold only_from, is_td, node_is_typed_dict, node_meta in *. now rewrite Ek.
        - intros ty0 d Hd Sk. apply in_app_iff in Hd as [Hd|[->|[]]].
          + destruct (B ty0 d Hd Sk) as (c & Hc & Kc). exists c. split; [apply in_app_iff; auto|exact Kc].
          + exists child'. split; [apply in_app_iff; right; now left|]. destruct (Kn ty0 d eq_refl Sk) as (D & m & E & X). exists D, m. now rewrite Ek. }
      destruct (lookup_tree s child added); apply G; auto. unfold rename. apply ren_kind.
    - split; [constructor|]. intros ty0 d [].
  Qed.

  (** ** Values under keys *)
  Lemma unlike_built f n dp f' n' dp' x y cx cy : is_td_strategy s = true -> build s ord f n dp false x = Ok cx -> build s ord f' n' dp' false y = Ok cy -> unlike x y ->
    (exists t d, y = VMap MDict t d /\ string_keys d) \/ (exists t l, y = VSeq KList t l) -> teq s cy cx = false.
  Proof.
    intros TS Hx Hy U Y. apply not_true_iff_false. intros E. pose proof (made_from_root _ _ _ _ _ _ _ _ Hx) as Mx. pose proof (made_from_root _ _ _ _ _ _ _ _ Hy) as My.
    assert (C : class_of (tkind cy) = class_of (tkind cx)) by (unfold teq in E; apply andb_true_iff in E as [E _]; now apply Nat.eqb_eq in E).
    destruct Y as [(t & d & -> & Sk)|(t & l & ->)].
    - destruct x as [| | | | | | |k ? ?|k ty kvs]; try (destruct Mx as [_ Mx]; destruct My as [_ (D & m & My)]; rewrite Mx, My in C; try destruct k; discriminate C).
      destruct k; [|destruct Mx as [_ Mx]; destruct My as [_ (D & m & My)]; rewrite Mx, My in C; discriminate C].
      assert (Ty : is_td s cy = true).
      { apply build_dict_node in Hy as [K _]; auto. unfold is_td, node_is_typed_dict. rewrite K. unfold is_typed_dict. rewrite TS, andb_true_r. now apply string_keys_all. }
      pose proof (td_teq s _ _ (build_has_cs _ _ _ _ _ _ _ _ Hx) Ty E) as Tx. pose proof (td_teq_keys s _ _ Ty Tx E) as KK.
      apply build_dict_node in Hx as [K C1]; auto. apply build_dict_node in Hy as [K2 C2]; auto. unfold child_key in KK. rewrite C1, C2 in KK. cbn [unlike] in U.
      destruct U as (k & Nk & U). { apply string_keys_all. unfold is_td, node_is_typed_dict in Tx. rewrite K in Tx. unfold is_typed_dict in Tx. apply andb_true_iff in Tx as [Tx _]. exact Tx. }
      apply U. specialize (KK k). rewrite !visible_In in KK. tauto.
    - destruct My as [_ My]. destruct x as [| | | | | | |k ? ?|k ty kvs]; try (destruct Mx as [_ Mx]; rewrite Mx, My in C; discriminate C).
      + destruct k; try (destruct Mx as [_ Mx]; rewrite Mx, My in C; discriminate C). destruct U.
      + destruct k; destruct Mx as [_ Mx]; [destruct Mx as (D & m & Mx)|]; rewrite Mx, My in C; discriminate C.
  Qed.
  Lemma first_under_kind v p y : first_under v p y -> (exists t d, v = VMap MDict t d /\ string_keys d) \/ (exists t l, v = VSeq KList t l).
  Proof. destruct 1; eauto. Qed.
  (** What the place of a value is like. *)
  Definition place (y : pyval) (c : tree) : Prop :=
    match y with
    | VMap MDict _ d => tkind c = NDict d (init_meta d) /\ map ekey (tcs c) = visible_keys d
    | VSeq KList _ l => all_known (limit s l) c
    | _ => False
    end.
  Lemma place_ren y c k new n : place y c -> place y (ren k new n c).
  Proof.
    destruct y as [| | | | | | |k0 t l|k0 t d]; try exact (fun H => H); destruct k0; cbn [place]; try exact (fun H => H).
    - apply all_known_ren.
    - rewrite ren_kind, ren_cs. intros [A B]. split; auto. rewrite map_map, <- B. apply map_ext. intros [[? ?] ?]. reflexivity.
  Qed.
  Lemma place_built v p y : first_under v p y -> is_td_strategy s = true -> unique_keys v -> forall f name dp r t, build s ord f name dp r v = Ok t -> exists c, route t p c /\ place y c.
  Proof.
    intros F TS. induction F as [t d Sk|t l|ty d1 k x d2 p y Sk Nk U F IH]; intros Uk f name dp r tr H.
    - exists tr. split; [constructor|]. apply build_dict_node in H; auto.
    - exists tr. split; [constructor|]. cbn [place]. eapply build_items; eauto.
    - pose proof (Uk _ _ _ (sub_refl _)) as Nd. destruct f as [|f]; cbn [build] in H; [discriminate|]. rewrite TS in H. apply bind_Ok in H as (cs & H1 & H2). injection H2 as <-.
      pose proof (build_values_keys _ _ _ _ H1) as Kc. pose proof (build_values_spec _ _ _ _ H1) as Sp. rewrite filter_app in Sp. cbn [filter fst] in Sp.
      assert (Hk : is_hidden (KStr k) = false) by (apply not_true_iff_false; intros E; apply Nk; now apply hidden_doc). rewrite Hk in Sp. cbn [negb] in Sp.
      apply Forall2_app_inv_l in Sp as (c1 & c2 & Sp1 & Sp2 & ->). inversion Sp2 as [|? [k' c] ? c2' [Ek Hb] Sp3]; subst. cbn [fst snd] in Ek, Hb. subst k'.
      assert (NdC : NoDup (map fst (c1 ++ (KStr k, c) :: c2'))) by (rewrite Kc; now apply visible_NoDup).
      destruct (first_shared s name c1 (KStr k) c c2' NdC) as (e & He & Ee & Et).
      { intros k' c' Hc'. assert (Sp1' : exists x', In (k', x') d1 /\ is_hidden k' = false /\ build s ord f (value_name name k') (S dp) false x' = Ok c').
        { clear - Sp1 Hc'. remember (filter _ d1) as l eqn:El. assert (I : forall kv, In kv l -> In kv d1 /\ is_hidden (fst kv) = false) by (intros kv Hkv; subst l; apply filter_In in Hkv as [A B]; apply negb_true_iff in B; auto).
          clear El. induction Sp1 as [|[k0 x0] [k1 y1] l l' [A B] Sp IHs]; [destruct Hc'|]. cbn [fst snd] in *. destruct Hc' as [E|Hc'].
          - injection E as -> ->. subst k0. exists x0. destruct (I _ (or_introl eq_refl)) as [I1 I2]. auto.
          - apply IHs; auto. intros kv Hkv. apply I. now right. }
        destruct Sp1' as (x' & Hx' & Hh & Hb'). eapply unlike_built; [exact TS|exact Hb'|exact Hb| |eapply first_under_kind; eauto].
        eapply U; eauto. intros D. apply hidden_doc in D. congruence. }
      assert (Ux : unique_keys x). { intros mk t0 kvs Hs. apply (Uk mk t0). eapply sub_map; [apply in_app_iff; right; left; reflexivity|exact Hs]. }
      destruct (IH Ux _ _ _ _ _ Hb) as (c0 & Rc & Pc).
      assert (NN : forall e', In e' (share_groups s name (c1 ++ (KStr k, c) :: c2')) -> ekey e' <> KNone).
      { intros e' He' En. apply share_groups_trees in He' as [He' _]. rewrite Kc in He'. apply visible_In in He' as [_ He']. destruct (Sk _ He') as (z & Ez). congruence. }
      destruct Et as [Et|(n & Et)].
      + exists c0. split; auto. eapply ro_key; eauto. now rewrite Et.
      + destruct (route_ren 1 n (String.length (tname c)) _ _ _ Rc) as (k' & Rc'). exists (ren k' n (String.length (tname c)) c0). split; [|now apply place_ren].
        eapply ro_key; eauto. rewrite Et. exact Rc'.
  Qed.
End Items.
