(** Totality of the construction; names of the nodes. *)
From Coq Require Import Ascii String List Bool Arith Lia Permutation.
From Verif Require Import PyStr PyStrFacts Utils Strategies Dispatch Values Tree Build TreeFacts SpecNames NamesFacts SpecData BuildFacts BuildInd.
Import ListNotations.
Local Open Scope string_scope.

Lemma dset_pair_In {A} k (a : A) d x y : In (x, y) (dset k a d) -> (x = k /\ y = a) \/ In (x, y) d.
Proof.
  induction d as [|[k' b] d IH]; simpl.
  - intros [E|[]]. injection E; auto.
  - destruct (key_eqb k k') eqn:E; simpl.
    + apply key_eqb_spec in E. subst. intros [F|F]; auto. injection F; auto.
    + intros [F|F]; auto. destruct (IH F); auto.
Qed.
Lemma dupdate_pair_In {A} (d e : list (key * A)) x y : In (x, y) (dupdate d e) -> In (x, y) d \/ In (x, y) e.
Proof.
  unfold dupdate. revert d. induction e as [|[k a] e IH]; intros d H; simpl in *; auto.
  apply IH in H as [H|H]; auto. apply dset_pair_In in H as [[-> ->]|H]; auto.
Qed.
Lemma merged_In trees : forall d x y, In (x, y) (fold_left (fun d t => dupdate d (node_data t)) trees d) ->
  In (x, y) d \/ exists t, In t trees /\ In (x, y) (node_data t).
Proof.
  induction trees as [|t trees IH]; intros d x y H; simpl in *; auto.
  apply IH in H as [H|(t' & H & K)]; [|eauto]. apply dupdate_pair_In in H as [H|H]; eauto.
Qed.
Lemma update_meta_data m m' x y : In (x, y) (m_data (update_meta m m')) -> In (x, y) (m_data m) \/ In (x, y) (m_data m').
Proof.
  unfold update_meta. cbn [m_data]. generalize (m_data m'), (m_data m). intros l. induction l as [|[k a] l IH]; intros d H; simpl in *; auto.
  apply IH in H as [H|H]; auto. destruct (dmem k d); auto. apply dset_pair_In in H as [[-> ->]|H]; auto.
Qed.

(** What is known about a child created from one of the elements. *)
Definition data_in (l : list pyval) (d : list (key * pyval)) : Prop :=
  forall k x, In (k, x) d -> exists mk ty kvs, In (VMap mk ty kvs) l /\ In (k, x) kvs.
Definition from_els (l : list pyval) (t : tree) : Prop :=
  (exists v, In v l /\ i_type (ti t) = type_of v) /\ data_in l (node_data t) /\ data_in l (m_data (node_meta t)) /\
  (forall d m, tkind t = NDict d m -> exists mk ty kvs, In (VMap mk ty kvs) l).

Lemma from_els_incl l l' t : incl l l' -> from_els l t -> from_els l' t.
Proof.
  intros I ((v & A & B) & C & D & E). split; [eauto|]. split; [|split].
  - intros k x H. destruct (C k x H) as (mk & ty & kvs & ? & ?). exists mk, ty, kvs. split; auto.
  - intros k x H. destruct (D k x H) as (mk & ty & kvs & ? & ?). exists mk, ty, kvs. split; auto.
  - intros d m H. destruct (E d m H) as (mk & ty & kvs & ?). exists mk, ty, kvs. auto.
Qed.
Lemma from_els_update l t o : from_els l t -> from_els l o -> from_els l (update_node t o).
Proof.
  intros ((v & A & B) & C & D & E) (_ & C' & D' & E'). unfold update_node. destruct (tkind t) as [| | | | | | | |d1 m1] eqn:Kt;
    try (split; [exists v; auto|]; split; [exact C|]; split; [exact D|]; rewrite Kt; auto).
  destruct (tkind o) as [| | | | | | | |d2 m2] eqn:Ko; try (split; [exists v; auto|]; split; [exact C|]; split; [exact D|]; rewrite Kt; auto).
  unfold node_meta in D, D'. rewrite Kt in D. rewrite Ko in D'.
  assert (F : data_in l (m_data (update_meta m1 m2))).
  { intros k x H. apply update_meta_data in H as [H|H]; auto. }
  split; [exists v; auto|]. unfold node_data, node_meta, tkind. cbn [ti i_kind]. split; [|split]; auto. intros d m' _. eapply E; eauto.
Qed.
Lemma from_els_ren l t k new n : from_els l t -> from_els l (ren k new n t).
Proof.
  unfold from_els, node_data, node_meta. rewrite ren_kind, ren_type. auto.
Qed.

Lemma build_from_els s ord fuel name d r v t : build s ord fuel name d r v = Ok t -> from_els [v] t /\ tname t = name.
Proof.
  assert (L : forall k ty, ty = type_of v -> leaf_kind k -> leaf name d r k ty = Ok t -> from_els [v] t /\ tname t = name).
  { intros k ty -> Hk H. unfold leaf in H. destruct (is_compatible name); [|discriminate]. injection H as <-. split; [|reflexivity].
    unfold from_els, node_data, node_meta, tkind. simpl. split; [exists v; auto|]. destruct k; try destruct Hk; repeat split; intros ? ? F; try discriminate F; destruct F. }
  destruct fuel as [|f]; destruct v; cbn [build]; intros H; try (eapply L; eauto; exact I).
  - destruct (negb (is_compatible name)); discriminate.
  - destruct k; [discriminate|]. destruct (negb (is_compatible name)); discriminate.
  - destruct (negb (is_compatible name)); [discriminate|]. apply bind_Ok in H as (cs & H1 & H2). injection H2 as <-. split; [|reflexivity].
    unfold from_els, node_data, node_meta, tkind. simpl. split; [eexists; split; [left; reflexivity | reflexivity]|].
    repeat split; intros ? ? F; try discriminate F; destruct F.
  - destruct k.
    + apply bind_Ok in H as (cs & H1 & H2). injection H2 as <-. split; [|reflexivity].
      set (data := if is_td_strategy s then kvs else limit s kvs).
      assert (incl data kvs) by (unfold data; destruct (is_td_strategy s); [apply incl_refl | apply limit_incl]).
      unfold from_els, node_data, node_meta, tkind. simpl. split; [eexists; split; [left; reflexivity | reflexivity]|].
      split; [|split].
      * intros k x Hx. exists MDict, t0, kvs. split; [simpl; auto | exact (H _ Hx)].
      * intros k x Hx. exists MDict, t0, kvs. split; [simpl; auto | exact (H _ Hx)].
      * intros. exists MDict, t0, kvs. simpl; auto.
    + destruct (negb (is_compatible name)); [discriminate|]. apply bind_Ok in H as (cs & H1 & H2). injection H2 as <-. split; [|reflexivity].
      unfold from_els, node_data, node_meta, tkind. simpl. split; [eexists; split; [left; reflexivity | reflexivity]|].
      repeat split; intros ? ? F; try discriminate F; destruct F.
Qed.

Lemma update_node_name t o : tname (update_node t o) = tname t.
Proof. unfold update_node. destruct (tkind t); auto. destruct (tkind o); auto. Qed.
Lemma all_names_kind P i cs k : all_names P (Node (with_kind i k) cs) <-> all_names P (Node i cs).
Proof. reflexivity. Qed.
Lemma all_names_update P t o : all_names P t -> all_names P (update_node t o).
Proof. destruct (update_node_cases t o) as [->|(?&?&?&?&?&->)]; auto. now destruct t. Qed.
Lemma all_names_set_meta P t m : all_names P t -> all_names P (set_meta m t).
Proof. destruct (set_meta_cases m t) as [->|(?&?&?&?&?&->)]; auto. now destruct t. Qed.
Lemma all_names_root P t : all_names P t -> P (tname t).
Proof. destruct t. simpl. tauto. Qed.
Lemma all_names_impl (P P' : string -> Prop) t : (forall x, P x -> P' x) -> all_names P t -> all_names P' t.
Proof.
  intros H. induction t as [i cs IH] using tree_ind'. rewrite !all_names_node. intros [A B]. split; auto.
  rewrite Forall_forall in *. intros e He. apply (IH e He). now apply B.
Qed.

Definition namedW (W : ascii -> bool) (v : pyval) : Prop :=
  (forall x, sub x v -> wordW W (ty_name (type_of x))) /\ (forall k, key_in k v -> keyW W k).

Lemma named_sub W v x : namedW W v -> sub x v -> namedW W x.
Proof.
  intros [A B] Hs. split.
  - intros y Hy. apply A. eapply sub_trans; eauto.
  - intros k (mk & t & kvs & y & H & H1). apply B. exists mk, t, kvs, y. split; auto. eapply sub_trans; eauto.
Qed.
Lemma named_type W v : namedW W v -> wordW W (ty_name (type_of v)).
Proof. intros [A _]. apply A. constructor. Qed.
Lemma named_key W mk t kvs k x : namedW W (VMap mk t kvs) -> In (k, x) kvs -> keyW W k.
Proof. intros [_ B] H. apply B. exists mk, t, kvs, x. split; auto. constructor. Qed.
Lemma named_exhaust W v : namedW W v -> namedW W (exhaust v).
Proof.
  intros [A B]. split.
  - intros x Hx. apply sub_exhaust in Hx as (y & Hy & ->). rewrite type_exhaust. auto.
  - intros k (mk & t & kvs & x & H & H1). apply sub_exhaust in H as (y & Hy & E). destruct y; try discriminate; [destruct k0; discriminate|].
    simpl in E. injection E as -> -> ->. apply in_map_iff in H1 as ([k' z] & E & H1). injection E as -> <-. apply B. do 4 eexists. split; [exact Hy | exact H1].
Qed.
Lemma named_map_intro W kvs : str_forall W "dict" = true -> (forall k x, In (k, x) kvs -> keyW W k /\ namedW W x) ->
  namedW W (VMap MDict ty_dict kvs).
Proof.
  intros Wd H. split.
  - intros x Hx. inversion Hx; subst.
    + split; [apply word_like_spec; reflexivity | exact Wd].
    + apply H in H2 as [_ [A _]]. auto.
  - intros k (mk & t & kvs' & x & Hs & Hk). inversion Hs; subst.
    + now apply H in Hk.
    + apply H in H2 as [_ [_ B]]. apply B. exists mk, t, kvs', x. auto.
Qed.

Section Total.
  Variable s : strategies.
  Variable ord : set_order.
  Hypothesis Hord : set_like ord.
  Hypothesis Hmerge : 1 <= s_merge s.
  Variable W : ascii -> bool.
  Hypothesis HW : closed_class W.
  Hypothesis HWdict : str_forall W "dict" = true.

  Lemma from_multiple_total f d l trees p :
    (forall name v, vdepth v <= f -> namedW W v -> is_compatible name = true -> str_forall W name = true ->
       exists t, build s ord f name (S d) false v = Ok t /\ all_names (good W name) t) ->
    (forall v, In v l -> vdepth v <= f) -> (forall v, In v l -> namedW W v) ->
    trees <> [] -> (forall t, In t trees -> from_els l t /\ all_names (good W p) t /\ exists dt m, tkind t = NDict dt m) ->
    exists m, from_multiple (fun n d0 => build s ord f n (S d) false (exhaust (VMap MDict ty_dict d0))) trees = Ok m /\ all_names (good W p) m.
  Proof.
    intros IH Hd Ho Hn Ht. unfold from_multiple. destruct trees as [|first rest]; [congruence|].
    set (trees := first :: rest) in *.
    set (name := fold_left (fun n t => str_min n (tname t)) trees (tname first)).
    set (merged := fold_left (fun d t => dupdate d (node_data t)) trees []).
    assert (Hname : good W p name).
    { unfold name. destruct (str_min_in trees (tname first)) as [->|(t & H & ->)].
      - destruct (Ht first (or_introl eq_refl)) as (_ & A & _). now apply all_names_root in A.
      - destruct (Ht t H) as (_ & A & _). now apply all_names_root in A. }
    assert (Hm : forall k x, In (k, x) merged -> exists mk ty kvs, In (VMap mk ty kvs) l /\ In (k, x) kvs).
    { intros k x H. apply merged_In in H as [[]|(t & H & K)]. destruct (Ht t H) as ((_ & C & _) & _). now apply C. }
    destruct (IH name (exhaust (VMap MDict ty_dict merged))) as (t & E & A).
    - etransitivity; [apply vdepth_exhaust|]. destruct f as [|f].
      + destruct (Ht first (or_introl eq_refl)) as ((_ & _ & _ & Hk) & _ & dt & m & E). destruct (Hk _ _ E) as (mk & ty & kvs & H).
        apply Hd in H. simpl in H. lia.
      + apply vdepth_map_intro. intros k x H. apply Hm in H as (mk & ty & kvs & H & K). apply Hd in H. eapply vdepth_map in H; eauto.
    - apply named_exhaust, named_map_intro; auto. intros k x H. apply Hm in H as (mk & ty & kvs & H & K). apply Ho in H. split.
      + eapply named_key; eauto.
      + eapply named_sub; eauto. econstructor; eauto. constructor.
    - apply Hname.
    - apply Hname.
    - rewrite E. simpl. eexists. split; [reflexivity|]. apply all_names_set_meta. eapply all_names_impl; [|exact A].
      intros x Hx. eapply good_trans; eauto.
  Qed.

  Lemma build_total : forall fuel name d r v, vdepth v <= fuel -> namedW W v -> is_compatible name = true -> str_forall W name = true ->
    exists t, build s ord fuel name d r v = Ok t /\ all_names (good W name) t.
  Proof.
    induction fuel as [|f IH]; intros name d r v Hd Ho Hc HcW.
    - destruct v; simpl in Hd; try lia; cbn [build]; unfold leaf; rewrite Hc; eexists; (split; [reflexivity|]); simpl; split; auto; now apply good_refl.
    - destruct v; cbn [build]; try (unfold leaf; rewrite Hc; eexists; (split; [reflexivity|]); simpl; split; auto; now apply good_refl).
      + rewrite Hc. cbn [negb].
        assert (Hel : forall v, In v (limit s l) -> vdepth v <= f /\ namedW W v).
        { intros v Hv. apply limit_incl in Hv. split; [eapply vdepth_seq; eauto|]. eapply named_sub; eauto. econstructor; eauto. constructor. }
        assert (Hgood : forall v used, In v (limit s l) -> good W name (fresh_name (element_name name v) used)).
        { intros v used Hv. apply good_element; auto; [now apply good_refl|]. now apply named_type, Hel. }
        assert (Hok : forall v used, In v (limit s l) -> exists c, build s ord f (fresh_name (element_name name v) used) (S d) false v = Ok c).
        { intros v used Hv. destruct (IH (fresh_name (element_name name v) used) (S d) false v) as (c & E & _); try apply Hel; auto; [apply (Hgood v used Hv)|apply (Hgood v used Hv)|]. eauto. }
        assert (Hchild : forall v used child, In v (limit s l) -> build s ord f (fresh_name (element_name name v) used) (S d) false v = Ok child ->
                   from_els (limit s l) child /\ all_names (good W name) child).
        { intros v used child Hv E. destruct (IH (fresh_name (element_name name v) used) (S d) false v) as (c & E' & A); try apply Hel; auto; [apply (Hgood v used Hv)|apply (Hgood v used Hv)|].
          rewrite E in E'. injection E' as <-. split.
          - apply build_from_els in E as [E _]. eapply from_els_incl; [|exact E]. intros x [<-|[]]. auto.
          - eapply all_names_impl; [|exact A]. intros x Hx. eapply good_trans; eauto. }
        assert (Hfin : forall cs, (exists cs', cs = Ok cs' /\ Forall (fun e => all_names (good W name) (etree e)) cs') ->
                  exists t0, bind cs (fun cs => Ok (inner name d r (NSeq k) t cs)) = Ok t0 /\ all_names (good W name) t0).
        { intros cs (cs' & -> & F). simpl. eexists. split; [reflexivity|]. apply all_names_node. split; auto. now apply good_refl. }
        apply Hfin.
        assert (Hset : exists cs', bind (build_set s (fun n x => build s ord f n (S d) false x) name (limit s l) ([], []))
              (merge_set s ord (fun n d0 => build s ord f n (S d) false (exhaust (VMap MDict ty_dict d0)))) = Ok cs' /\ Forall (fun e => all_names (good W name) (etree e)) cs').
        { destruct (build_set_ok s (fun n x => build s ord f n (S d) false x) name (limit s l) ([], [])) as (ch & E); [auto|].
          pose proof E as E'. eapply (build_set_inv _ _ _ (fun _ st => Forall (fun t => from_els (limit s l) t /\ all_names (good W name) t) (fst st)) _ []) in E' as (names & I).
          - simpl in I. rewrite Forall_forall in I. rewrite E. cbn [bind]. unfold merge_set.
            destruct (should_merge _ _) eqn:SM.
            + destruct (from_multiple_total f d (limit s l) (filter (is_td s) (ord 1 ch)) name) as (m & Em & Am).
              * intros. now apply IH.
              * intros v Hv. now apply Hel.
              * intros v Hv. now apply Hel.
              * apply should_merge_nonnil in SM; auto. apply metas_of_nonnil in SM as (t1 & H1 & H2). intros E0.
                assert (In t1 (filter (is_td s) (ord 1 ch))).
                { apply filter_In. split; auto. eapply Permutation_in; [apply Hord|]. eapply Permutation_in; [apply Permutation_sym, Hord | exact H1]. }
                rewrite E0 in H. destruct H.
              * intros t1 H1. apply filter_In in H1 as [H1 H2]. apply (Permutation_in _ (Permutation_sym (Hord 1 ch))) in H1.
                destruct (I _ H1). repeat split; auto; try apply H. unfold is_td, node_is_typed_dict in H2. destruct (tkind t1); try discriminate. eauto.
              * rewrite Em. cbn [bind]. eexists. split; [reflexivity|]. apply Forall_forall. intros e He. apply in_map_iff in He as (x & <- & Hx). unfold etree. simpl.
                apply (Permutation_in _ (Permutation_sym (Hord 2 _))) in Hx.
                assert (In x ch \/ x = m) as [K|K].
                { destruct (existsb _ _); [apply filter_In in Hx as []; auto|]. apply in_app_iff in Hx as [Hx|[Hx|[]]]; auto. apply filter_In in Hx as []; auto. }
                -- now apply I.
                -- now subst.
            + eexists. split; [reflexivity|]. apply Forall_forall. intros e He. apply in_map_iff in He as (x & <- & Hx). unfold etree. simpl.
              apply I. eapply Permutation_in; [apply Permutation_sym, Hord | exact Hx].
          - intros done [chs names] v child Hv Hi Hb. simpl in *. apply Hchild in Hb; auto. unfold add_child. destruct (existsb (teq s child) chs).
            + destruct (node_is_typed_dict s child); auto. simpl. apply Forall_forall. intros x Hx.
              apply in_map_iff in Hx as (y & <- & Hy). rewrite Forall_forall in Hi. destruct (teq s child y); auto. destruct (Hi y Hy), Hb. split.
              * now apply from_els_update.
              * now apply all_names_update.
            + simpl. apply Forall_app. split; auto.
          - constructor. }
        destruct k; try exact Hset. destruct (s_tuple s) eqn:ET; [|exact Hset].
        destruct (build_list_ok s (fun n x => build s ord f n (S d) false x) name (limit s l) [] []) as (ch & E); [auto|].
        pose proof E as E'. eapply (build_list_inv _ _ _ (fun _ ch added => Forall (fun t => from_els (limit s l) t /\ all_names (good W name) t) ch /\ Forall (fun e => good W name (snd e)) added) _ []) in E' as (names & I & _).
        * rewrite Forall_forall in I. rewrite E. cbn [bind]. unfold merge_list. destruct (should_merge _ _) eqn:SM.
          -- destruct (from_multiple_total f d (limit s l) (filter (is_td s) ch) name) as (m & Em & Am).
             ++ intros. now apply IH.
             ++ intros v Hv. now apply Hel.
             ++ intros v Hv. now apply Hel.
             ++ apply should_merge_nonnil in SM; auto. apply metas_of_nonnil in SM as (t1 & H1 & H2). intros E0.
                assert (In t1 (filter (is_td s) ch)) by (apply filter_In; auto). rewrite E0 in H. destruct H.
             ++ intros t1 H1. apply filter_In in H1 as [H1 H2].
                destruct (I _ H1). repeat split; auto; try apply H. unfold is_td, node_is_typed_dict in H2. destruct (tkind t1); try discriminate. eauto.
             ++ rewrite Em. cbn [bind]. eexists. split; [reflexivity|]. apply Forall_forall. intros e He. apply in_map_iff in He as (x & <- & Hx).
                destruct (is_td s x); unfold etree; simpl; auto. now apply I.
          -- eexists. split; [reflexivity|]. apply Forall_forall. intros e He. apply in_map_iff in He as (x & <- & Hx). unfold etree. simpl. now apply I.
        * intros done chs added v child Hv [Hi Ha] Hb. apply Hchild in Hb; auto. destruct Hb as [B1 B2].
          unfold lookup_tree. destruct (find _ added) as [[t1 n1]|] eqn:F; simpl.
          -- split; auto. apply Forall_app. split; auto. constructor; auto. split; [now apply from_els_ren|].
             apply good_ren; auto. apply find_some in F as [F _]. rewrite Forall_forall in Ha. apply (Ha _ F).
          -- split; apply Forall_app; split; auto. constructor; auto. simpl. now apply all_names_root.
        * split; constructor.
      + assert (Hval : forall kvs', incl kvs' kvs -> exists cs, build_values (fun n x => build s ord f n (S d) false x) name kvs' = Ok cs /\
           forall (p : string) , Forall (fun e => all_names (good W name) (etree e)) (share_groups s name cs)).
        { intros kvs' Hincl.
          assert (Hel : forall k0 x, In (k0, x) kvs' -> exists c, build s ord f (value_name name k0) (S d) false x = Ok c /\ all_names (good W name) c).
          { intros k0 x H. apply Hincl in H.
            assert (G : good W name (value_name name k0)) by (apply good_value; auto; [now apply good_refl | eapply named_key; eauto]).
            destruct (IH (value_name name k0) (S d) false x) as (c & E & A).
            - eapply vdepth_map; eauto.
            - eapply named_sub; eauto. econstructor; eauto. constructor.
            - apply G.
            - apply G.
            - exists c. split; auto. eapply all_names_impl; [|exact A]. intros y Hy. eapply good_trans; eauto. }
          destruct (build_values_ok (fun n x => build s ord f n (S d) false x) name kvs') as (cs & E).
          - intros k0 x H _. destruct (Hel k0 x H) as (c & E & _). eauto.
          - exists cs. split; auto. intros _. apply Forall_forall. intros e He. apply share_groups_trees in He as (_ & k0 & t1 & H1 & H2).
            destruct (build_values_In _ _ _ _ _ _ E H1) as (_ & x & Hx & E1). destruct (Hel _ _ Hx) as (c & E2 & A). rewrite E1 in E2. injection E2 as <-.
            destruct H2 as [->|(last & ->)]; auto. apply good_ren; auto. apply good_group; auto; [now apply good_refl|].
            apply build_from_els in E1 as (((v & [<-|[]] & Ev) & _) & _). rewrite Ev. apply named_type. eapply named_sub; eauto. econstructor; [apply Hincl; eauto|constructor]. }
        destruct k.
        * destruct (Hval (if is_td_strategy s then kvs else limit s kvs)) as (cs & E & F).
          { destruct (is_td_strategy s); [apply incl_refl | apply limit_incl]. }
          rewrite E. cbn [bind]. eexists. split; [reflexivity|]. apply all_names_node. split; [now apply good_refl | now apply F].
        * rewrite Hc. cbn [negb]. destruct (Hval (limit s kvs) (limit_incl s kvs)) as (cs & E & F).
          rewrite E. cbn [bind]. eexists. split; [reflexivity|]. apply all_names_node. split; [now apply good_refl | now apply F].
  Qed.
End Total.
