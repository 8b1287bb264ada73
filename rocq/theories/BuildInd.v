(** A closure principle for the nodes that the construction creates, and totality of the construction. *)
From Coq Require Import Ascii String List Bool Arith Lia Permutation.
From Verif Require Import PyStr PyStrFacts Utils Strategies Dispatch Values Tree Build TreeFacts SpecNames NamesFacts SpecData BuildFacts.
Import ListNotations.
Local Open Scope string_scope.

Definition with_kind (i : info) (k : nkind) : info :=
  Info (i_name i) (i_depth i) (i_height i) (i_root i) k (i_type i).

Lemma update_node_cases t o : update_node t o = t \/
  exists d m d' m', tkind t = NDict d m /\ update_node t o = Node (with_kind (ti t) (NDict d' m')) (tcs t).
Proof. unfold update_node. destruct (tkind t) eqn:E; auto. destruct (tkind o); auto. right. repeat eexists. Qed.
Lemma set_meta_cases m0 t : set_meta m0 t = t \/
  exists d m d' m', tkind t = NDict d m /\ set_meta m0 t = Node (with_kind (ti t) (NDict d' m')) (tcs t).
Proof. unfold set_meta. destruct (tkind t) eqn:E; auto. right. repeat eexists. Qed.

Definition leaf_kind (k : nkind) : Prop :=
  match k with NSeq _ | NProxy | NDict _ _ => False | _ => True end.

Section Closed.
  Variable s : strategies.
  Variable ord : set_order.
  Hypothesis Hord : set_like ord.
  (** depth, root, tree *)
  Variable Q : nat -> bool -> tree -> Prop.
  Hypothesis Hleaf : forall name d r k t, leaf_kind k -> Q d r (Node (Info name d 0 r k t) []).
  Hypothesis Hseq : forall name d r k t cs, Forall (fun e => ekey e = no_key) cs -> Forall (fun e => Q (S d) false (etree e)) cs ->
    Q d r (inner name d r (NSeq k) t cs).
  Hypothesis Hmap : forall name d r k t cs, (k = NProxy \/ exists dt m, k = NDict dt m) ->
    Forall (fun e => is_hidden (ekey e) = false) cs -> Forall (fun e => Q (S d) false (etree e)) cs ->
    Q d r (inner name d r k t cs).
  Hypothesis Hren : forall d r t k new n, Q d r t -> Q d r (ren k new n t).
  Hypothesis Hdict : forall d r i cs dt m dt' m', i_kind i = NDict dt m -> Q d r (Node i cs) ->
    Q d r (Node (with_kind i (NDict dt' m')) cs).

  Lemma closed_update d r t o : Q d r t -> Q d r (update_node t o).
  Proof.
    intros H. destruct (update_node_cases t o) as [->|(dt & m & dt' & m' & E & ->)]; auto.
    destruct t as [i cs]. eapply Hdict; eauto.
  Qed.
  Lemma closed_set_meta d r t m : Q d r t -> Q d r (set_meta m t).
  Proof.
    intros H. destruct (set_meta_cases m t) as [->|(dt & m1 & dt' & m' & E & ->)]; auto.
    destruct t as [i cs]. eapply Hdict; eauto.
  Qed.

  Lemma closed_build : forall fuel name d r v t, build s ord fuel name d r v = Ok t -> Q d r t.
  Proof.
    induction fuel as [|f IH]; intros name d r v t H.
    - destruct v; simpl in H; try (unfold leaf in H; destruct (is_compatible name); [injection H as <-; apply Hleaf; exact I | discriminate]).
      + destruct (negb (is_compatible name)); discriminate.
      + destruct k; [discriminate|]. destruct (negb (is_compatible name)); discriminate.
    - assert (Hfm : forall trees m, from_multiple (fun n d0 => build s ord f n (S d) false (exhaust (VMap MDict ty_dict d0))) trees = Ok m -> Q (S d) false m).
      { intros trees m Hm. apply from_multiple_Ok in Hm as (fi & re & t0 & -> & H1 & ->). apply closed_set_meta. eapply IH, H1. }
      destruct v; cbn [build] in H; try (unfold leaf in H; destruct (is_compatible name); [injection H as <-; apply Hleaf; exact I | discriminate]).
      + destruct (negb (is_compatible name)); [discriminate|]. apply bind_Ok in H as (cs & H1 & H2). injection H2 as <-.
        assert (G : Forall (fun e => ekey e = no_key) cs /\ Forall (fun e => Q (S d) false (etree e)) cs); [|apply Hseq; apply G].
        assert (Gset : bind (build_set s (fun n x => build s ord f n (S d) false x) name (limit s l) ([], []))
              (merge_set s ord (fun n d0 => build s ord f n (S d) false (exhaust (VMap MDict ty_dict d0)))) = Ok cs ->
              Forall (fun e => ekey e = no_key) cs /\ Forall (fun e => Q (S d) false (etree e)) cs).
        { clear H1. intros H1. apply bind_Ok in H1 as (ch & H1 & H2).
          eapply (build_set_inv _ _ _ (fun _ st => Forall (Q (S d) false) (fst st)) _ []) in H1 as (names & H1).
          - simpl in H1. apply merge_set_spec in H2; auto. rewrite Forall_forall in H1.
            destruct H2 as [(_ & l' & P & ->)|(_ & trees & m & l' & P & Hm & P' & ->)]; split; apply Forall_forall;
              intros e He; unfold no_sharing in He; apply in_map_iff in He as (x & <- & Hx); auto; unfold etree; simpl.
            + apply H1. eapply Permutation_in; [symmetry; exact P | auto].
            + apply (Permutation_in x (Permutation_sym P')) in Hx.
              assert (In x (filter (fun c => negb (is_td s c)) ch) \/ x = m) as [K|K].
              { cbv zeta in Hx. destruct (existsb _ _); auto. apply in_app_iff in Hx as [?|[?|[]]]; auto. }
              * apply filter_In in K as [K _]. now apply H1.
              * subst. eapply Hfm; eauto.
          - intros done [chs names] v child _ Hi Hb. simpl in *. apply IH in Hb. unfold add_child. destruct (existsb (teq s child) chs).
            + destruct (node_is_typed_dict s child); auto. simpl. apply Forall_forall. intros x Hx.
              apply in_map_iff in Hx as (y & <- & Hy). rewrite Forall_forall in Hi. destruct (teq s child y); auto. now apply closed_update, Hi.
            + simpl. apply Forall_app. split; auto.
          - constructor. }
        destruct k; try (apply Gset; exact H1). destruct (s_tuple s) eqn:ET; [|apply Gset; exact H1].
        apply bind_Ok in H1 as (ch & H1 & H2).
        eapply (build_list_inv _ _ _ (fun _ ch _ => Forall (Q (S d) false) ch) _ []) in H1 as (names & H1).
        * rewrite Forall_forall in H1. apply merge_list_spec in H2 as [(_ & ->)|(_ & m & Hm & ->)]; split; apply Forall_forall; intros e He.
          -- apply in_map_iff in He as (x & <- & Hx). reflexivity.
          -- apply in_map_iff in He as (x & <- & Hx). simpl. auto.
          -- apply in_map_iff in He as (x & <- & Hx). destruct (is_td s x); reflexivity.
          -- apply in_map_iff in He as (x & <- & Hx). destruct (is_td s x); simpl; auto. eapply Hfm; eauto.
        * intros done chs added v child _ Hi Hb. apply IH in Hb. destruct (lookup_tree s child added); apply Forall_app; split; auto.
          constructor; auto. now apply Hren.
        * constructor.
      + assert (GV : forall kvs' cs, build_values (fun n x => build s ord f n (S d) false x) name kvs' = Ok cs ->
          Forall (fun e => is_hidden (ekey e) = false) (share_groups s name cs) /\
          Forall (fun e => Q (S d) false (etree e)) (share_groups s name cs)).
        { intros kvs' cs Hv.
          assert (F : forall k0 t0, In (k0, t0) cs -> is_hidden k0 = false /\ Q (S d) false t0).
          { intros k0 u0 Hk. destruct (build_values_In _ _ _ _ _ _ Hv Hk) as (A & x & _ & B). eauto. }
          split; apply Forall_forall; intros e He; apply share_groups_trees in He as (He1 & k0 & t1 & He2 & He3).
          - apply in_map_iff in He1 as ([k1 t2] & E & He1). apply F in He1 as [He1 _]. simpl in E. now rewrite <- E.
          - apply F in He2 as [_ He2]. destruct He3 as [->|(last & ->)]; auto. now apply Hren. }
        destruct k.
        * apply bind_Ok in H as (cs & H1 & H2). injection H2 as <-. apply GV in H1 as [G1 G2]. apply Hmap; eauto.
        * destruct (negb (is_compatible name)); [discriminate|]. apply bind_Ok in H as (cs & H1 & H2). injection H2 as <-.
          apply GV in H1 as [G1 G2]. apply Hmap; eauto.
  Qed.
End Closed.
