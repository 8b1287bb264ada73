(** The fuel is no limitation: the construction never runs out of it and does not depend on it. *)
From Coq Require Import Ascii String List Bool Arith Lia Permutation.
From Verif Require Import PyStr PyStrFacts Utils Strategies Dispatch Values Tree Build TreeFacts SpecData BuildFacts BuildInd TotalFacts.
Import ListNotations.
Local Open Scope string_scope.

Lemma bind_ext {A B} (r : res A) (f g : A -> res B) : (forall a, r = Ok a -> f a = g a) -> bind r f = bind r g.
Proof. destruct r; simpl; auto. Qed.
Lemma bind_oof {A B} (r : res A) (f : A -> res B) : r <> OutOfFuel -> (forall a, r = Ok a -> f a <> OutOfFuel) -> bind r f <> OutOfFuel.
Proof. destruct r; simpl; intros H G E; [eapply G; eauto | discriminate | congruence]. Qed.

Lemma build_set_ext s b1 b2 parent els : (forall n v, In v els -> b1 n v = b2 n v /\ b1 n v <> OutOfFuel) ->
  forall st, build_set s b1 parent els st = build_set s b2 parent els st /\ build_set s b1 parent els st <> OutOfFuel.
Proof.
  induction els as [|v els IH]; intros H st; simpl; [split; [auto | discriminate]|].
  destruct (H (fresh_name (element_name parent v) (snd st)) v (or_introl eq_refl)) as [E N]. rewrite <- E. split.
  - apply bind_ext. intros. apply IH. intros; apply H; simpl; auto.
  - apply bind_oof; auto. intros. apply IH. intros; apply H; simpl; auto.
Qed.
Lemma build_list_ext s b1 b2 parent els : (forall n v, In v els -> b1 n v = b2 n v /\ b1 n v <> OutOfFuel) ->
  forall ch added, build_list s b1 parent els ch added = build_list s b2 parent els ch added /\ build_list s b1 parent els ch added <> OutOfFuel.
Proof.
  induction els as [|v els IH]; intros H ch added; simpl; [split; [auto | discriminate]|].
  destruct (H (fresh_name (element_name parent v) (map snd added)) v (or_introl eq_refl)) as [E N]. rewrite <- E. split.
  - apply bind_ext. intros. destruct (lookup_tree s a added); apply IH; intros; apply H; simpl; auto.
  - apply bind_oof; auto. intros. destruct (lookup_tree s a added); apply IH; intros; apply H; simpl; auto.
Qed.
Lemma build_values_ext b1 b2 parent kvs : (forall n k v, In (k, v) kvs -> b1 n v = b2 n v /\ b1 n v <> OutOfFuel) ->
  build_values b1 parent kvs = build_values b2 parent kvs /\ build_values b1 parent kvs <> OutOfFuel.
Proof.
  induction kvs as [|[k v] kvs IH]; intros H; simpl; [split; [auto | discriminate]|].
  destruct IH as [IH1 IH2]; [intros; eapply H; simpl; eauto|]. destruct (is_hidden k); auto.
  destruct (H (value_name parent k) k v (or_introl eq_refl)) as [E N]. rewrite <- E, <- IH1. split; [reflexivity|].
  apply bind_oof; auto. intros. apply bind_oof; auto. discriminate.
Qed.
Lemma from_multiple_ext b1 b2 trees :
  (forall n, b1 n (fold_left (fun d t => dupdate d (node_data t)) trees []) = b2 n (fold_left (fun d t => dupdate d (node_data t)) trees []) /\
             b1 n (fold_left (fun d t => dupdate d (node_data t)) trees []) <> OutOfFuel) ->
  from_multiple b1 trees = from_multiple b2 trees /\ from_multiple b1 trees <> OutOfFuel.
Proof.
  intros H. unfold from_multiple. destruct trees as [|first rest]; [split; [auto | discriminate]|].
  destruct (H (fold_left (fun n t => str_min n (tname t)) (first :: rest) (tname first))) as [E N]. rewrite <- E. split; [reflexivity|].
  apply bind_oof; auto. discriminate.
Qed.

Section Fuel.
  Variable s : strategies.
  Variable ord : set_order.
  Hypothesis Hord : set_like ord.

  Lemma from_els_limit_set f name d l ch :
    build_set s (fun n x => build s ord f n (S d) false x) name l ([], []) = Ok ch -> forall t, In t ch -> from_els l t.
  Proof.
    intros H. eapply (build_set_inv _ _ _ (fun _ st => Forall (from_els l) (fst st)) _ []) in H as (names & H).
    - simpl in H. now rewrite Forall_forall in H.
    - intros done [chs names] v child Hv Hi Hb. simpl in *. apply build_from_els in Hb as [Hb _].
      assert (B : from_els l child) by (eapply from_els_incl; [|exact Hb]; intros x [<-|[]]; auto).
      unfold add_child. destruct (existsb (teq s child) chs).
      + destruct (node_is_typed_dict s child); auto. simpl. apply Forall_forall. intros x Hx.
        apply in_map_iff in Hx as (y & <- & Hy). rewrite Forall_forall in Hi. destruct (teq s child y); auto. apply from_els_update; auto.
      + simpl. apply Forall_app. auto.
    - constructor.
  Qed.
  Lemma from_els_limit_list f name d l ch :
    build_list s (fun n x => build s ord f n (S d) false x) name l [] [] = Ok ch -> forall t, In t ch -> from_els l t.
  Proof.
    intros H. eapply (build_list_inv _ _ _ (fun _ ch _ => Forall (from_els l) ch) _ []) in H as (names & H).
    - now rewrite Forall_forall in H.
    - intros done chs added v child Hv Hi Hb. apply build_from_els in Hb as [Hb _].
      assert (B : from_els l child) by (eapply from_els_incl; [|exact Hb]; intros x [<-|[]]; auto).
      destruct (lookup_tree s child added); apply Forall_app; split; auto. constructor; auto. now apply from_els_ren.
    - constructor.
  Qed.

  Lemma merged_depth f l trees : (forall v, In v l -> vdepth v <= f) ->
    (forall t, In t trees -> from_els l t) -> (exists t d m, In t trees /\ tkind t = NDict d m) ->
    vdepth (exhaust (VMap MDict ty_dict (fold_left (fun d t => dupdate d (node_data t)) trees []))) <= f.
  Proof.
    intros Hd Ht (t0 & d0 & m0 & Ht0 & E0). etransitivity; [apply vdepth_exhaust|]. destruct f as [|f].
    - destruct (Ht t0 Ht0) as (_ & _ & _ & Hk). destruct (Hk _ _ E0) as (mk & ty & kvs & H). apply Hd in H. simpl in H. lia.
    - apply vdepth_map_intro. intros k x H. apply merged_In in H as [[]|(t & H & K)]. destruct (Ht t H) as (_ & C & _).
      apply C in K as (mk & ty & kvs & K1 & K2). apply Hd in K1. eapply vdepth_map in K1; eauto.
  Qed.

  Lemma filter_td_dict chs : filter (is_td s) chs = [] \/ exists t d m, In t (filter (is_td s) chs) /\ tkind t = NDict d m.
  Proof.
    destruct (filter (is_td s) chs) as [|t l] eqn:E; auto. right.
    assert (In t (filter (is_td s) chs)) as H by (rewrite E; simpl; auto). apply filter_In in H as [_ H].
    unfold is_td, node_is_typed_dict in H. destruct (tkind t) eqn:K; try discriminate. exists t, data, m. simpl. auto.
  Qed.

  Lemma build_fuel : forall f1 f2 name d r v, vdepth v <= f1 -> vdepth v <= f2 ->
    build s ord f1 name d r v = build s ord f2 name d r v /\ build s ord f1 name d r v <> OutOfFuel.
  Proof.
    induction f1 as [|f1 IH]; intros f2 name d r v H1 H2.
    - destruct v; simpl in H1; try lia; destruct f2; cbn [build]; unfold leaf; destruct (is_compatible name); split; auto; discriminate.
    - destruct v; try (destruct f2; cbn [build]; unfold leaf; destruct (is_compatible name); split; auto; discriminate).
      + destruct f2 as [|f2]; [simpl in H2; lia|]. cbn [build]. destruct (negb (is_compatible name)); [split; [auto | discriminate]|].
        assert (Hel : forall v, In v (limit s l) -> vdepth v <= f1 /\ vdepth v <= f2).
        { intros v Hv. apply limit_incl in Hv. split; eapply vdepth_seq; eauto. }
        assert (Hb : forall n v, In v (limit s l) -> build s ord f1 n (S d) false v = build s ord f2 n (S d) false v /\ build s ord f1 n (S d) false v <> OutOfFuel).
        { intros n v Hv. apply Hel in Hv as []. auto. }
        assert (Hm : forall trees, (forall t, In t trees -> from_els (limit s l) t) -> (exists t d m, In t trees /\ tkind t = NDict d m) ->
          from_multiple (fun n d0 => build s ord f1 n (S d) false (exhaust (VMap MDict ty_dict d0))) trees =
          from_multiple (fun n d0 => build s ord f2 n (S d) false (exhaust (VMap MDict ty_dict d0))) trees /\
          from_multiple (fun n d0 => build s ord f1 n (S d) false (exhaust (VMap MDict ty_dict d0))) trees <> OutOfFuel).
        { intros trees Ht He. apply from_multiple_ext. intros n. apply IH; eapply merged_depth; eauto; intros v Hv; now apply Hel. }
        assert (Hset : bind (build_set s (fun n x => build s ord f1 n (S d) false x) name (limit s l) ([], []))
              (merge_set s ord (fun n d0 => build s ord f1 n (S d) false (exhaust (VMap MDict ty_dict d0)))) =
              bind (build_set s (fun n x => build s ord f2 n (S d) false x) name (limit s l) ([], []))
              (merge_set s ord (fun n d0 => build s ord f2 n (S d) false (exhaust (VMap MDict ty_dict d0)))) /\
              bind (build_set s (fun n x => build s ord f1 n (S d) false x) name (limit s l) ([], []))
              (merge_set s ord (fun n d0 => build s ord f1 n (S d) false (exhaust (VMap MDict ty_dict d0)))) <> OutOfFuel).
        { destruct (build_set_ext s _ _ name _ Hb ([], [])) as [E N]. rewrite <- E.
          assert (G : forall ch, build_set s (fun n x => build s ord f1 n (S d) false x) name (limit s l) ([], []) = Ok ch ->
             merge_set s ord (fun n d0 => build s ord f1 n (S d) false (exhaust (VMap MDict ty_dict d0))) ch =
             merge_set s ord (fun n d0 => build s ord f2 n (S d) false (exhaust (VMap MDict ty_dict d0))) ch /\
             merge_set s ord (fun n d0 => build s ord f1 n (S d) false (exhaust (VMap MDict ty_dict d0))) ch <> OutOfFuel).
          { intros ch Hch. unfold merge_set. destruct (should_merge _ _); [|split; [auto | discriminate]].
            destruct (filter_td_dict (ord 1 ch)) as [->|Hx]; [split; [auto | discriminate]|].
            destruct (Hm (filter (is_td s) (ord 1 ch))) as [E1 N1]; auto.
            { intros t0 Ht0. apply filter_In in Ht0 as [Ht0 _]. eapply from_els_limit_set; eauto. eapply Permutation_in; [apply Permutation_sym, Hord | exact Ht0]. }
            rewrite <- E1. split; [reflexivity|]. apply bind_oof; auto. discriminate. }
          split.
          - apply bind_ext. intros ch Hch. now apply G.
          - apply bind_oof; auto. intros ch Hch. now apply G. }
        assert (Hfin : forall (x y : res (list (key * nat * tree))), x = y /\ x <> OutOfFuel ->
           bind x (fun cs => Ok (inner name d r (NSeq k) t cs)) = bind y (fun cs => Ok (inner name d r (NSeq k) t cs)) /\
           bind x (fun cs => Ok (inner name d r (NSeq k) t cs)) <> OutOfFuel).
        { intros x y [-> N]. split; auto. apply bind_oof; auto. discriminate. }
        apply Hfin. destruct k; try exact Hset. destruct (s_tuple s); [|exact Hset].
        destruct (build_list_ext s _ _ name _ Hb [] []) as [E N]. rewrite <- E.
        assert (G : forall ch, build_list s (fun n x => build s ord f1 n (S d) false x) name (limit s l) [] [] = Ok ch ->
             merge_list s (fun n d0 => build s ord f1 n (S d) false (exhaust (VMap MDict ty_dict d0))) ch =
             merge_list s (fun n d0 => build s ord f2 n (S d) false (exhaust (VMap MDict ty_dict d0))) ch /\
             merge_list s (fun n d0 => build s ord f1 n (S d) false (exhaust (VMap MDict ty_dict d0))) ch <> OutOfFuel).
        { intros ch Hch. unfold merge_list. destruct (should_merge _ _); [|split; [auto | discriminate]].
          destruct (filter_td_dict ch) as [->|Hx]; [split; [auto | discriminate]|].
          destruct (Hm (filter (is_td s) ch)) as [E1 N1]; auto.
          { intros t0 Ht0. apply filter_In in Ht0 as [Ht0 _]. eapply from_els_limit_list; eauto. }
          rewrite <- E1. split; [reflexivity|]. apply bind_oof; auto. discriminate. }
        split.
        * apply bind_ext. intros ch Hch. now apply G.
        * apply bind_oof; auto. intros ch Hch. now apply G.
      + destruct f2 as [|f2]; [simpl in H2; lia|]. cbn [build].
        assert (Hb : forall kvs', incl kvs' kvs -> forall n key v, In (key, v) kvs' -> build s ord f1 n (S d) false v = build s ord f2 n (S d) false v /\ build s ord f1 n (S d) false v <> OutOfFuel).
        { intros kvs' Hi n key v Hv. apply Hi in Hv. apply IH; eapply vdepth_map; eauto. }
        destruct k.
        * destruct (build_values_ext _ _ name (if is_td_strategy s then kvs else limit s kvs) (Hb (if is_td_strategy s then kvs else limit s kvs) ltac:(destruct (is_td_strategy s); [apply incl_refl | apply limit_incl]))) as [E N].
          rewrite <- E. split; auto. apply bind_oof; auto. discriminate.
        * destruct (negb (is_compatible name)); [split; [auto | discriminate]|].
          destruct (build_values_ext _ _ name (limit s kvs) (Hb (limit s kvs) (limit_incl s kvs))) as [E N].
          rewrite <- E. split; auto. apply bind_oof; auto. discriminate.
  Qed.
End Fuel.

Lemma from_data_terminates s ord v n : set_like ord -> from_data s ord v n <> OutOfFuel.
Proof.
  intros Ho. unfold from_data. destruct (is_compatible n); [|discriminate]. apply (build_fuel s ord Ho (S (vdepth v)) (S (vdepth v))); lia.
Qed.
Lemma from_data_fuel s ord v n fuel : set_like ord -> is_compatible n = true -> vdepth v <= fuel ->
  build s ord fuel n 0 true v = from_data s ord v n.
Proof.
  intros Ho Hn Hf. unfold from_data. rewrite Hn. apply build_fuel; auto.
Qed.
