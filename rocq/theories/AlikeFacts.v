(** The tree depends on four of the strategies only; raising the height for aliases removes declarations. *)
From Coq Require Import Ascii String List Bool Arith Lia Permutation.
From Verif Require Import PyStr PyStrFacts Utils Strategies Dispatch Values Tree Build Emit TreeFacts SpecData BuildFacts BuildInd TreeProofs EmitFacts.
Import ListNotations.
Local Open Scope string_scope.

Definition alike (s s' : strategies) : Prop :=
  s_tuple s = s_tuple s' /\ s_dict s = s_dict s' /\ s_merge s = s_merge s'.

Lemma filter_ext' {A} (p q : A -> bool) l : (forall x, p x = q x) -> filter p l = filter q l.
Proof. intros H. apply filter_ext. exact H. Qed.

Section Alike.
  Variables s s' : strategies.
  Hypothesis A : alike s s'.
  Lemma alike_td m : is_typed_dict s m = is_typed_dict s' m.
  Proof. destruct A as (_ & D & _). unfold is_typed_dict, is_td_strategy. now rewrite D. Qed.
  Lemma alike_is_td t : is_td s t = is_td s' t.
  Proof. unfold is_td, node_is_typed_dict. destruct (tkind t); auto. apply alike_td. Qed.
  Lemma alike_hash t : thash s t = thash s' t.
  Proof.
    destruct A as (T & _). induction t as [i cs IH] using tree_ind'. rewrite Forall_forall in IH. cbn [thash].
    assert (E : map (fun e : key * nat * tree => thash s (snd e)) cs = map (fun e => thash s' (snd e)) cs) by (apply map_ext_in; auto).
    assert (E2 : forall g : key -> hk -> hk, map (fun e : key * nat * tree => g (fst (fst e)) (thash s (snd e))) cs = map (fun e => g (fst (fst e)) (thash s' (snd e))) cs).
    { intros g. apply map_ext_in. intros e He. now rewrite IH. }
    destruct (i_kind i) as [|f|c| | |d|k| |data m]; auto.
    - rewrite E, T. destruct k; auto.
    - f_equal. apply (E2 (fun k h => HMap (ty_id (key_type k)) h)).
    - rewrite alike_td. destruct (is_typed_dict s' m); f_equal; [apply (E2 HTd)|apply (E2 (fun k h => HMap (ty_id (key_type k)) h))].
  Qed.
  Lemma alike_teq a b : teq s a b = teq s' a b.
  Proof. unfold teq. now rewrite !alike_hash. Qed.
  Lemma alike_metas ts : metas_of s ts = metas_of s' ts.
  Proof. unfold metas_of. apply flat_map_ext. intros t. destruct (tkind t); auto. now rewrite alike_td. Qed.
  Lemma alike_merge ms : should_merge s ms = should_merge s' ms.
  Proof. destruct A as (_ & _ & M). unfold should_merge. now rewrite M. Qed.
  Lemma alike_exists a l : existsb (teq s a) l = existsb (teq s' a) l.
  Proof. induction l; simpl; auto. now rewrite alike_teq, IHl. Qed.
  Lemma alike_add c n st : add_child s c n st = add_child s' c n st.
  Proof.
    destruct st as [ch ns]. unfold add_child. rewrite alike_exists. destruct (existsb _ _); auto.
    fold (is_td s c) (is_td s' c). rewrite alike_is_td. destruct (is_td s' c); auto. f_equal. apply map_ext. intros x. now rewrite alike_teq.
  Qed.
  Lemma alike_build_set bld bld' p els : (forall n x, bld n x = bld' n x) -> forall st, build_set s bld p els st = build_set s' bld' p els st.
  Proof.
    intros E. induction els as [|v els IH]; intros st; cbn [build_set]; auto. rewrite E. destruct (bld' _ v); cbn [bind]; auto. now rewrite alike_add, IH.
  Qed.
  Lemma alike_lookup t added : lookup_tree s t added = lookup_tree s' t added.
  Proof. unfold lookup_tree. f_equal. induction added as [|e l IH]; simpl; auto. now rewrite alike_teq, IH. Qed.
  Lemma alike_build_list bld bld' p els : (forall n x, bld n x = bld' n x) -> forall ch ad, build_list s bld p els ch ad = build_list s' bld' p els ch ad.
  Proof.
    intros E. induction els as [|v els IH]; intros ch ad; cbn [build_list]; auto. rewrite E. destruct (bld' _ v); cbn [bind]; auto.
    rewrite alike_lookup. destruct (lookup_tree s' a ad); auto.
  Qed.
  Lemma alike_from_multiple bld bld' ts : (forall n d, bld n d = bld' n d) -> from_multiple bld ts = from_multiple bld' ts.
  Proof. intros E. destruct ts; cbn [from_multiple]; auto. unfold from_multiple. now rewrite E. Qed.
  Lemma alike_merge_set ord bld bld' ch : (forall n d, bld n d = bld' n d) -> merge_set s ord bld ch = merge_set s' ord bld' ch.
  Proof.
    intros E. unfold merge_set. rewrite alike_metas, alike_merge. destruct (should_merge _ _); auto.
    rewrite (filter_ext' (is_td s) (is_td s')) by apply alike_is_td. rewrite (alike_from_multiple bld bld') by auto.
    destruct (from_multiple _ _); cbn [bind]; auto. rewrite (filter_ext' (fun c => negb (is_td s c)) (fun c => negb (is_td s' c))) by (intros; now rewrite alike_is_td).
    now rewrite alike_exists.
  Qed.
  Lemma alike_merge_list bld bld' ch : (forall n d, bld n d = bld' n d) -> merge_list s bld ch = merge_list s' bld' ch.
  Proof.
    intros E. unfold merge_list. rewrite alike_metas, alike_merge. destruct (should_merge _ _); auto.
    rewrite (filter_ext' (is_td s) (is_td s')) by apply alike_is_td. rewrite (alike_from_multiple bld bld') by auto.
    destruct (from_multiple _ _); cbn [bind]; auto. f_equal. apply map_ext. intros c. now rewrite alike_is_td.
  Qed.
  Lemma alike_build_values bld bld' p kvs : (forall n x, bld n x = bld' n x) -> build_values bld p kvs = build_values bld' p kvs.
  Proof.
    intros E. induction kvs as [|[k v] kvs IH]; cbn [build_values]; auto. destruct (is_hidden k); auto. rewrite E, IH. reflexivity.
  Qed.
  Lemma alike_groups cs : groups_of s cs = groups_of s' cs.
  Proof.
    assert (G : forall k c gs, add_group s k c gs = add_group s' k c gs).
    { intros k c. induction gs as [|[t ks] gs IH]; simpl; auto. rewrite alike_teq, IH. reflexivity. }
    unfold groups_of. generalize (@nil (tree * list key)). induction cs as [|c cs IH]; intros gs; simpl; auto. now rewrite G, IH.
  Qed.
  Lemma alike_share p cs : share_groups s p cs = share_groups s' p cs.
  Proof. unfold share_groups. now rewrite alike_groups. Qed.

  Hypothesis M : effective_limit s = effective_limit s'.
  Lemma alike_limit {X} (l : list X) : limit s l = limit s' l.
  Proof. unfold limit. now rewrite M. Qed.
  Lemma alike_build ord : forall fuel name d r v, build s ord fuel name d r v = build s' ord fuel name d r v.
  Proof.
    induction fuel as [|f IH]; intros name d r v; destruct v; cbn [build]; auto.
    - destruct (negb _); auto. destruct A as (T & _). rewrite T, alike_limit.
      rewrite (alike_build_set _ (fun n x => build s' ord f n (S d) false x)) by auto.
      rewrite (alike_build_list _ (fun n x => build s' ord f n (S d) false x)) by auto.
      destruct k; try destruct (s_tuple s'); (destruct (build_set _ _ _ _ _) eqn:E1 || destruct (build_list _ _ _ _ _ _) eqn:E1); cbn [bind]; auto;
        try (rewrite (alike_merge_set ord _ (fun n d0 => build s' ord f n (S d) false (exhaust (VMap MDict ty_dict d0)))) by auto; auto);
        try (rewrite (alike_merge_list _ (fun n d0 => build s' ord f n (S d) false (exhaust (VMap MDict ty_dict d0)))) by auto; auto).
    - assert (D : is_td_strategy s = is_td_strategy s') by (destruct A as (_ & D & _); unfold is_td_strategy; now rewrite D).
      rewrite D, alike_limit. destruct k.
      + rewrite (alike_build_values _ (fun n x => build s' ord f n (S d) false x)) by auto.
        destruct (build_values _ _ _); cbn [bind]; auto. now rewrite alike_share.
      + destruct (negb _); auto. rewrite (alike_build_values _ (fun n x => build s' ord f n (S d) false x)) by auto.
        destruct (build_values _ _ _); cbn [bind]; auto. now rewrite alike_share.
  Qed.
  Lemma alike_from_data ord v n : from_data s ord v n = from_data s' ord v n.
  Proof. unfold from_data. destruct (is_compatible n); auto. apply alike_build. Qed.

  (** ** Heights *)
  Hypothesis H : s_min_height s <= s_min_height s'.
  Lemma perm_anti t : perm s' t = true -> perm s t = true.
  Proof.
    unfold perm. destruct (tkind t); auto.
    - destruct (i_root (ti t)); auto. cbn [orb]. rewrite !Nat.ltb_lt. lia.
    - destruct (i_root (ti t)); auto. cbn [orb]. rewrite !Nat.ltb_lt. lia.
    - rewrite alike_td. destruct (is_typed_dict s' m); auto. destruct (i_root (ti t)); auto. cbn [orb]. rewrite !Nat.ltb_lt. lia.
  Qed.
  Lemma collect_anti t : incl (collect s' t) (collect s t).
  Proof.
    induction t as [i cs IH] using tree_ind'. rewrite Forall_forall in IH. intros x. cbn [collect]. destruct cs as [|e cs].
    - destruct (Nat.eqb (i_depth i) 0); cbn [andb]; [|intros []]. destruct (perm s' (Node i [])) eqn:P; [|intros []]. now rewrite (perm_anti _ P).
    - set (l := e :: cs) in *. rewrite !before_none_map. intros G. apply in_app_or in G as [G|G]; apply in_or_app.
      + left. apply in_flat_map in G as (y & Hy & G). apply in_map_iff in Hy as (e' & <- & He). cbn [snd] in G.
        apply in_flat_map. exists (fst (fst e'), (collect s (snd e') ++ (if perm s (snd e') then [snd e'] else []))%list).
        split; [apply in_map_iff; eauto|]. cbn [snd]. apply before_none_In in He. apply in_app_or in G as [G|G]; apply in_or_app; [left; now apply (IH e' He)|].
        right. destruct (perm s' (snd e')) eqn:P; [|destruct G]. now rewrite (perm_anti _ P).
      + right. destruct (perm s' (Node i l)) eqn:P; [|destruct G]. now rewrite (perm_anti _ P).
  Qed.
End Alike.

(** ** What is always declared *)
(** The nodes that are reached by iterating. *)
Inductive visited_node (n : tree) : tree -> Prop :=
  | v_refl : visited_node n n
  | v_child : forall i cs e, In e (iter_entries cs) -> visited_node n (snd e) -> visited_node n (Node i cs).
Lemma always_collected s t n : visited_node n t -> perm s n = true -> n = t \/ In n (collect s t).
Proof.
  intros V P. induction V as [|i cs e He V IH]; auto. right. cbn [collect]. destruct cs as [|e0 cs]; [destruct He|]. set (l := e0 :: cs) in *.
  rewrite before_none_map. apply in_or_app. left. apply in_flat_map.
  exists (fst (fst e), (collect s (snd e) ++ (if perm s (snd e) then [snd e] else []))%list). split; [apply in_map_iff; eauto|].
  cbn [snd]. apply in_or_app. destruct IH as [<-|IH]; auto. right. rewrite P. now left.
Qed.
Lemma root_collected s t : i_root (ti t) = true -> i_depth (ti t) = 0 -> In t (collect s t).
Proof.
  intros R D. assert (P : perm s t = true). { unfold perm. rewrite R. destruct (tkind t); auto. now rewrite orb_true_r. }
  destruct t as [i cs]. cbn [ti] in *. cbn [collect]. destruct cs; [rewrite D, P; now left|]. rewrite P. apply in_or_app. right. now left.
Qed.
Lemma build_root s ord fuel n v t d r : build s ord fuel n d r v = Ok t -> i_root (ti t) = r /\ i_depth (ti t) = d.
Proof.
  intros H. destruct v; destruct fuel as [|fl]; cbn [build] in H; try (unfold leaf in H; destruct (is_compatible n); [injection H as <-; split; reflexivity | discriminate]).
  - destruct (negb _); discriminate.
  - destruct (negb _); [discriminate|]. apply bind_Ok in H as (cs & _ & H). injection H as <-. split; reflexivity.
  - destruct k; [discriminate|]. destruct (negb _); discriminate.
  - destruct k; [|destruct (negb _); [discriminate|]]; apply bind_Ok in H as (cs & _ & H); injection H as <-; split; reflexivity.
Qed.
Lemma visited_all t n : (forall x e, node_of x t -> In e (tcs x) -> ekey e <> KNone) -> node_of n t -> visited_node n t.
Proof.
  intros K H. revert K. induction H as [|i cs e He H IH]; intros K; [constructor|]. econstructor.
  - assert (E : iter_entries cs = cs); [|rewrite E; exact He]. assert (G : forall x, In x cs -> ekey x <> KNone) by (intros x Hx; apply (K (Node i cs)); auto; constructor).
    clear -G. unfold iter_entries. induction cs as [|x cs IH]; cbn [before_none]; auto. rewrite IH by (intros; apply G; now right).
    specialize (G x (or_introl eq_refl)). destruct (ekey x); auto. congruence.
  - apply IH. intros x e' Hx. apply K. econstructor; eauto.
Qed.
