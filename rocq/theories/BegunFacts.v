(** Every name of a tree begins with the name of its root when the tree is made. *)
From Coq Require Import Ascii String List Bool Arith Lia Permutation.
From Verif Require Import PyStr PyStrFacts Utils Strategies Dispatch Values Tree Build TreeFacts SpecNames SpecData BuildFacts BuildInd TotalFacts.
Import ListNotations.
Local Open Scope string_scope.
Local Open Scope nat_scope.

Definition begun (p : string) (n : string) : Prop := exists r, n = p ++ r.
Lemma begun_app p q n : begun (p ++ q) n -> begun p n.
Proof. intros (r & ->). exists (q ++ r). now rewrite app_assoc_s. Qed.
Lemma begun_refl p : begun p p.
Proof. exists "". now rewrite app_nil_r_s. Qed.
Lemma names_weaken (P Q : string -> Prop) t : (forall n, P n -> Q n) -> all_names P t -> all_names Q t.
Proof.
  intros H. induction t as [i cs IH] using tree_ind'. rewrite !all_names_node. intros [A B]. split; auto. rewrite Forall_forall in *. auto.
Qed.
Lemma begun_ren p new n t k : begun p new -> all_names (begun p) t -> all_names (begun p) (ren k new n t).
Proof. intros (r & ->). apply ren_names; [|now exists r]. intros x _. exists (r ++ drop n x). now rewrite app_assoc_s. Qed.
Lemma begun_dict P t m : all_names P t -> all_names P (set_meta m t).
Proof. intros H. destruct (set_meta_cases m t) as [->|(dt & m1 & dt' & m' & E & ->)]; auto. destruct t as [i cs]. rewrite all_names_node in *. exact H. Qed.
Lemma begun_update P t o : all_names P t -> all_names P (update_node t o).
Proof. intros H. destruct (update_node_cases t o) as [->|(dt & m1 & dt' & m' & E & ->)]; auto. destruct t as [i cs]. rewrite all_names_node in *. exact H. Qed.
Lemma begun_fresh p v used : begun p (fresh_name (element_name p v) used).
Proof. destruct (fresh_name_app (element_name p v) used) as [->|(n & ->)]; unfold element_name; [eexists; reflexivity|]. rewrite app_assoc_s. eexists; reflexivity. Qed.

Section Begun.
  Variable s : strategies.
  Variable ord : set_order.
  Hypothesis Hord : set_like ord.

  Lemma merged_begun f d p trees m : (forall name v t, build s ord f name d false v = Ok t -> all_names (begun name) t) ->
    (forall t, In t trees -> all_names (begun p) t) ->
    from_multiple (fun n d0 => build s ord f n d false (exhaust (VMap MDict ty_dict d0))) trees = Ok m -> all_names (begun p) m.
  Proof.
    intros IH Ht H. apply from_multiple_Ok in H as (first & rest & t0 & -> & Hb & ->). apply begun_dict. apply IH in Hb. eapply names_weaken; [|exact Hb].
    assert (G : forall l n, begun p n -> (forall t, In t l -> begun p (tname t)) -> begun p (fold_left (fun n t => str_min n (tname t)) l n)).
    { clear. induction l as [|t l IH]; intros n Hn Hl; cbn [fold_left]; auto. apply IH; [|intros; apply Hl; now right]. unfold str_min. destruct (String.ltb _ _); auto. apply Hl. now left. }
    intros n (r & ->). destruct (G (first :: rest) (tname first)) as (r' & ->).
    - now apply all_names_root, Ht; left.
    - intros t It. now apply all_names_root, Ht.
    - exists (r' ++ r). now rewrite app_assoc_s.
  Qed.

  Lemma build_begun : forall f name d r v t, build s ord f name d r v = Ok t -> all_names (begun name) t.
  Proof.
    assert (Lf : forall name d r k ty t, leaf name d r k ty = Ok t -> all_names (begun name) t).
    { intros name d r k ty t E. unfold leaf in E. destruct (is_compatible name); [|discriminate]. injection E as <-. apply all_names_node. split; [apply begun_refl|constructor]. }
    induction f as [|f IH]; intros name d r v t H.
    - destruct v; cbn [build] in H; try (eapply Lf; exact H).
      + destruct (negb (is_compatible name)); discriminate.
      + destruct k; [discriminate|]. destruct (negb (is_compatible name)); discriminate.
    - destruct v as [ | | | | | | |k ty l|k ty kvs]; try (cbn [build] in H; eapply Lf; exact H).
      + cbn [build] in H. destruct (negb (is_compatible name)); [discriminate|]. apply bind_Ok in H as (cs & H & E). injection E as <-.
        unfold inner. apply all_names_node. split; [apply begun_refl|].
        assert (Gs : bind (build_set s (fun n x => build s ord f n (S d) false x) name (limit s l) ([], []))
              (merge_set s ord (fun n d0 => build s ord f n (S d) false (exhaust (VMap MDict ty_dict d0)))) = Ok cs -> Forall (fun e => all_names (begun name) (snd e)) cs).
        { clear H. intros H. apply bind_Ok in H as (ch & H1 & H2).
          eapply (build_set_inv _ _ _ (fun _ st => Forall (all_names (begun name)) (fst st)) _ []) in H1 as (names & I).
          2: { intros done [chs nms] v child Hv Hi Hb. cbn [fst snd] in *.
               assert (C : all_names (begun name) child) by (apply IH in Hb; eapply names_weaken; [|exact Hb]; intros n; destruct (begun_fresh name v nms) as (q & ->); apply begun_app).
               unfold add_child. destruct (existsb (teq s child) chs); [|cbn [fst]; apply Forall_app; split; auto].
               destruct (node_is_typed_dict s child); auto. cbn [fst]. apply Forall_forall. intros x Hx.
               apply in_map_iff in Hx as (y & <- & Hy). rewrite Forall_forall in Hi. specialize (Hi y Hy). destruct (teq s child y); auto. now apply begun_update. }
          2: constructor.
          cbn [fst] in I. rewrite Forall_forall in I. apply Forall_forall. apply merge_set_spec in H2; auto.
          destruct H2 as [(_ & l' & P & ->)|(_ & trees & m & l' & P & Hm & P' & ->)]; intros e He; apply in_map_iff in He as (c & <- & Hc); cbn [snd].
          - apply (Permutation_in _ (Permutation_sym P)) in Hc. auto.
          - apply (Permutation_in _ (Permutation_sym P')) in Hc. assert (In c ch \/ c = m) as [K| ->].
            { cbv zeta in Hc. destruct (existsb _ _); [apply filter_In in Hc as []; auto|]. apply in_app_iff in Hc as [Hc|[Hc|[]]]; auto. apply filter_In in Hc as []; auto. }
            + auto.
            + eapply merged_begun; [intros; eapply IH; eauto| |exact Hm]. intros t Ht. apply (Permutation_in _ (Permutation_sym P)) in Ht. apply filter_In in Ht as [Ht _]. auto. }
        destruct k; try (apply Gs; exact H). destruct (s_tuple s); [|apply Gs; exact H]. apply bind_Ok in H as (ch & H1 & H2).
        eapply (build_list_inv _ _ _ (fun _ chs added => Forall (all_names (begun name)) chs /\ forall a n, In (a, n) added -> begun name n) _ []) in H1 as (added & I & _).
        2: { intros done chs added v child Hv [A B] Hb.
             assert (C : all_names (begun name) child) by (apply IH in Hb; eapply names_weaken; [|exact Hb]; intros n; destruct (begun_fresh name v (map snd added)) as (q & ->); apply begun_app).
             unfold lookup_tree. destruct (find _ added) as [[t1 n1]|] eqn:F; cbn [option_map snd].
             - apply find_some in F as [F _]. split; auto. apply Forall_app. split; auto. constructor; auto. apply begun_ren; auto. eapply B; eauto.
             - split; [apply Forall_app; split; auto|]. intros a n Ha. apply in_app_iff in Ha as [Ha|[Ha|[]]]; [eapply B; eauto|]. injection Ha as <- <-. now apply all_names_root. }
        2: { split; [constructor|intros a n []]. }
        rewrite Forall_forall in I. apply Forall_forall. apply merge_list_spec in H2 as [(_ & ->)|(_ & m & Hm & ->)]; intros e He; apply in_map_iff in He as (c & <- & Hc); [cbn [snd]; auto|].
        destruct (is_td s c); cbn [snd]; auto. eapply merged_begun; [intros; eapply IH; eauto| |exact Hm]. intros t Ht. apply filter_In in Ht as [Ht _]. auto.
      + assert (G : forall kvs' vals, build_values (fun n x => build s ord f n (S d) false x) name kvs' = Ok vals -> Forall (fun e => all_names (begun name) (snd e)) (share_groups s name vals)).
        { intros kvs' vals Hv. apply Forall_forall. intros e He. apply share_groups_trees in He as (_ & k0 & c & Hc & E). destruct (build_values_In _ _ _ _ _ _ Hv Hc) as (_ & x & _ & Hb).
          assert (C : all_names (begun name) c) by (apply IH in Hb; eapply names_weaken; [|exact Hb]; intros n; unfold value_name; apply begun_app).
          unfold etree in E. destruct E as [->|(last & ->)]; auto. apply begun_ren; auto. unfold group_name. eexists; reflexivity. }
        cbn [build] in H. destruct k.
        * apply bind_Ok in H as (vals & H & E). injection E as <-. unfold inner. apply all_names_node. split; [apply begun_refl|]. eauto.
        * destruct (negb (is_compatible name)); [discriminate|]. apply bind_Ok in H as (vals & H & E). injection E as <-. unfold inner. apply all_names_node. split; [apply begun_refl|]. eauto.
  Qed.
End Begun.
