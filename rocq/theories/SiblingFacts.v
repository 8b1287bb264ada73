(** The elements of the sequences of a finished tree have names of their own. *)
From Coq Require Import Ascii String List Bool Arith Lia Permutation.
From Verif Require Import PyStr PyStrFacts Utils Strategies Dispatch Values Tree Build TreeFacts SpecNames NamesFacts SpecData SpecMerge BuildFacts BuildInd TotalFacts TreeProofs SeqFacts ShareFacts
  SpecUnique UniqueFacts BegunFacts SpecSibling.
Import ListNotations.
Local Open Scope string_scope.
Local Open Scope nat_scope.

(** ** Renaming *)
Lemma told_apart_siblings s x : told_apart s x <->
  forall k, tkind x = NSeq k -> match k, s_tuple s with KTuple, TFixed => tuple_siblings s (tcs x) | _, _ => distinct_siblings s (tcs x) end.
Proof.
  unfold told_apart, fixed_node. split; intros H k E; specialize (H k E).
  - destruct H as [A B]. rewrite E in A, B. destruct k; try (apply B; intros [X _]; discriminate). destruct (s_tuple s); [exact (A (conj eq_refl eq_refl))|]. apply B. intros [_ X]; discriminate.
  - rewrite E. split.
    + intros [X Y]. injection X as ->. rewrite Y in H. exact H.
    + intros N. destruct k; try exact H. destruct (s_tuple s); [|exact H]. exfalso. apply N. auto.
Qed.
Definition apart_all (s : strategies) (t : tree) : Prop := forall x, node_of x t -> told_apart s x.
Lemma apart_node s i cs : told_apart s (Node i cs) -> (forall e, In e cs -> apart_all s (etree e)) -> apart_all s (Node i cs).
Proof. intros L H x Hx. apply node_of_inv in Hx as [->|(e & He & Hx)]; auto. now apply (H e He). Qed.
Lemma apart_child s i cs e : apart_all s (Node i cs) -> In e cs -> apart_all s (etree e).
Proof. intros H He x Hx. apply H. econstructor; eauto. Qed.
Lemma once_child i cs e : once_inside (Node i cs) -> In e cs -> once_inside (etree e).
Proof. intros H He x e' Hx. apply H. econstructor; eauto. Qed.

Lemma renamed_once (new old : string) (j : nat) (a b : tree) : j <= 1 -> i_root (ti a) = false -> i_root (ti b) = false -> begun old (tname a) -> begun old (tname b) ->
  (tname (ren j new (String.length old) a) = tname (ren j new (String.length old) b) <-> tname a = tname b).
Proof.
  intros J Ra Rb (x & Ea) (y & Eb). assert (E : forall t, tname (ren j new (String.length old) t) = iterate j (fun n => if i_root (ti t) then new else new ++ drop (String.length old) n) (tname t)) by (intros []; reflexivity).
  rewrite !E, Ra, Rb. assert (j = 0 \/ j = 1) as [->| ->] by lia; cbn [iterate]; [tauto|]. rewrite Ea, Eb, !PyStrFacts.drop_app. split; intros X.
  - apply app_inj_l in X. now rewrite X.
  - apply app_inj_l in X. now rewrite X.
Qed.

Lemma told_ren s new old j i cs : told_apart s (Node i cs) -> (forall e, In e cs -> i_root (ti (etree e)) = false) -> (forall e, In e cs -> begun old (tname (etree e))) ->
  (forall k, i_kind i = NSeq k -> (j <= 1 \/ cs = []) /\ forall e, In e cs -> emult e = 1) -> told_apart s (ren j new (String.length old) (Node i cs)).
Proof.
  intros T R B M. apply told_apart_siblings. rewrite told_apart_siblings in T. rewrite ren_kind, ren_cs. intros k E. specialize (T k E). cbn [tcs] in *. specialize (M k E) as [J M].
  assert (K : forall e, In e cs -> etree (ren_entry j new (String.length old) e) = ren j new (String.length old) (etree e)).
  { intros e He. unfold ren_entry, etree. cbn [snd]. rewrite (M e He). now rewrite Nat.mul_1_r. }
  assert (N : forall e e', In e cs -> In e' cs -> (tname (etree (ren_entry j new (String.length old) e)) = tname (etree (ren_entry j new (String.length old) e')) <-> tname (etree e) = tname (etree e'))).
  { intros e e' He He'. rewrite !K by auto. destruct J as [J| ->]; [|destruct He]. apply renamed_once; auto. }
  assert (D : distinct_siblings s cs -> distinct_siblings s (map (ren_entry j new (String.length old)) cs)).
  { clear T. intros [T1 T2]. split.
    - clear - T1 N. induction cs as [|e cs IH]; cbn [map] in *; [constructor|]. inversion T1 as [|? ? X Y]; subst. constructor; [|apply IH; auto; intros; apply N; now right].
      intros Z. apply X. rewrite map_map in Z. apply in_map_iff in Z as (e' & Z & He'). apply in_map_iff. exists e'. split; auto. apply N; auto; [now right|now left].
    - intros e e' He He' Q. apply in_map_iff in He as (a & <- & Ha). apply in_map_iff in He' as (b & <- & Hb). rewrite !K in * by auto. rewrite teq_ren_l, teq_ren_r in Q. now rewrite (T2 a b Ha Hb Q). }
  assert (U : tuple_siblings s cs -> tuple_siblings s (map (ren_entry j new (String.length old)) cs)).
  { clear T D. intros T e e' He He'. apply in_map_iff in He as (a & <- & Ha). apply in_map_iff in He' as (b & <- & Hb). rewrite N by auto. rewrite !K by auto. rewrite teq_ren_l, teq_ren_r. now apply T. }
  destruct k; auto. destruct (s_tuple s); auto.
Qed.

Lemma apart_ren s new old t : forall j, j <= 1 \/ tcs t = [] -> apart_all s t -> once_inside t -> no_roots t -> all_names (begun old) t -> apart_all s (ren j new (String.length old) t).
Proof.
  induction t as [i cs IH] using tree_ind'. rewrite Forall_forall in IH. intros j J A O R B.
  assert (Bc : forall e, In e cs -> all_names (begun old) (etree e)) by (intros e He; rewrite all_names_node, Forall_forall in B; now apply B).
  assert (Rc : forall e, In e cs -> no_roots (etree e)) by (intros e He x Hx; apply R; econstructor; eauto).
  assert (T : told_apart s (ren j new (String.length old) (Node i cs))).
  { apply told_ren.
    - apply A. constructor.
    - intros e He. apply (Rc e He). constructor.
    - intros e He. now apply all_names_root, Bc.
    - intros k E. split; auto. intros e He. destruct (O _ e (node_refl _) He) as [?|[X _]]; auto. unfold mapping_node, tkind in X. cbn [ti] in X. rewrite E in X. destruct X. }
  destruct (ren j new (String.length old) (Node i cs)) as [i' cs'] eqn:E. apply apart_node; auto.
  assert (cs' = map (ren_entry j new (String.length old)) cs) as -> by (change cs' with (tcs (Node i' cs')); rewrite <- E; apply ren_cs).
  intros e He. apply in_map_iff in He as (e0 & <- & He). unfold ren_entry, etree. cbn [snd]. apply (IH e0 He); auto.
  - destruct J as [J|J]; [|cbn [tcs] in J; rewrite J in He; destruct He]. destruct (O _ e0 (node_refl _) He) as [->|(_ & [->|X])]; [left; lia|left; lia|now right].
  - exact (apart_child _ _ _ _ A He).
  - exact (once_child _ _ _ O He).
Qed.

(** ** Dict nodes with other data *)
Lemma apart_dict s i cs dt m dt' m' : i_kind i = NDict dt m -> apart_all s (Node i cs) -> apart_all s (Node (with_kind i (NDict dt' m')) cs).
Proof. intros E A. apply apart_node; [intros k X; discriminate X|]. intros e He. exact (apart_child _ _ _ _ A He). Qed.
Lemma shared_child s i cs e : shared_once s (Node i cs) -> In e cs -> shared_once s (etree e).
Proof. intros [A B] He. split; intros x; intros; [eapply A|eapply B]; eauto; econstructor; eauto. Qed.
Lemma shared_dict s i cs dt m dt' m' : i_kind i = NDict dt m -> shared_once s (Node (with_kind i (NDict dt' m')) cs) -> shared_once s (Node i cs).
Proof.
  intros E H. pose proof (fun e He => shared_child s _ cs e H He) as C. destruct H as [A B]. split.
  - intros x e Hx M He O. apply node_of_inv in Hx as [->|(e1 & He1 & Hx)]; [|exact (so_values s _ (C e1 He1) x e Hx M He O)].
    exact (A _ e (node_refl _) I He O).
  - intros x p e q e' Hx F Es He' Q. apply node_of_inv in Hx as [->|(e1 & He1 & Hx)]; [|exact (so_elements s _ (C e1 He1) x p e q e' Hx F Es He' Q)].
    destruct F as [F _]. unfold tkind in F. cbn [ti] in F. congruence.
Qed.
Lemma once_ren k new n t : once_inside (ren k new n t) -> once_inside t.
Proof.
  intros H x e Hx He. destruct (node_ren_fwd x t Hx k new n) as (k' & Hk). destruct (H _ (ren_entry k' new n e) Hk) as [?|[M X]].
  - rewrite ren_cs. now apply in_map.
  - now left.
  - right. unfold mapping_node in *. rewrite ren_kind in M. split; auto. destruct X as [X|X]; [now left|right]. unfold ren_entry, etree in X. cbn [snd] in X. rewrite ren_cs in X. now apply map_eq_nil in X.
Qed.
Lemma shared_ren s k new n t : shared_once s (ren k new n t) -> shared_once s t.
Proof.
  intros [A B]. split.
  - intros x e Hx M He O. destruct (node_ren_fwd x t Hx k new n) as (k' & Hk). specialize (A _ (ren_entry k' new n e) Hk). unfold mapping_node in *. rewrite ren_kind, ren_cs in A.
    specialize (A M (in_map _ _ _ He)). rewrite only_one_ren in A. specialize (A O). now apply once_ren in A.
  - intros x p e q e' Hx F Es He' Q. destruct (node_ren_fwd x t Hx k new n) as (k' & Hk).
    specialize (B _ (map (ren_entry k' new n) p) (ren_entry k' new n e) (map (ren_entry k' new n) q) (ren_entry k' new n e') Hk). unfold fixed_node in *. rewrite ren_kind, ren_cs, Es, map_app in B.
    specialize (B F eq_refl (in_map _ _ _ He')). unfold ren_entry, etree in B. cbn [snd] in B. rewrite teq_ren_l, teq_ren_r in B. apply B in Q. now apply once_ren in Q.
Qed.

(** ** Construction *)
Definition settled (s : strategies) (t : tree) : Prop := shared_once s t -> apart_all s t.
Lemma settled_set_meta s m t : settled s t -> settled s (set_meta m t).
Proof.
  intros H. destruct (set_meta_cases m t) as [->|(dt & m1 & dt' & m' & E & ->)]; auto. destruct t as [i cs]. intros X. eapply apart_dict; [exact E|]. apply H. eapply shared_dict; [exact E|exact X].
Qed.
Lemma settled_update s t o : settled s t -> settled s (update_node t o).
Proof.
  intros H. destruct (update_node_cases t o) as [->|(dt & m1 & dt' & m' & E & ->)]; auto. destruct t as [i cs]. intros X. eapply apart_dict; [exact E|]. apply H. eapply shared_dict; [exact E|exact X].
Qed.
Lemma unique_sub v x : unique_keys v -> sub x v -> unique_keys x.
Proof. intros H Hx mk t kvs Hs. eapply H. eapply sub_trans; eauto. Qed.
Lemma unique_exhaust v : unique_keys v -> unique_keys (exhaust v).
Proof.
  intros H mk t kvs Hs. apply sub_exhaust in Hs as (y & Hy & E). destruct y as [| | | | | | |k' t' l'|k' t' kvs']; try discriminate; [destruct k'; discriminate|].
  cbn [exhaust] in E. injection E as -> -> ->. rewrite map_map. cbn [fst]. specialize (H _ _ _ Hy). rewrite (map_ext _ fst); auto.
Qed.
Lemma unique_map_intro kvs : NoDup (map fst kvs) -> (forall k x, In (k, x) kvs -> unique_keys x) -> unique_keys (VMap MDict ty_dict kvs).
Proof. intros N H mk t d Hs. inversion Hs; subst; auto. eapply H; eauto. Qed.

Section Settled.
  Variable s : strategies.
  Variable ord : set_order.
  Hypothesis Hord : set_like ord.

  Definition good_fuel (f : nat) : Prop := forall name d r v t, unique_keys v -> build s ord f name d r v = Ok t -> settled s t.

  Lemma merged_settled f d l trees m : good_fuel f -> (forall v, In v l -> unique_keys v) -> (forall t, In t trees -> from_els l t) ->
    from_multiple (fun n d0 => build s ord f n d false (exhaust (VMap MDict ty_dict d0))) trees = Ok m -> settled s m.
  Proof.
    intros IH Hl Ht H. apply from_multiple_Ok in H as (first & rest & t0 & E & Hb & ->). apply settled_set_meta. eapply IH; [|exact Hb].
    apply unique_exhaust, unique_map_intro; [apply Provenance.merged_NoDup|]. intros k x Hx. apply merged_In in Hx as [[]|(t1 & H1 & K)].
    destruct (Ht t1 H1) as (_ & C & _). destruct (C _ _ K) as (mk & ty & kvs & Hv & Hk). eapply unique_sub; [apply Hl, Hv|]. econstructor; eauto. constructor.
  Qed.
  Lemma built_no_roots f name d v c : build s ord f name d false v = Ok c -> no_roots c.
  Proof.
    intros Hb. pose proof (build_booked s ord _ _ _ _ _ _ Hord Hb) as (_ & Rt & Bk).
    intros x Hx. clear - Rt Bk Hx. revert Rt. induction Hx as [|i cs e He Hx IH]; intros Rt; auto.
    apply IH; [intros n Hn; apply Bk; econstructor; eauto|]. exact (bk_parent _ (Bk _ (node_refl _)) e He).
  Qed.
  Lemma renamed_settled f name d v c new : good_fuel f -> unique_keys v -> build s ord f name d false v = Ok c -> once_inside (rename new c) -> shared_once s (rename new c) -> apart_all s (rename new c).
  Proof.
    intros IH U Hb O Sh. unfold rename in *. pose proof (build_from_els _ _ _ _ _ _ _ _ Hb) as [_ Nm]. apply apart_ren.
    - left. lia.
    - eapply IH; [exact U|exact Hb|]. now apply shared_ren in Sh.
    - now apply once_ren in O.
    - eapply built_no_roots; eauto.
    - rewrite Nm. eapply build_begun; eauto.
  Qed.

  Lemma mapping_settled f name d h r k ty kvs vals : (match k with NProxy | NDict _ _ => True | _ => False end) -> good_fuel f -> NoDup (map fst kvs) -> (forall k0 v, In (k0, v) kvs -> unique_keys v) ->
    build_values (fun n x => build s ord f n (S d) false x) name kvs = Ok vals -> settled s (Node (Info name d h r k ty) (share_groups s name vals)).
  Proof.
    intros Kk IH Nd Hl H Sh. set (es := share_groups s name vals) in *.
    assert (Nv : NoDup (map fst vals)).
    { clear - Nd H. revert vals H. induction kvs as [|[k v] kvs IH]; cbn [build_values]; intros vals H; [injection H as <-; constructor|]. cbn [map fst] in Nd. inversion Nd as [|? ? X Y]; subst.
      destruct (is_hidden k); [now apply IH|]. apply bind_Ok in H as (c & _ & H). apply bind_Ok in H as (cs & H & E). injection E as <-. cbn [map fst]. constructor; [|now apply IH].
      intros Z. apply X. apply in_map_iff in Z as ([k' c'] & Ek & Z). cbn [fst] in Ek. subst k'. destruct (build_values_In _ _ _ _ _ _ H Z) as (_ & y & Hy & _). apply in_map_iff. exists (k, y). auto. }
    apply apart_node; [intros q E; unfold tkind in E; cbn [ti i_kind] in E; subst k; destruct Kk|].
    intros e He. pose proof (shared_child s _ es e Sh He) as Se. destruct (only_one_dec s es e) as [O|O].
    - pose proof (alone_node s name vals Nv e He O) as Hc. destruct (build_values_In _ _ _ _ _ _ H Hc) as (_ & v & Hv & Hb). eapply IH; [eapply Hl; eauto|exact Hb|exact Se].
    - destruct (shared_node s name vals Nv e He O) as (k0 & c & last & n & Hc & _ & E & _). destruct (build_values_In _ _ _ _ _ _ H Hc) as (_ & v & Hv & Hb).
      assert (M : mapping_node (Node (Info name d h r k ty) es)) by (unfold mapping_node, tkind; cbn [ti i_kind]; destruct k; try destruct Kk; exact I).
      pose proof (so_values s _ Sh _ e (node_refl _) M He O) as Oe. rewrite E in Oe, Se. rewrite E. eapply renamed_settled; eauto.
  Qed.

  Lemma set_settled f name d r k ty l cs : good_fuel f -> (forall v, In v (limit s l) -> unique_keys v) ->
    bind (build_set s (fun n x => build s ord f n (S d) false x) name (limit s l) ([], []))
      (merge_set s ord (fun n d0 => build s ord f n (S d) false (exhaust (VMap MDict ty_dict d0)))) = Ok cs ->
    told_apart s (inner name d r (NSeq k) ty cs) -> settled s (inner name d r (NSeq k) ty cs).
  Proof.
    intros IH Hl H Ta Sh. apply bind_Ok in H as (ch & H1 & H2).
    eapply (build_set_inv _ _ _ (fun _ st => Forall (fun c => from_els (limit s l) c /\ settled s c) (fst st)) _ []) in H1 as (names & I).
    2: { intros done [chs nms] v child Hv Hi Hb. cbn [fst snd] in *.
         assert (C : from_els (limit s l) child /\ settled s child).
         { split; [|eapply IH; eauto]. apply build_from_els in Hb as [Hb _]. eapply from_els_incl; [|exact Hb]. intros x [<-|[]]. auto. }
         unfold add_child. destruct (existsb (teq s child) chs); [|cbn [fst]; apply Forall_app; split; auto].
         destruct (node_is_typed_dict s child); auto. cbn [fst]. apply Forall_forall. intros x Hx.
         apply in_map_iff in Hx as (y & <- & Hy). rewrite Forall_forall in Hi. specialize (Hi y Hy). destruct (teq s child y); auto.
         destruct Hi as (A & B), C as (A' & _). split; [now apply from_els_update|]. now apply settled_update. }
    2: constructor.
    cbn [fst] in I. rewrite Forall_forall in I. unfold inner in *. apply apart_node; auto. intros e He. pose proof (shared_child s _ cs e Sh He) as Se. revert Se. change (settled s (etree e)).
    apply merge_set_spec in H2; auto. destruct H2 as [(_ & l' & P & ->)|(_ & trees & m & l' & P & Hm & P' & ->)]; apply in_map_iff in He as (c & <- & Hc); unfold etree; cbn [snd].
    - apply (Permutation_in _ (Permutation_sym P)) in Hc. now apply I.
    - apply (Permutation_in _ (Permutation_sym P')) in Hc. assert (In c ch \/ c = m) as [K| ->].
      { cbv zeta in Hc. destruct (existsb _ _); [apply filter_In in Hc as []; auto|]. apply in_app_iff in Hc as [Hc|[Hc|[]]]; auto. apply filter_In in Hc as []; auto. }
      + now apply I.
      + eapply merged_settled; [exact IH|exact Hl| |exact Hm]. intros t Ht. apply (Permutation_in _ (Permutation_sym P)) in Ht. apply filter_In in Ht as [Ht _]. now apply I.
  Qed.

  Lemma list_settled f name d r ty l cs : good_fuel f -> s_tuple s = TFixed -> (forall v, In v (limit s l) -> unique_keys v) ->
    bind (build_list s (fun n x => build s ord f n (S d) false x) name (limit s l) [] [])
      (merge_list s (fun n d0 => build s ord f n (S d) false (exhaust (VMap MDict ty_dict d0)))) = Ok cs ->
    told_apart s (inner name d r (NSeq KTuple) ty cs) -> settled s (inner name d r (NSeq KTuple) ty cs).
  Proof.
    intros IH Tu Hl H Ta Sh. apply bind_Ok in H as (ch & H1 & H2).
    eapply (build_list_inv _ _ _ (fun _ chs added =>
       (forall c, In c chs -> from_els (limit s l) c /\ has_cs s c) /\
       (forall a n, In (a, n) added -> In a chs) /\
       (forall p c q, chs = (p ++ c :: q)%list -> settled s c \/ (once_inside c -> settled s c) /\ exists a, In a p /\ teq s c a = true)) _ []) in H1 as (added & I1 & _ & I2).
    2: { intros done chs added v child Hv (A & B & C) Hb.
         assert (Fc : from_els (limit s l) child /\ has_cs s child).
         { split; [|eapply build_has_cs; eauto]. apply build_from_els in Hb as [Hb _]. eapply from_els_incl; [|exact Hb]. intros x [<-|[]]. auto. }
         destruct Fc as (F1 & F3).
         assert (Last : forall x, (settled s x \/ (once_inside x -> settled s x) /\ exists a, In a chs /\ teq s x a = true) ->
           forall p c q, (chs ++ [x])%list = (p ++ c :: q)%list -> settled s c \/ (once_inside c -> settled s c) /\ exists a, In a p /\ teq s c a = true).
         { intros x Hx p c q E. destruct q as [|y q] using rev_ind.
           - apply app_inj_tail in E as [<- <-]. exact Hx.
           - clear IHq. change (p ++ c :: q ++ [y])%list with (p ++ (c :: q) ++ [y])%list in E. rewrite app_assoc in E. apply app_inj_tail in E as [E _]. eapply C; eauto. }
         unfold lookup_tree. destruct (find _ added) as [[t1 n1]|] eqn:F; cbn [option_map snd].
         - apply find_some in F as [F E]. cbn [fst] in E. pose proof (B _ _ F) as B2. split; [|split].
           + intros c Hc. apply in_app_iff in Hc as [Hc|[<-|[]]]; auto. split; [now apply from_els_ren|now apply has_cs_ren].
           + intros a n Ha. apply in_app_iff. left. eapply B; eauto.
           + apply Last. right. split; [intros O X; eapply renamed_settled; eauto|]. exists t1. split; auto. unfold rename. now rewrite teq_ren_l.
         - split; [|split].
           + intros c Hc. apply in_app_iff in Hc as [Hc|[<-|[]]]; auto.
           + intros a n Ha. rewrite in_app_iff. apply in_app_iff in Ha as [Ha|[Ha|[]]]; [left; eapply B; eauto|]. injection Ha as <- <-. right. now left.
           + apply Last. left. eapply IH; eauto. }
    2: { split; [intros c []|]. split; [intros a n []|]. intros [|] c q E; discriminate. }
    unfold inner in *. apply apart_node; auto. intros e He. pose proof (shared_child s _ cs e Sh He) as Se.
    assert (Fx : fixed_node s (Node (Info name d (height_of cs) r (NSeq KTuple) ty) cs)) by (split; auto).
    apply merge_list_spec in H2 as [(_ & ->)|(_ & m & Hm & Ecs)].
    - apply in_map_iff in He as (c & <- & Hc). unfold etree in *. cbn [snd] in *. apply in_split in Hc as (p & q & ->).
      destruct (I2 p c q eq_refl) as [B|(B & a & Ha & E)]; [now apply B|]. apply B; auto.
      apply (so_elements s _ Sh _ (no_sharing p) (no_key, 1, c) (no_sharing q) (no_key, 1, a) (node_refl _) Fx); auto.
      + cbn [tcs]. unfold no_sharing. now rewrite map_app.
      + apply in_map_iff. exists a. auto.
    - set (n := List.length (filter (is_td s) ch)) in *. set (g := fun c => if is_td s c then (no_key, n, m) else (no_key, 1, c)) in *.
      pose proof He as He0. rewrite Ecs in He. apply in_map_iff in He as (c & <- & Hc). unfold g in Se |- *. destruct (is_td s c) eqn:Tc.
      + unfold etree in *. cbn [snd] in *. revert Se. change (settled s m). eapply merged_settled; [exact IH|exact Hl| |exact Hm]. intros t Ht. apply filter_In in Ht as [Ht _]. now apply I1.
      + unfold etree in *. cbn [snd] in *. pose proof (proj2 (I1 c Hc)) as Hcs. apply in_split in Hc as (p & q & Ech). destruct (I2 p c q Ech) as [B|(B & a & Ha & E)]; [now apply B|]. apply B; auto.
        assert (Ta' : is_td s a = false).
        { destruct (is_td s a) eqn:Ta'; auto. rewrite teq_sym in E. rewrite (td_teq s a c Hcs Ta' E) in Tc. discriminate. }
        apply (so_elements s _ Sh _ (map g p) (no_key, 1, c) (map g q) (no_key, 1, a) (node_refl _) Fx); auto.
        * cbn [tcs]. rewrite Ecs, Ech, map_app. cbn [map]. unfold g at 2. now rewrite Tc.
        * apply in_map_iff. exists a. split; auto. unfold g. now rewrite Ta'.
  Qed.

  Lemma build_settled : forall f, good_fuel f.
  Proof.
    assert (Lf : forall name d r k ty t, leaf_kind k -> leaf name d r k ty = Ok t -> settled s t).
    { intros name d r k ty t K E _. unfold leaf in E. destruct (is_compatible name); [|discriminate]. injection E as <-. apply apart_node; [|intros e []]. intros q X. unfold tkind in X. cbn in X. subst k. destruct K. }
    induction f as [|f IH]; intros name d r v t U H.
    - destruct v; cbn [build] in H; try (eapply Lf; [|exact H]; exact I).
      + destruct (negb (is_compatible name)); discriminate.
      + destruct k; [discriminate|]. destruct (negb (is_compatible name)); discriminate.
    - destruct v as [ | | | | | | |k ty l|k ty kvs]; try (cbn [build] in H; eapply Lf; [|exact H]; exact I).
      + assert (Hl : forall v, In v (limit s l) -> unique_keys v).
        { intros v Hv. apply limit_incl in Hv. eapply unique_sub; [exact U|]. econstructor; eauto. constructor. }
        pose proof (build_siblings s ord Hord _ _ _ _ _ _ _ _ H) as Sb. cbn [build] in H. destruct (negb (is_compatible name)); [discriminate|]. apply bind_Ok in H as (cs & H & E). injection E as <-.
        assert (Ta : told_apart s (inner name d r (NSeq k) ty cs)).
        { apply told_apart_siblings. intros q E. unfold tkind in E. cbn [inner ti i_kind] in E. injection E as <-. exact Sb. }
        destruct k; try (eapply set_settled; eassumption). destruct (s_tuple s) eqn:Tu; [|eapply set_settled; eassumption]. eapply list_settled; eassumption.
      + assert (Hl : forall kvs', incl kvs' kvs -> forall k0 v, In (k0, v) kvs' -> unique_keys v).
        { intros kvs' I k0 v Hv. apply I in Hv. eapply unique_sub; [exact U|]. econstructor; eauto. constructor. }
        assert (N : NoDup (map fst kvs)) by (eapply U; constructor).
        cbn [build] in H. destruct k.
        * apply bind_Ok in H as (vals & H & E). injection E as <-. unfold inner in *. eapply mapping_settled; [exact I|exact IH| | |exact H].
          -- destruct (is_td_strategy s); auto. now apply DictInv.limit_NoDup.
          -- apply Hl. destruct (is_td_strategy s); [apply incl_refl|apply limit_incl].
        * destruct (negb (is_compatible name)); [discriminate|]. apply bind_Ok in H as (vals & H & E). injection E as <-. unfold inner in *. eapply mapping_settled; [exact I|exact IH| | |exact H].
          -- now apply DictInv.limit_NoDup.
          -- apply Hl. apply limit_incl.
  Qed.
End Settled.
