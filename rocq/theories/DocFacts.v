(** The tree and the declarations of data with documentation entries, without them. *)
From Coq Require Import Ascii String List Bool Arith Lia Permutation.
From Verif Require Import PyStr PyStrFacts Utils Strategies Imports Dispatch Docstring Values Tree Build Emit TreeFacts SpecData SpecMerge SpecNames NamesFacts BuildFacts BuildInd TotalFacts TreeProofs SeqFacts FloatFacts MergeFacts FuelFacts AlikeFacts DataMap SpecTypes Elab EmitFacts ElabFacts SpecDocs DocMap.
Import ListNotations.
Local Open Scope string_scope.

Lemma limit_dmap s k d : lim s k d -> (k = MProxy \/ is_td_strategy s = false) -> limit s (dmap d) = dmap (limit s d).
Proof.
  intros H K. unfold limit. destruct (effective_limit s) as [n|] eqn:L; auto. destruct H as [H|[[-> D]|H]]; [congruence| |].
  - destruct K as [K|K]; [discriminate|]. unfold is_td_strategy in K. now rewrite D in K.
  - assert (E : forall l, (forall x, In x l -> In x d) -> dmap l = vmap undoc l).
    { induction l as [|[k' x] l IH]; auto. intros I. rewrite dmap_cons. assert (F : is_hidden k' = false). { apply hidden_false, H. unfold has_key. change k' with (fst (k', x)). apply in_map, I. now left. }
      rewrite F. cbn [vmap map fst snd]. f_equal. apply IH. intros; apply I; now right. }
    rewrite (E d) by auto. rewrite E by (intros x Hx; rewrite <- (firstn_skipn n d); apply in_or_app; now left). apply firstn_map.
Qed.
Lemma okd_limit s k d : okd s d -> lim s k d -> (k = MProxy \/ is_td_strategy s = false) -> okd s (limit s d).
Proof.
  intros [A B] H K. split; [|intros k' x Hx; eapply B, limit_incl; eauto]. intros k' x Hx Hk. destruct H as [H|[[-> D]|H]].
  - unfold limit in *. rewrite H in *. apply (A k' x Hx Hk).
  - destruct K as [K|K]; [discriminate|]. unfold is_td_strategy in K. now rewrite D in K.
  - exfalso. apply (H k'); auto. unfold has_key. change k' with (fst (k', x)). apply in_map. eapply limit_incl; eauto.
Qed.

Section Docs.
  Variable s : strategies.
  Variable ord : set_order.
  Hypothesis Sl : set_like ord.
  Hypothesis O : forall i l, ord i (map utree l) = map utree (ord i l).

  Lemma build_undoc : forall f name d r v, dk s v -> good s (build s ord f name d r (undoc v)) (build s ord f name d r v).
  Proof.
    assert (Leaf : forall name d r k t, leaf_kind k -> good s (leaf name d r (ukind k) t) (leaf name d r k t)).
    { intros name d r k t K. unfold leaf. destruct (is_compatible name); split; try reflexivity; try discriminate. intros t0 E. injection E as <-. constructor; [destruct k; try exact I; destruct K|intros e []]. }
    induction f as [|f IH]; intros name d r v D.
    - destruct v; try apply (Leaf name d r NInst _ I); try apply (Leaf name d r (NFun _) _ I); try apply (Leaf name d r (NClass _) _ I); try apply (Leaf name d r NModule _ I);
        try apply (Leaf name d r NIO _ I); try apply (Leaf name d r (NNumpy _) _ I).
      + cbn [undoc build]. destruct (negb _); split; try reflexivity; discriminate.
      + rewrite undoc_map. cbn [build]. destruct k; [split; [reflexivity|discriminate]|]. destruct (negb _); split; try reflexivity; discriminate.
    - destruct v; try apply (Leaf name d r NInst _ I); try apply (Leaf name d r (NFun _) _ I); try apply (Leaf name d r (NClass _) _ I); try apply (Leaf name d r NModule _ I);
        try apply (Leaf name d r NIO _ I); try apply (Leaf name d r (NNumpy _) _ I).
      + pose proof (dk_seq_inv _ _ _ _ D) as D'.
        set (bld := fun n x => build s ord f n (S d) false x). set (bd := fun n d0 => build s ord f n (S d) false (exhaust (VMap MDict ty_dict d0))).
        assert (B : forall n0 x, In x (limit s l) -> good s (bld n0 (undoc x)) (bld n0 x)) by (intros n0 x Hx; apply IH, D'; eapply limit_incl; eauto).
        assert (M : is_td_strategy s = true -> forall n0 d0, okd s d0 -> good s (bd n0 (dmap d0)) (bd n0 d0)).
        { intros T n0 d0 [A1 A2]. unfold bd. rewrite <- undoc_map, exhaust_undoc. apply IH, dk_exhaust, dk_map; auto. right. left. split; auto. unfold is_td_strategy in T. now destruct (s_dict s). }
        assert (L : limit s (map undoc l) = map undoc (limit s l)). { unfold limit. destruct (effective_limit s); auto. apply firstn_map. }
        cbn [undoc build]. rewrite L. fold bld bd. destruct (negb (is_compatible name)); [split; [reflexivity|discriminate]|].
        assert (BS : bind (build_set s bld name (map undoc (limit s l)) ([], [])) (merge_set s ord bd) = rmap (map uentry) (bind (build_set s bld name (limit s l) ([], [])) (merge_set s ord bd)) /\
                     forall cs, bind (build_set s bld name (limit s l) ([], [])) (merge_set s ord bd) = Ok cs -> Forall (edeep s) cs).
        { destruct (build_set_utree s bld bld name (limit s l) B [] [] (Forall_nil _)) as [E F]. cbn [map] in E. rewrite E. split.
          - apply bind_rmap. intros ch Hch. apply merge_set_utree; auto.
          - intros cs Hcs. apply bind_Ok in Hcs as (ch & Hch & Hcs). apply (merge_set_utree s ord bd bd ch Sl O (F ch Hch) M); auto. }
        assert (BL : bind (build_list s bld name (map undoc (limit s l)) [] []) (merge_list s bd) = rmap (map uentry) (bind (build_list s bld name (limit s l) [] []) (merge_list s bd)) /\
                     forall cs, bind (build_list s bld name (limit s l) [] []) (merge_list s bd) = Ok cs -> Forall (edeep s) cs).
        { destruct (build_list_utree s bld bld name (limit s l) B [] [] (Forall_nil _)) as [E F]. cbn [map] in E. rewrite E. split.
          - apply bind_rmap. intros ch Hch. apply merge_list_utree; auto.
          - intros cs Hcs. apply bind_Ok in Hcs as (ch & Hch & Hcs). apply (merge_list_utree s bd bd ch (F ch Hch) M); auto. }
        assert (Fin : forall a b, a = rmap (map uentry) b /\ (forall cs, b = Ok cs -> Forall (edeep s) cs) ->
                      good s (bind a (fun cs => Ok (inner name d r (NSeq k) t cs))) (bind b (fun cs => Ok (inner name d r (NSeq k) t cs)))).
        { intros a b [-> Hb]. split.
          - apply bind_rmap. intros cs _. cbn [rmap]. now rewrite <- inner_utree.
          - intros u Hu. apply bind_Ok in Hu as (cs & Hcs & Hu). injection Hu as <-. apply inner_deep; [exact I|auto]. }
        destruct k; try destruct (s_tuple s); apply Fin; auto.
      + destruct (dk_map_inv _ _ _ _ D) as (D1 & D2 & D3).
        assert (V : forall kvs', (forall k x, In (k, x) kvs' -> In (k, x) kvs) -> forall n0 k0 x, In (k0, x) kvs' -> good s (build s ord f n0 (S d) false (undoc x)) (build s ord f n0 (S d) false x)).
        { intros kvs' I n0 k0 x Hx. apply IH. eapply D3, I; eauto. }
        rewrite undoc_map. destruct k; cbn [build].
        * set (data := if is_td_strategy s then kvs else limit s kvs).
          assert (Ed : (if is_td_strategy s then dmap kvs else limit s (dmap kvs)) = dmap data).
          { unfold data. destruct (is_td_strategy s) eqn:T; auto. eapply limit_dmap; eauto. }
          assert (Ok' : okd s data). { unfold data. destruct (is_td_strategy s) eqn:T; [split; auto|]. eapply okd_limit; eauto. split; auto. }
          assert (In' : forall k x, In (k, x) data -> In (k, x) kvs). { unfold data. destruct (is_td_strategy s); auto. intros k x Hx. eapply limit_incl; eauto. }
          rewrite Ed. destruct (build_values_utree s (fun n0 x => build s ord f n0 (S d) false x) (fun n0 x => build s ord f n0 (S d) false x) name data (V data In')) as [E F]. rewrite E. split.
          -- apply bind_rmap. intros cs _. cbn [rmap]. now rewrite share_utree, init_umeta, <- inner_utree.
          -- intros u Hu. apply bind_Ok in Hu as (cs & Hcs & Hu). injection Hu as <-. apply inner_deep; [|apply share_deep; auto]. cbn [kok init_meta m_data m_initial]. split; auto. split; auto. apply solid_data. apply Ok'.
        * destruct (negb (is_compatible name)); [split; [reflexivity|discriminate]|]. rewrite (limit_dmap s MProxy) by auto.
          assert (In' : forall k x, In (k, x) (limit s kvs) -> In (k, x) kvs) by (intros k x Hx; eapply limit_incl; eauto).
          destruct (build_values_utree s (fun n0 x => build s ord f n0 (S d) false x) (fun n0 x => build s ord f n0 (S d) false x) name (limit s kvs) (V _ In')) as [E F]. rewrite E. split.
          -- apply bind_rmap. intros cs _. cbn [rmap]. now rewrite share_utree, <- inner_utree.
          -- intros u Hu. apply bind_Ok in Hu as (cs & Hcs & Hu). injection Hu as <-. apply inner_deep; [exact I|apply share_deep; auto].
  Qed.
  Lemma from_data_undoc v name : documented s v -> good s (from_data s ord (undoc v) name) (from_data s ord v name).
  Proof.
    intros D. unfold from_data. destruct (is_compatible name); [|split; [reflexivity|discriminate]]. pose proof (vdepth_undoc v) as V.
    destruct (build_undoc (S (vdepth v)) name 0 true v (documented_dk s v D)) as [E F]. split; [|exact F]. rewrite <- E. apply (build_fuel s ord Sl); lia.
  Qed.
End Docs.

(** ** Declarations *)
Lemma perm_utree s t : perm s (utree t) = perm s t.
Proof. unfold perm. rewrite tkind_utree, ti_utree, theight_utree. destruct (tkind t); cbn; auto. now rewrite td_umeta. Qed.
Lemma collect_utree s t : collect s (utree t) = map utree (collect s t).
Proof.
  induction t as [i cs IH] using tree_ind'. rewrite Forall_forall in IH. cbn [utree collect]. destruct cs as [|e cs].
  - cbn [map uinfo i_depth]. rewrite <- (perm_utree s (Node i [])). cbn [utree map]. destruct (_ && _); reflexivity.
  - cbn [map]. rewrite <- (map_cons (fun e => (fst e, utree (snd e))) e cs). set (l := e :: cs) in *. rewrite map_app. f_equal.
    + set (G := fun x : key * list tree => (fst x, map utree (snd x))).
      set (C := fun e0 : key * nat * tree => (fst (fst e0), (collect s (snd e0) ++ (if perm s (snd e0) then [snd e0] else []))%list)).
      transitivity (flat_map (fun x => snd x) (before_none fst (map G (map C l)))).
      * change (flat_map (fun x => snd x) (before_none fst (map C (map (fun e0 => (fst e0, utree (snd e0))) l)))
                = flat_map (fun x => snd x) (before_none fst (map G (map C l)))). f_equal. f_equal. rewrite !map_map. apply map_ext_in. intros e0 He. unfold G, C. cbn [fst snd]. rewrite IH, perm_utree, map_app by auto.
        destruct (perm s (snd e0)); reflexivity.
      * change (flat_map (fun x => snd x) (before_none fst (map G (map C l))) = map utree (flat_map (fun x => snd x) (before_none fst (map C l)))).
        rewrite (before_none_map G fst) by auto. generalize (before_none fst (map C l)).
        intros L. induction L as [|x L IHL]; cbn [map flat_map]; auto. rewrite IHL, map_app. reflexivity.
    + change (Node (uinfo i) (map (fun e0 => (fst e0, utree (snd e0))) l)) with (utree (Node i l)). rewrite perm_utree. destruct (perm s (Node i l)); reflexivity.
Qed.
Lemma fails_utree t : function_fails (utree t) = function_fails t.
Proof. unfold function_fails. rewrite tkind_utree. destruct (tkind t); auto. Qed.
Lemma class_doc_dmap s d : ~ doc_key (KStr (s_key_doc s)) -> class_doc s (dmap d) = class_doc s d.
Proof.
  intros N. unfold class_doc. destruct (String.eqb _ _); auto. rewrite dget_dmap by (now apply hidden_false). destruct (dget _ d) as [v|]; cbn [option_map]; auto. destruct v; auto.
Qed.
Lemma hidden_no_keyword n : mem ("___docstring_hidden_key_" ++ n) kwlist = false.
Proof.
  apply mem_false. intros H. unfold kwlist in H. cbn [append In] in H. repeat (destruct H as [H|H]; [discriminate H|]). exact H.
Qed.
Lemma hidden_compatible n : is_compatible n = true -> is_compatible ("___docstring_hidden_key_" ++ n) = true.
Proof.
  unfold is_compatible. intros H. apply andb_true_iff in H as [H _]. apply andb_true_iff. split; [|reflexivity]. rewrite remove_char_app. change (remove_char underscore "___docstring_hidden_key_") with "docstringhiddenkey".
  unfold isalnum in *. destruct (remove_char underscore n) as [|c r]; [discriminate|]. 
  assert (F : str_forall is_alnum_char ("docstringhiddenkey" ++ String c r) = true) by (rewrite str_forall_app, H; reflexivity). exact F.
Qed.
Lemma functional_umeta s m : okd s (m_data m) -> functional_syntax (umeta m) = functional_syntax m.
Proof.
  intros [D _]. unfold functional_syntax. f_equal. cbn [umeta m_data].
  set (P := fun e : key * pyval => match fst e with KStr k => negb (mem k kwlist) && is_compatible k | _ => false end).
  apply eq_true_iff_eq. rewrite !forallb_forall. split; intros H [k x] Hx.
  - destruct (is_hidden k) eqn:E.
    + destruct (D k x Hx (proj1 (hidden_doc k) E)) as (_ & n & -> & N & Hn). apply hidden_false in N. unfold has_key in Hn. apply in_map_iff in Hn as ([k' y] & F & Hy). cbn [fst] in F. subst k'.
      assert (Pn : P (KStr n, undoc y) = true). { apply H. apply dmap_In. split; auto. exists y. auto. }
      unfold P in *. cbn [fst] in *. apply andb_true_iff in Pn as [_ Pn]. apply andb_true_iff. split.
      * apply negb_true_iff. apply hidden_no_keyword.
      * now apply hidden_compatible.
    + apply (H (k, undoc x)). apply dmap_In. split; auto. exists x. auto.
  - apply dmap_In in Hx as [E (y & Hy & ->)]. apply (H (k, y) Hy).
Qed.
Lemma rhs_utree s t : rhs s (utree t) = rhs s t.
Proof.
  induction t as [i cs IH] using tree_ind'. rewrite Forall_forall in IH. cbn [utree rhs].
  set (F := fun e : key * nat * tree => (fst (fst e), if perm s (snd e) then TName (tname (snd e)) else rhs s (snd e))).
  assert (E : map F (map (fun e => (fst e, utree (snd e))) cs) = map F cs). { rewrite map_map. apply map_ext_in. intros e He. unfold F. cbn [fst snd]. now rewrite perm_utree, tname_utree, IH. }
  rewrite !E. cbn [uinfo i_kind i_type]. rewrite map_map. cbn [fst]. destruct (i_kind i) as [|f|c| | |d|k| |data m]; cbn [ukind]; auto.
Qed.
Lemma key_doc_umeta m k : key_doc (umeta m) k = None.
Proof.
  unfold key_doc. cbn [umeta m_data]. assert (E : dget (KStr (hidden_prefix ++ k)) (dmap (m_data m)) = None).
  { apply dget_None. rewrite <- filter_nh_fst. intros H. apply filter_In in H as [_ H]. unfold nh in H. apply negb_true_iff in H. cbn [is_hidden] in H. now rewrite startswith_app in H. }
  now rewrite E.
Qed.
Lemma decl_utree s t : ~ doc_key (KStr (s_key_doc s)) -> deep s t -> decl_of s (utree t) = without_docs (decl_of s t).
Proof.
  intros N D. apply deep_kind in D. unfold decl_of. rewrite tkind_utree, tname_utree, rhs_utree. destruct (tkind t) as [|f|c| | |d|k| |data m] eqn:K; cbn [ukind]; auto.
  - unfold fun_decl. destruct (f_sig f) as [[sig n]|]; auto. destruct (f_lambda f); auto.
  - destruct D as (_ & D & _). rewrite td_umeta. destruct (is_typed_dict s m); auto. cbn [without_docs]. rewrite (functional_umeta s m D), class_doc_dmap by auto. f_equal.
    rewrite tcs_utree. generalize (tcs t). induction l as [|e l IH]; auto. cbn [map filter].
    assert (E : typed_field s (umeta m) (uentry e) = Field (fd_key (typed_field s m e)) (fd_type (typed_field s m e)) None).
    { unfold typed_field. cbn [uentry fst snd fd_key fd_type]. rewrite key_doc_umeta. f_equal. unfold typed_ref. rewrite perm_utree, tname_utree, rhs_utree. reflexivity. }
    rewrite E. change (visible_field (Field (fd_key (typed_field s m e)) (fd_type (typed_field s m e)) None)) with (visible_field (typed_field s m e)). destruct (visible_field (typed_field s m e)); cbn [map]; now rewrite IH.
Qed.

(** ** Imports *)
Definition uout (s : strategies) (c : child_out) : child_out := (fst c, (utree (fst (snd c)), top s (utree (fst (snd c))))).
Lemma td_perm s i cs d m : i_kind i = NDict d m -> is_typed_dict s m = true -> perm s (Node i cs) = true.
Proof. intros K T. unfold perm, tkind. cbn [ti]. now rewrite K, T. Qed.
Lemma top_utree s t : snd (top s (utree t)) = snd (top s t) /\ (is_td s t = false -> fst (top s (utree t)) = fst (top s t)).
Proof.
  induction t as [i cs IH] using tree_ind'. rewrite Forall_forall in IH.
  assert (C : forall e, In e cs -> child_type s (fst (fst e), (utree (snd e), top s (utree (snd e)))) = child_type s (fst (fst e), (snd e, top s (snd e)))).
  { intros e He. unfold child_type. cbn [fst snd]. rewrite perm_utree, tname_utree. destruct (perm s (snd e)) eqn:P; auto. destruct (IH e He) as [I1 I2]. rewrite I1, I2; auto.
    destruct (is_td s (snd e)) eqn:T; auto. unfold is_td, node_is_typed_dict in T. destruct (tkind (snd e)) eqn:K; try discriminate. destruct (snd e) as [j c]. unfold tkind in K. cbn [ti] in K. rewrite (td_perm s j c _ _ K T) in P. discriminate. }
  set (F := fun e : key * nat * tree => (fst (fst e), (utree (snd e), top s (utree (snd e))))).
  set (G := fun e : key * nat * tree => (fst (fst e), (snd e, top s (snd e)))).
  assert (All : map (fun e => (fst (fst e), (snd e, top s (snd e)))) (map (fun e => (fst e, utree (snd e))) cs) = map F cs) by (rewrite map_map; reflexivity).
  assert (CT : map (child_type s) (map F cs) = map (child_type s) (map G cs)) by (rewrite !map_map; apply map_ext_in; exact C).
  assert (VF : exists pre, before_none fst (map F cs) = map F pre /\ before_none fst (map G cs) = map G pre /\ incl pre cs).
  { exists (before_none (fun e => fst (fst e)) cs). assert (H : forall (H : key * nat * tree -> child_out), (forall e, fst (H e) = fst (fst e)) -> before_none fst (map H cs) = map H (before_none (fun e => fst (fst e)) cs)).
    { clear. intros H E. induction cs as [|e cs IHc]; auto. cbn [map before_none]. rewrite E, IHc. destruct (fst (fst e)); auto. }
    split; [now apply H|]. split; [now apply H|]. clear. induction cs as [|e cs IHc]; intros x Hx; auto. cbn [before_none] in Hx. destruct (fst (fst e)); try destruct Hx as [<-|Hx]; try (now left); try (right; now apply IHc); destruct Hx. }
  destruct VF as (pre & V1 & V2 & Ip).
  assert (CV : map (child_type s) (map F pre) = map (child_type s) (map G pre)) by (rewrite !map_map; apply map_ext_in; intros e He; apply C; auto).
  assert (PD : forall i', i_name i' = i_name i -> i_type i' = i_type i -> map_container s (i_kind i') (i_type i') = map_container s (i_kind i) (i_type i) -> parse_dict s i' (map F cs) (map F pre) = parse_dict s i (map G cs) (map G pre)).
  { intros i' E1 E2 E3. unfold parse_dict. rewrite CV, E3, E1. rewrite !map_map. cbn [F G fst]. unfold F, G. cbn [fst]. destruct cs; reflexivity. }
  cbn [utree top]. rewrite All, V1. fold G. rewrite V2. unfold is_td, node_is_typed_dict, tkind. cbn [ti uinfo i_kind].
  destruct (i_kind i) as [|f|c| | |d|k| |data m] eqn:K; cbn [ukind]; auto.
  - cbn [i_type i_name]. rewrite CV. split; reflexivity.
  - rewrite PD; auto; rewrite K; reflexivity.
  - rewrite td_umeta. destruct (is_typed_dict s m) eqn:T.
    + split; [|discriminate]. unfold parse_typed_dict. cbn [snd]. f_equal. rewrite !map_map. rewrite !flat_map_concat_map, !map_map. f_equal. apply map_ext_in. intros e He. unfold F, G. cbn [fst snd]. rewrite perm_utree, tname_utree.
      unfold field_type. cbn [umeta m_required]. specialize (IH e He). destruct IH as [I1 I2]. rewrite I1. destruct (perm s (snd e)) eqn:P; cbn [fst snd]; auto. f_equal. destruct (dget _ _) as [[]|]; auto; destruct (s_read_only s); auto.
    + rewrite PD; auto; rewrite K; reflexivity.
Qed.
