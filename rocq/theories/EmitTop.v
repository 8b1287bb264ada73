(** The facts about declarations, for the trees that [from_data] returns. *)
From Coq Require Import Ascii String List Bool Arith Lia Permutation Sorting.
From Verif Require Import PyStr PyStrFacts Utils Strategies Docstring Imports Dispatch Values Tree Build Emit TreeFacts SpecNames NamesFacts SpecData BuildFacts BuildInd TotalFacts TreeProofs SeqFacts SmallFacts.
From Verif Require Import SpecMerge MergeFacts GroupFacts SpecTypes Elab ElabFacts Provenance DictInv SpecEmit EmitFacts.
Import ListNotations.
Local Open Scope string_scope.

Lemma from_data_wordy s ord v n t : valid s -> set_like ord -> ordinary_types v -> from_data s ord v n = Ok t ->
  forall x, node_of x t -> wordy (tname x).
Proof.
  intros Hs Ho Hv H. unfold from_data in H. destruct (is_compatible n) eqn:Hn; [|discriminate].
  destruct (build_total s ord Ho (valid_merge s Hs) W_all W_all_closed (W_all_str _) (S (vdepth v)) n 0 true v) as (t' & E & A); eauto using named_all, W_all_str.
  rewrite H in E. injection E as <-. intros x Hx. apply (all_names_nodes _ _ A) in Hx as (C & _). split; [now apply compatible_word|]. intros E0. rewrite E0 in C. discriminate.
Qed.

(** What holds of all keys of the data holds of all keys of the tree (the entries of sequences have no key). *)
Lemma from_data_keys s ord v n t (K : key -> Prop) : set_like ord -> (forall k, key_in k v -> K k) -> from_data s ord v n = Ok t ->
  forall x e, node_of x t -> In e (tcs x) -> K (ekey e) \/ ekey e = no_key.
Proof.
  intros Ho Hk H x e Hx He. unfold from_data in H. destruct (is_compatible n); [|discriminate].
  assert (P : tree_ok (fun _ => True) K t).
  { eapply (build_prov s ord Ho (fun _ => True) K); [| | |exact H]; auto. split; auto. }
  destruct (P x Hx) as (_ & C & _). auto.
Qed.
Lemma from_data_keys_builtin s ord v n t : set_like ord -> builtin_keys v -> from_data s ord v n = Ok t -> keys_builtin t.
Proof.
  intros Ho Hk H x e Hx He. destruct (from_data_keys _ _ _ _ _ _ Ho Hk H x e Hx He) as [A| ->]; auto. apply mem_spec. reflexivity.
Qed.
Lemma from_data_key_name s ord v n t x : set_like ord -> from_data s ord v n = Ok t -> key_name t x ->
  x = "str" \/ exists k, key_in k v /\ x = ty_name (key_type k).
Proof.
  intros Ho H (y & e & Hy & He & ->). destruct (from_data_keys _ _ _ _ _ (fun k => key_in k v) Ho (fun k Hk => Hk) H y e Hy He) as [A|E]; eauto.
  left. rewrite E. reflexivity.
Qed.

Lemma from_data_resolved s ord v n t texts : valid s -> set_like ord -> ordinary_types v -> plain_texts v -> builtin_keys v ->
  (s_dict s = DTypedDict -> camel_name n /\ solid_types v) ->
  from_data s ord v n = Ok t -> declarations s t = Some texts ->
  exists ds, texts = map print_decl ds /\ names_resolved (recorded_imports s t) ds.
Proof.
  intros Hs Ho Hv Hp Hk Hc H D. exists (decls s t). eapply resolved; eauto using from_data_eq_free, from_data_keys_builtin, from_data_wordy.
  intros T x Hx. unfold is_td_strategy in T. destruct (s_dict s) eqn:E; try discriminate. destruct (Hc eq_refl). eapply from_data_camel; eauto.
Qed.

(** ** Imports *)
Definition known_kw (x : string) : Prop := In x (map fst PACKAGE).
Ltac kw := apply mem_spec; vm_compute; reflexivity.
Ltac kws H := repeat (destruct H as [<-|H]; [kw|]); try destruct H.

Lemma symbols_known x s : In x (import_symbols s) -> known_kw x.
Proof. unfold import_symbols. intros H. apply filter_In in H as [_ H]. now apply mem_spec. Qed.
Lemma signature_known x s : In x (signature_imports s) -> known_kw x.
Proof.
  unfold signature_imports. intros H. apply in_app_or in H as [H|H].
  - apply in_flat_map in H as (y & _ & H). eapply symbols_known; eauto.
  - destruct (search_return s); [eapply symbols_known; eauto | destruct H].
Qed.
Lemma format_types_known x l : In x (snd (format_types l)) -> known_kw x.
Proof. destruct l as [|a [|b l]]; cbn [format_types snd]; intros H; kws H. Qed.
Lemma any_import_known x l : In x (any_import l) -> known_kw x.
Proof. destruct l; cbn [any_import]; intros H; kws H. Qed.
Lemma types_of_known x l : In x (snd (types_of l)) -> known_kw x.
Proof.
  unfold types_of. destruct (format_types _) as [a b] eqn:E. cbn [snd]. intros H. apply in_app_or in H as [H|H]; [eapply any_import_known; eauto|].
  eapply format_types_known. rewrite E. exact H.
Qed.
Lemma tuple_types_of_known x st l : In x (snd (tuple_types_of st l)) -> known_kw x.
Proof.
  unfold tuple_types_of. cbv zeta. intros H. destruct (_ && _).
  - cbn [snd] in H. apply in_app_or in H as [H|H]; [eapply any_import_known; eauto|kws H].
  - destruct st; [cbn [snd] in H; eapply any_import_known; eauto|]. destruct (dedup _) as [|a [|b r]]; cbn [snd] in H.
    + apply in_app_or in H as [H|H]; [eapply any_import_known; eauto|kws H].
    + eapply any_import_known; eauto.
    + apply in_app_or in H as [H|H]; [eapply any_import_known; eauto|kws H].
Qed.
Lemma field_type_known x s m k r : In x (snd (field_type s m k r)) -> known_kw x.
Proof.
  unfold field_type. destruct (dget k (m_required m)) as [[]|]; try destruct (s_read_only s); cbn [snd app]; intros H; kws H.
Qed.
Lemma function_known x n f o : function_top n f = Some o -> In x (snd o) -> known_kw x.
Proof.
  unfold function_top. destruct (f_sig f) as [[sig k]|]; [|intros E; injection E as <-; cbn [snd]; intros H; kws H].
  destruct (f_lambda f); [intros E; injection E as <-; cbn [snd]; intros H; kws H|]. cbv zeta.
  destruct (contains "->" sig).
  - intros E; injection E as <-; cbn [snd]. intros [<-|H]; [kw|]. eapply signature_known; eauto.
  - destruct (f_return f) as [[]|]; intros E; try discriminate; injection E as <-; cbn [snd]; intros [<-|H]; try kw.
    + apply in_app_or in H as [H|H]; [eapply signature_known; eauto|kws H].
    + eapply signature_known; eauto.
Qed.
Lemma seq_container_known x s k t : In x (snd (seq_container s k t)) -> known_kw x.
Proof. unfold seq_container. destruct k; try destruct (s_list s); try destruct (Nat.eqb _ _); cbn [snd]; intros H; kws H. Qed.
Lemma map_container_known x s k t : In x (snd (map_container s k t)) -> known_kw x.
Proof. unfold map_container. destruct (String.eqb _ _); try destruct (s_dict s); cbn [snd]; intros H; kws H. Qed.

Lemma top_known s t x : In x (snd (top s t)) -> known_kw x.
Proof.
  induction t as [i cs IH] using tree_ind'. rewrite Forall_forall in IH. rewrite top_node.
  assert (C : forall l, (forall c, In c l -> In c (outs s cs)) -> In x (outs_imports (map (child_type s) l)) -> known_kw x).
  { intros l Hl H. unfold outs_imports in H. apply in_flat_map in H as (o & Ho & H). apply in_map_iff in Ho as (c & <- & Hc). apply Hl in Hc.
    unfold outs in Hc. apply in_map_iff in Hc as (e & <- & He). unfold child_type in H. cbn [fst snd] in H.
    destruct (perm s (snd e)); [destruct H|]. eapply IH; eauto. }
  assert (V : forall c, In c (before_none (@fst key (tree * out)) (outs s cs)) -> In c (outs s cs)) by (intros c; apply before_none_In).
  assert (D : In x (snd (parse_dict s i (outs s cs) (before_none (@fst key (tree * out)) (outs s cs)))) -> known_kw x).
  { unfold parse_dict. destruct (map_container s (i_kind i) (i_type i)) as [c ci] eqn:EC.
    destruct (match outs s cs with [] => _ | _ => _ end) as [ks ki] eqn:EK.
    destruct (types_of _) as [vs vi] eqn:EV. cbn [snd]. intros H. apply in_app_or in H as [H|H].
    { eapply map_container_known. rewrite EC. exact H. }
    apply in_app_or in H as [H|H].
    { destruct (outs s cs) eqn:EO.
      - apply in_app_or in H as [H|H]; [eapply any_import_known; eauto|]. apply in_app_or in H as [H|H]; [now apply (C _ V)|].
        eapply format_types_known. rewrite EK. exact H.
      - eapply format_types_known. rewrite EK. exact H. }
    apply in_app_or in H as [H|H]; [now apply (C _ V)|]. apply in_app_or in H as [H|H]; [eapply types_of_known; rewrite EV; exact H|]. kws H. }
  destruct (i_kind i) as [|f|c| | |d|k| |data m].
  - unfold instance_top. destruct (Nat.eqb _ _); [|destruct (i_root i)]; cbn [snd]; intros H; kws H.
  - destruct (function_top (i_name i) f) eqn:E; [|intros []]. intros H. eapply function_known; eauto.
  - cbn [snd]; intros H; kws H.
  - cbn [snd]; intros H; kws H.
  - cbn [snd]; intros H; kws H.
  - cbn [snd]; intros H; kws H.
  - cbv zeta. destruct (seq_container s k (i_type i)) as [c ci] eqn:EC. destruct (match k with KTuple => _ | _ => _ end) as [a b] eqn:EI. cbn [snd]. intros H.
    apply in_app_or in H as [H|H]; [eapply seq_container_known; rewrite EC; exact H|].
    apply in_app_or in H as [H|H]; [kws H|]. apply in_app_or in H as [H|H]; [now apply (C _ V)|].
    destruct k; try (eapply types_of_known; rewrite EI; exact H). eapply tuple_types_of_known; rewrite EI; exact H.
  - exact D.
  - destruct (is_typed_dict s m); [|exact D]. unfold parse_typed_dict. cbn [snd]. intros [<-|H]; [kw|].
    apply in_flat_map in H as (f & Hf & H). apply in_map_iff in Hf as (c & <- & Hc). cbn [snd] in H. apply in_app_or in H as [H|H].
    + unfold outs in Hc. apply in_map_iff in Hc as (e & <- & He). cbn [fst snd] in H. destruct (perm s (snd e)); [destruct H|]. eapply IH; eauto.
    + eapply field_type_known; eauto.
Qed.
Lemma recorded_known s t x : In x (recorded_imports s t) -> known_kw x.
Proof.
  unfold recorded_imports. intros H. apply imp_adds_In in H as [H|[]]. apply in_flat_map in H as (n & _ & H). eapply top_known; eauto.
Qed.

(** Every name of a declaration is imported, built in, the name of a node or the class of a key. *)
Lemma from_data_names_known s ord v n t texts : valid s -> set_like ord -> ordinary_types v -> plain_texts v ->
  from_data s ord v n = Ok t -> declarations s t = Some texts ->
  exists ds, texts = map print_decl ds /\ forall d x, In d ds -> In x (mentioned d) ->
    imported (recorded_imports s t) x \/ In x builtin_classes \/
    (exists c, node_of c t /\ (x = tname c \/ x = to_camel_case (tname c))) \/ (exists k, key_in k v /\ x = ty_name (key_type k)).
Proof.
  intros Hs Ho Hv Hp H D. pose proof (from_data_eq_free _ _ _ _ _ Hs Ho Hv Hp H) as F. pose proof D as D0.
  apply declarations_decls in D as [D NF]; auto. exists (decls s t). split; auto.
  intros d x Hd Hx. unfold decls in Hd. apply in_map_iff in Hd as (c & <- & Kc). pose proof (NF c Kc) as Xc.
  assert (Cc : In c (collect s t)) by (eapply firsts_incl; exact Kc). destruct (collect_nodes s t c Cc) as [Nc Pc].
  assert (Fc : eq_free c) by (intros y Hy; apply F; eapply node_of_trans; eauto).
  apply decl_names in Hx as [[Hx|Hx]|[Hx|[Hx|[_ Hx]]]]; auto.
  - left. destruct Hx as (kw & K & Pr). exists kw. split; auto. now apply (recorded_top s t c Cc).
  - right. right. left. apply in_map_iff in Hx as (r & <- & Hr). apply refs_node in Hr as [Hr _]. exists r. split; auto. eapply node_of_trans; eauto.
  - destruct (from_data_key_name s ord v n t x Ho H) as [->|E]; auto.
    + destruct Hx as (y & e & Hy & He & E). exists y, e. split; auto. eapply node_of_trans; eauto.
    + right. left. kw.
  - right. right. left. apply in_map_iff in Hx as (r & <- & Hr). apply refs_node in Hr as [Hr _]. exists r. split; auto. eapply node_of_trans; eauto.
Qed.

(** ** Unions *)
Lemma union_members_iff x l : In x (union_members l) <-> In x l /\ (x = "int" -> ~ In "float" l).
Proof.
  unfold union_members. destruct (mem "float" l && mem "int" l) eqn:E.
  - apply andb_true_iff in E as [E1 E2]. apply mem_spec in E1, E2. rewrite filter_In, negb_true_iff, String.eqb_neq, <- (dedup_In x l), <- (sort_In x (dedup l)). tauto.
  - rewrite sort_In, dedup_In. split; [|tauto]. intros H. split; auto. intros -> F. apply andb_false_iff in E as [E|E]; apply not_true_iff_false in E; apply E, mem_spec; auto.
Qed.
Lemma format_types_spelled l : fst (format_types l) = spelled l.
Proof. destruct l as [|a [|b l]]; reflexivity. Qed.
Lemma types_of_canonical l : canonical_union l (fst (types_of l)).
Proof.
  unfold types_of. destruct (format_types _) as [a b] eqn:E. cbn [fst]. apply (f_equal fst) in E. cbn [fst] in E. rewrite format_types_spelled in E. subst a.
  destruct l as [|x l]; [left; split; reflexivity|]. right. split; [discriminate|]. exists (union_members (x :: l)).
  split; [apply union_members_sorted|]. split; [apply union_members_NoDup|]. split; auto. intros y. apply union_members_iff.
Qed.
Lemma canonical_unique l l' u u' : (forall x, In x l <-> In x l') -> canonical_union l u -> canonical_union l' u' -> u = u'.
Proof.
  intros H [[-> ->]|[N (ms & S & D & M & ->)]] [[-> ->]|[N' (ms' & S' & D' & M' & ->)]]; auto.
  - exfalso. destruct l' as [|x l']; [congruence|]. destruct (proj2 (H x)); now left.
  - exfalso. destruct l as [|x l]; [congruence|]. destruct (proj1 (H x)); now left.
  - f_equal. apply sorted_unique; auto. apply NoDup_Permutation; auto. intros x. rewrite M, M', H. setoid_rewrite H. tauto.
Qed.
Lemma any_tuple_canonical l : exists u, fst (tuple_types_of TAnySize l) = u ++ ", ..." /\ canonical_union l u.
Proof.
  exists (fst (types_of l)). split; [|apply types_of_canonical]. unfold tuple_types_of, types_of. cbv zeta.
  destruct (format_types (union_members (or_any l))) as [a b] eqn:E. cbn [fst]. apply (f_equal fst) in E. cbn [fst] in E. rewrite format_types_spelled in E. subst a.
  pose proof (union_members_NoDup (or_any l)) as N. pose proof (union_members_sorted (or_any l)) as S. rewrite (dedup_id _ N).
  destruct (union_members (or_any l)) as [|x [|y r]] eqn:U.
  - reflexivity.
  - cbn [List.length Nat.eqb andb]. destruct (mem "Any" [x]) eqn:M; [|reflexivity]. apply mem_spec in M as [->|[]]. reflexivity.
  - cbn [List.length Nat.eqb andb fst]. rewrite sort_sorted_id by auto. unfold spelled. rewrite !app_assoc_s. reflexivity.
Qed.

(** How a child is written in the type of its parent. *)
Definition written (s : strategies) (c : tree) : string := if perm s c then tname c else without_lvalue (fst (top s c)).
Lemma outs_written s cs : outs_strings (map (child_type s) (before_none (@fst key (tree * out)) (outs s cs))) = map (written s) (map etree (iter_entries cs)).
Proof.
  unfold outs_strings, outs. rewrite before_none_map, !map_map. cbn [fst]. apply map_ext. intros e. unfold child_type, written, etree. cbn [fst snd].
  destruct (perm s (snd e)); reflexivity.
Qed.
Definition dots (k : seqkind) : string := match k with KTuple => ", ..." | _ => "" end.
Lemma seq_text s n k : tkind n = NSeq k -> (k = KTuple -> s_tuple s = TAnySize) ->
  exists h u, fst (top s n) = tname n ++ ": TypeAlias = " ++ h ++ "[" ++ u ++ dots k ++ "]" /\
    In h ["List"; "Sequence"; "Tuple"; "Set"; "FrozenSet"; "Iterator"; "pd.Series"] /\
    canonical_union (map (written s) (iter_children n)) u.
Proof.
  destruct n as [i cs]. unfold tkind. cbn [ti]. intros K T. rewrite top_node, K. cbv zeta. rewrite outs_written. unfold iter_children. cbn [tcs].
  set (l := map (written s) (map etree (iter_entries cs))).
  assert (C : In (fst (seq_container s k (i_type i))) ["List"; "Sequence"; "Tuple"; "Set"; "FrozenSet"; "Iterator"; "pd.Series"]).
  { unfold seq_container. destruct k; try destruct (s_list s); try destruct (Nat.eqb _ _); cbn; tauto. }
  destruct (seq_container s k (i_type i)) as [h ci]. cbn [fst] in C. exists h.
  pose proof (types_of_canonical l) as CL. destruct k; try (exists (fst (types_of l)); destruct (types_of l) as [a b]; cbn [fst dots] in *; cbn [append]; auto; fail).
  rewrite (T eq_refl). destruct (any_tuple_canonical l) as (u & E & U). exists u. destruct (tuple_types_of TAnySize l) as [a b]. cbn [fst] in *. rewrite E, !app_assoc_s. auto.
Qed.
Lemma map_text s n : is_td s n = false -> (tkind n = NProxy \/ exists d m, tkind n = NDict d m) ->
  exists h ks u, fst (top s n) = tname n ++ ": TypeAlias = " ++ h ++ "[" ++ ks ++ ", " ++ u ++ "]" /\ In h ["MappingProxyType"; "Mapping"; "Dict"] /\
    canonical_union (map (fun e => ty_name (key_type (ekey e))) (tcs n)) ks /\ canonical_union (map (written s) (iter_children n)) u.
Proof.
  destruct n as [i cs]. unfold is_td, node_is_typed_dict, tkind, tname. cbn [ti tcs]. intros T K.
  assert (G : exists h ks u, fst (parse_dict s i (outs s cs) (before_none (@fst key (tree * out)) (outs s cs))) = i_name i ++ ": TypeAlias = " ++ h ++ "[" ++ ks ++ ", " ++ u ++ "]" /\ In h ["MappingProxyType"; "Mapping"; "Dict"] /\
    canonical_union (map (fun e => ty_name (key_type (ekey e))) cs) ks /\ canonical_union (map (written s) (map etree (iter_entries cs))) u).
  { unfold parse_dict. rewrite outs_written. set (l := map (written s) (map etree (iter_entries cs))).
    assert (C : In (fst (map_container s (i_kind i) (i_type i))) ["MappingProxyType"; "Mapping"; "Dict"]).
    { unfold map_container. destruct (String.eqb _ _); try destruct (s_dict s); cbn; tauto. }
    destruct (map_container s (i_kind i) (i_type i)) as [h ci]. cbn [fst] in C. exists h.
    pose proof (types_of_canonical l) as CL. destruct (types_of l) as [vs vi]. cbn [fst] in CL.
    assert (CK : canonical_union (map (fun e => ty_name (key_type (ekey e))) cs) (fst (match outs s cs with [] => format_types (union_members (or_any l))
      | _ => format_types (union_members (map (fun c : key * (tree * out) => ty_name (key_type (fst c))) (outs s cs))) end))).
    { destruct cs as [|e cs].
      - left. split; auto.
      - right. split; [discriminate|]. unfold outs. cbn [map]. rewrite format_types_spelled, map_map. cbn [fst].
        exists (union_members (ty_name (key_type (fst (fst e))) :: map (fun x => ty_name (key_type (fst (fst x)))) cs)).
        split; [apply union_members_sorted|]. split; [apply union_members_NoDup|]. split; auto. intros y. apply union_members_iff. }
    destruct (match outs s cs with [] => _ | _ => _ end) as [ks ki]. cbn [fst] in CK. exists ks, vs. cbn [fst]. auto. }
  rewrite top_node. unfold iter_children. cbn [tcs]. destruct K as [K|(d & m & K)]; rewrite K in *; [|rewrite T]; exact G.
Qed.
