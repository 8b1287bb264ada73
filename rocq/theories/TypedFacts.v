(** Typed dicts, tuples and functions in the trees that [from_data] returns. *)
From Coq Require Import Ascii String List Bool Arith Lia Permutation Sorting.
From Verif Require Import PyStr PyStrFacts Utils Strategies Docstring Imports Dispatch Values Tree Build Emit TreeFacts SpecNames NamesFacts SpecData BuildFacts BuildInd TotalFacts TreeProofs SeqFacts SmallFacts.
From Verif Require Import SpecMerge MergeFacts GroupFacts SpecTypes Elab ElabFacts Provenance DictInv SpecEmit EmitFacts EmitTop.
Import ListNotations.
Local Open Scope string_scope.

(** ** Typed dicts *)
Lemma doc_key_prefix k : ~ doc_key (KStr k) -> startswith hidden_prefix k = false.
Proof. intros H. destruct (startswith hidden_prefix k) eqn:E; auto. exfalso. apply H. apply hidden_doc. exact E. Qed.

Lemma filter_all {A} (p : A -> bool) l : (forall x, In x l -> p x = true) -> filter p l = l.
Proof. induction l as [|x l IH]; intros H; simpl; auto. rewrite (H x) by now left. f_equal. apply IH. intros y Hy. apply H. now right. Qed.

Lemma all_str_keys d k : all_str d = true -> has_key k d -> exists x, k = KStr x.
Proof.
  unfold all_str, has_key. rewrite forallb_forall. intros H Hk. apply in_map_iff in Hk as (kv & <- & Hkv). specialize (H kv Hkv). cbv beta in H.
  destruct (fst kv); try discriminate. eauto.
Qed.

(** What is known about a typed dict node. *)
Lemma td_node s n D m : dinv n -> tkind n = NDict D m -> is_td s n = true ->
  (forall e, In e (tcs n) -> ~ doc_key (ekey e) /\ (exists k, ekey e = KStr k) /\ dget (ekey e) (m_required m) <> None) /\
  NoDup (map ekey (tcs n)).
Proof.
  intros Hd K T. destruct (Hd D m K) as (A & B & (I & A' & E & [M _]) & N). split; auto. intros e He.
  assert (C : child_key n (ekey e)) by (unfold child_key; now apply in_map). pose proof (A _ C) as ND. split; auto.
  destruct (M _ ND) as (_ & M1 & _ & M2). split; [|now apply M2].
  unfold is_td, node_is_typed_dict in T. rewrite K in T. unfold is_typed_dict in T. apply andb_true_iff in T as [T _].
  eapply all_str_keys; eauto. now apply M1.
Qed.

Definition optional (m : meta) (k : key) : bool := match dget k (m_required m) with Some false => true | _ => false end.
Lemma typed_fields s n D m : dinv n -> tkind n = NDict D m -> is_td s n = true ->
  let fields := filter visible_field (map (typed_field s m) (tcs n)) in
  decl_of s n = DTyped (tname n) (functional_syntax m) fields (class_doc s D) /\
  map (fun f => KStr (fd_key f)) fields = map ekey (tcs n) /\ NoDup (map fd_key fields) /\
  (forall f, In f fields -> ~ doc_key (KStr (fd_key f))) /\
  map fd_type fields = map (fun e => wrapped (s_read_only s) (optional m (ekey e)) (typed_ref s (snd e) (rhs s (snd e)))) (tcs n).
Proof.
  intros Hd K T fields. destruct (td_node s n D m Hd K T) as [E N].
  assert (F : fields = map (typed_field s m) (tcs n)).
  { unfold fields. apply filter_all. intros f Hf. apply in_map_iff in Hf as (e & <- & He). destruct (E e He) as (ND & (k & Ek) & _).
    unfold visible_field, typed_field. cbn [fd_key]. unfold ekey in *. rewrite Ek in *. cbn [key_str]. now rewrite doc_key_prefix. }
  assert (Ks : map (fun f => KStr (fd_key f)) fields = map ekey (tcs n)).
  { rewrite F, map_map. apply map_ext_in. intros e He. destruct (E e He) as (_ & (k & Ek) & _). unfold ekey in *. cbn [typed_field fd_key]. now rewrite Ek. }
  split; [|split; [|split; [|split]]]; auto.
  - unfold decl_of. rewrite K. unfold is_td, node_is_typed_dict in T. rewrite K in T. now rewrite T.
  - apply (NoDup_map_inv KStr). rewrite map_map, Ks. exact N.
  - intros f Hf. apply (in_map (fun f => KStr (fd_key f))) in Hf. rewrite Ks in Hf. apply in_map_iff in Hf as (e & Ee & He). destruct (E e He) as (ND & _). now rewrite <- Ee.
  - rewrite F, map_map. apply map_ext_in. intros e He. destruct (E e He) as (_ & _ & R). cbn [typed_field fd_type]. unfold wrap, wrapped, optional, ekey in *.
    destruct (dget (fst (fst e)) (m_required m)) as [[]|]; [| |congruence]; destruct (s_read_only s); reflexivity.
Qed.

(** ** Class and functional syntax *)
Lemma kwlist_keywords x : mem x kwlist = true <-> In x python_keywords.
Proof. change kwlist with python_keywords. apply mem_spec. Qed.
Lemma functional_spec m : all_str (m_data m) = true ->
  (forall k, has_key (KStr k) (m_data m) -> plain k /\ has_letter_or_digit k) ->
  (functional_syntax m = false <-> forall k, has_key (KStr k) (m_data m) -> class_statement_name k).
Proof.
  intros A H. unfold functional_syntax. rewrite negb_false_iff, forallb_forall. split.
  - intros F k Hk. destruct (H k Hk) as [P L]. apply in_map_iff in Hk as (kv & E & Hkv). specialize (F kv Hkv). rewrite E in F. apply andb_true_iff in F as [F1 F2].
    split; [now apply (is_compatible_identifier k P)|]. intros G. apply kwlist_keywords in G. rewrite G in F1. discriminate.
  - intros F kv Hkv. assert (Hk : has_key (fst kv) (m_data m)) by (unfold has_key; now apply in_map).
    destruct (all_str_keys _ _ A Hk) as (k & E). rewrite E in *. destruct (F k Hk) as [F1 F2]. destruct (H k Hk) as [P L].
    apply andb_true_iff. split; [|now apply (is_compatible_identifier k P)]. apply negb_true_iff, not_true_iff_false. rewrite kwlist_keywords. exact F2.
Qed.
Lemma quotable_reads k : quotable k -> reads k k.
Proof.
  induction k as [|c k IH]; intros H; constructor; [apply H; now left|]. apply IH. intros d Hd. apply H. now right.
Qed.
(** Only such a text reads as itself. *)
Lemma reads_quotable k : reads k k -> quotable k.
Proof.
  assert (L : forall t s, reads t s -> String.length s <= String.length t).
  { induction 1; simpl; lia. }
  induction k as [|c k IH]; intros H; [intros d []|]. inversion H as [|c' t s N R E1 E2|t s R E1 E2|t s R E1 E2].
  - subst. intros d [<-|Hd]; auto. now apply IH.
  - exfalso. subst. apply L in R. simpl in R. lia.
Qed.

(** ** Tuples *)
(** The node stands for a value of this kind. *)
Definition kind_of_value (x : pyval) (n : tree) : Prop :=
  made_from x n \/ (exists t d, x = VMap MDict t d) /\ (exists d m, tkind n = NDict d m).

Lemma made_from_root s ord fuel name d r v t : build s ord fuel name d r v = Ok t -> made_from v t.
Proof.
  intros H. destruct v; destruct fuel as [|fl]; cbn [build] in H; try (unfold leaf in H; destruct (is_compatible name); [injection H as <-; split; reflexivity | discriminate]).
  - destruct (negb _); discriminate.
  - destruct (negb _); [discriminate|]. apply bind_Ok in H as (cs & _ & H). injection H as <-. split; reflexivity.
  - destruct k; [discriminate|]. destruct (negb _); discriminate.
  - destruct k; [|destruct (negb _); [discriminate|]]; apply bind_Ok in H as (cs & _ & H); injection H as <-; split; try reflexivity. cbn. eauto.
Qed.
Lemma made_from_ren x n k new len : made_from x n -> made_from x (ren k new len n).
Proof. intros [A B]. unfold made_from. rewrite ren_kind, ren_type. auto. Qed.
Lemma td_dict s c : is_td s c = true -> exists d m, tkind c = NDict d m.
Proof. unfold is_td, node_is_typed_dict. destruct (tkind c); try discriminate. eauto. Qed.
Lemma made_from_td s x c : made_from x c -> is_td s c = true -> exists t d, x = VMap MDict t d.
Proof.
  intros [_ M] T. destruct (td_dict _ _ T) as (d & m & K). rewrite K in M. destruct x as [| | | | | | | |[]]; try discriminate; eauto.
Qed.

Lemma tuple_children s ord fuel name d r ty l t : s_tuple s = TFixed -> build s ord fuel name d r (VSeq KTuple ty l) = Ok t ->
  tkind t = NSeq KTuple /\ Forall2 kind_of_value (limit s l) (map etree (tcs t)) /\ Forall (fun e => ekey e = no_key) (tcs t).
Proof.
  intros T H. destruct fuel as [|f]; cbn [build] in H; [destruct (negb _); discriminate|]. destruct (negb _); [discriminate|]. rewrite T in H.
  apply bind_Ok in H as (cs & H & E). injection E as <-. split; [reflexivity|]. cbn [inner tcs].
  apply bind_Ok in H as (ch & H1 & H2).
  eapply (build_list_inv _ _ _ (fun done ch _ => Forall2 made_from done ch) _ []) in H1 as (names & H1).
  - cbn [app] in H1. apply merge_list_spec in H2 as [(_ & ->)|(_ & m & Hm & ->)].
    + split.
      * unfold no_sharing. rewrite map_map. cbn [etree snd]. rewrite map_id. clear -H1. induction H1; constructor; auto. now left.
      * apply Forall_forall. intros e He. apply in_map_iff in He as (x & <- & _). reflexivity.
    + split.
      * rewrite map_map. set (g := fun x => etree (if is_td s x then (no_key, List.length (filter (is_td s) ch), m) else (no_key, 1, x))).
        assert (Km : exists d0 m0, tkind m = NDict d0 m0).
        { apply from_multiple_Ok in Hm as (fi & re & t0 & -> & Hb & ->). apply made_from_root in Hb. cbn [exhaust] in Hb. destruct Hb as [_ (d0 & m0 & K)].
          unfold set_meta. rewrite K. unfold tkind. cbn [ti with_kind i_kind]. eauto. }
        clear Hm. unfold g. generalize (List.length (filter (is_td s) ch)). intros N. clear g.
        induction H1 as [|x c xs cs M H1 IH]; constructor; auto.
        cbn beta. destruct (is_td s c) eqn:E; cbn [etree snd]; [right; split; auto; eapply made_from_td; eauto|now left].
      * apply Forall_forall. intros e He. apply in_map_iff in He as (x & <- & _). destruct (is_td s x); reflexivity.
  - intros done chs added v child _ Hi Hb. apply made_from_root in Hb. destruct (lookup_tree s child added); (apply Forall2_app; [auto|constructor; [|constructor]]); auto.
    now apply made_from_ren.
  - constructor.
Qed.

Lemma iter_no_none cs : Forall (fun e : key * nat * tree => ekey e = no_key) cs -> iter_entries cs = cs.
Proof.
  unfold iter_entries. induction 1 as [|e cs H _ IH]; cbn [before_none]; auto. rewrite H. cbn. now rewrite IH.
Qed.

Lemma rhs_not_any s c : print_ty (rhs s c) <> "Any".
Proof.
  destruct c as [i cs]. rewrite rhs_node.
  assert (G : forall h args, In h ["Optional"; "Callable"; "Type"; "List"; "Sequence"; "Tuple"; "Set"; "FrozenSet"; "Iterator"; "pd.Series"; "MappingProxyType"; "Mapping"; "Dict"] -> print_ty (TApp h args) <> "Any").
  { intros h args H E. cbn [print_ty] in E. cbn [In] in H. repeat (destruct H as [<-|H]; [discriminate|]). destruct H. }
  assert (GD : forall args, print_ty (TApp (fst (map_container s (i_kind i) (i_type i))) args) <> "Any").
  { intros args. apply G. unfold map_container. destruct (String.eqb _ _); [|destruct (s_dict s)]; cbn; tauto. }
  destruct (i_kind i) eqn:K; try discriminate; try (now apply GD).
  - destruct (Nat.eqb _ _); [apply G; cbn; tauto|]. unfold class_ref. destruct (is_builtin _) eqn:B; [|discriminate]. cbn [print_ty].
    intros E. rewrite E in B. discriminate.
  - destruct (f_sig f) as [[]|]; [apply G; cbn; tauto|discriminate].
  - apply G. unfold seq_container. destruct k; try destruct (s_list s); try destruct (Nat.eqb _ _); cbn; tauto.
Qed.

Lemma prefix_any n r : n ++ r = "Any" -> In n [""; "A"; "An"; "Any"].
Proof.
  destruct n as [|a [|b [|c [|e n]]]]; cbn [append]; intros H; try (cbn; tauto); injection H; intros; subst; cbn; try tauto. discriminate.
Qed.

Lemma tuple_text s ord ty l n t : valid s -> set_like ord -> ordinary_types (VSeq KTuple ty l) -> plain_texts (VSeq KTuple ty l) ->
  s_tuple s = TFixed -> l <> [] -> ~ In n ["A"; "An"; "Any"] ->
  from_data s ord (VSeq KTuple ty l) n = Ok t ->
  fst (top s t) = n ++ ": TypeAlias = Tuple[" ++ join ", " (map (written s) (map etree (tcs t))) ++ "]" /\
  Forall2 kind_of_value (limit s l) (map etree (tcs t)).
Proof.
  intros Hs Ho Hv Hp T Hl Hn H. pose proof (from_data_eq_free _ _ _ _ _ Hs Ho Hv Hp H) as F. pose proof (from_data_names _ _ _ _ _ Hs Ho Hv H) as Nm.
  assert (En : n <> "") by (intros ->; unfold from_data in H; discriminate).
  pose proof H as H0. unfold from_data in H. destruct (is_compatible n) eqn:C; [|discriminate].
  assert (Tn : tname t = n). { apply build_from_els in H as [_ H]; auto. }
  destruct (tuple_children _ _ _ _ _ _ _ _ _ T H) as (K & F2 & NK). split; auto.
  assert (Ne : tcs t <> []).
  { intros E. rewrite E in F2. inversion F2 as [E2|]. unfold limit in E2. destruct l as [|x l]; [congruence|]. unfold effective_limit in E2.
    destruct (s_max_n s) as [[|]|]; discriminate. }
  destruct t as [i cs]. unfold tkind, tname in *. cbn [ti tcs] in *. rewrite top_node, K. cbv zeta. rewrite outs_written, (iter_no_none cs NK), T.
  unfold seq_container. cbn [fst]. unfold alias. rewrite Tn. set (L := map (written s) (map etree cs)).
  assert (LN : L <> []) by (unfold L; destruct cs; [congruence|discriminate]).
  assert (Q : fst (tuple_types_of TFixed L) = join ", " L).
  { unfold tuple_types_of. cbv zeta. destruct L as [|x [|y r]] eqn:EL; [congruence| |reflexivity]. cbn [or_any List.length Nat.eqb andb].
    destruct (mem "Any" [x]) eqn:M; [|reflexivity]. exfalso. apply mem_spec in M as [->|[]].
    unfold L in EL. destruct cs as [|e [|? ?]]; try discriminate. cbn [map] in EL. injection EL as EL. unfold written in EL.
    assert (Fe : eq_free (etree e)) by (eapply eq_free_child; [exact F|now left]).
    destruct (perm s (etree e)) eqn:P.
    - destruct (Nm (etree e)) as (r & E); [econstructor; [now left|constructor]|]. unfold tname in EL. rewrite EL in E. symmetry in E. apply prefix_any in E as [E|E]; [congruence|]. now apply Hn.
    - rewrite (child_ok_all s (etree e) Fe P) in EL. now apply rhs_not_any in EL. }
  destruct (tuple_types_of TFixed L) as [a b]. cbn [fst] in *. rewrite Q. reflexivity.
Qed.

(** ** Functions *)
Lemma fun_declarations s ord f n t : from_data s ord (VFun f) n = Ok t ->
  declarations s t = match function_top n f with Some o => Some [fst o] | None => None end.
Proof.
  intros H. unfold from_data in H. destruct (is_compatible n) eqn:C; [|discriminate].
  assert (E : t = Node (Info n 0 0 true (NFun f) (f_type f)) []).
  { destruct (S (vdepth (VFun f))); cbn [build] in H; unfold leaf in H; rewrite C in H; now injection H. }
  subst t. unfold declarations. cbn [collect]. unfold perm, tkind. cbn [ti i_kind i_depth Nat.eqb andb existsb map]. unfold function_fails, tkind. cbn [ti i_kind].
  rewrite top_node. cbn [i_kind i_name]. rewrite orb_false_r.
  unfold function_top. destruct (f_sig f) as [[sig k]|]; [|reflexivity]. destruct (f_lambda f); [reflexivity|]. cbv zeta. destruct (contains "->" sig); [reflexivity|].
  destruct (f_return f) as [[]|]; reflexivity.
Qed.
Lemma arrow_paren p : contains "->" (p ++ ")") = contains "->" p.
Proof.
  induction p as [|c p IH]; [reflexivity|]. cbn [append contains]. rewrite IH. f_equal.
  destruct p as [|d p]; cbn [append startswith]; [now rewrite !andb_false_r|reflexivity].
Qed.
Lemma arrow_signature p r : contains "->" (signature p r) = match r with Some _ => true | None => contains "->" p end.
Proof.
  unfold signature. destruct r as [r|].
  - apply contains_spec. exists ("(" ++ p ++ ") "), (" " ++ r). rewrite !app_assoc_s. reflexivity.
  - change ("" : string) with "". rewrite <- (arrow_paren p). reflexivity.
Qed.
