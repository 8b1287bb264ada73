(** The declarations written for a tree accept the values that the tree accepts. *)
From Coq Require Import Ascii String List Bool Arith Lia Permutation.
From Verif Require Import PyStr PyStrFacts Utils Strategies Docstring Imports Dispatch Values Tree Build Emit TreeFacts SpecNames NamesFacts SpecData BuildFacts BuildInd TotalFacts TreeProofs SeqFacts SmallFacts.
From Verif Require Import SpecMerge MergeFacts GroupFacts SpecTypes Elab ElabFacts Provenance DictInv SpecEmit EmitFacts EmitTop TypedFacts SpecSound SoundPrint SoundRead SoundTree.
Import ListNotations.
Local Open Scope string_scope.

(** ** Well formed types *)
Lemma word_is_name n : wordy n -> is_name n.
Proof.
  intros [H N]. split.
  - eapply str_forall_impl; [|exact H]. intros c Hc. assert (G : negb (word_char c) || name_char c = true) by by_chars c. now rewrite Hc in G.
  - destruct n as [|c r]; [congruence|]. exists c, r. split; auto. intros ->. cbn [str_forall] in H. discriminate.
Qed.
Lemma builtin_name n : In n builtin_classes -> is_name n.
Proof.
  intros H. assert (F : forallb (fun n => str_forall name_char n && match n with String c _ => negb (Ascii.eqb c ".") | "" => false end) builtin_classes = true) by reflexivity.
  rewrite forallb_forall in F. apply F in H. apply andb_true_iff in H as [A B]. split; auto. destruct n as [|c r]; [discriminate|]. exists c, r. split; auto.
  intros ->. discriminate.
Qed.
Lemma unquoted_app a b : unquoted (a ++ b) <-> unquoted a /\ unquoted b.
Proof. unfold unquoted. rewrite str_forall_app. apply andb_true_iff. Qed.
Lemma word_unquoted x : str_forall word_char x = true -> unquoted x.
Proof. intros H. eapply str_forall_impl; [|exact H]. intros c Hc. assert (G : negb (word_char c) || negb (existsb (Ascii.eqb c) [""""; ascii_of_nat 10]%char) = true) by by_chars c. now rewrite Hc in G. Qed.

Definition spelled_node (n : tree) : Prop :=
  is_name (tname n) /\ unquoted (ty_name (i_type (ti n))) /\
  match tkind n with NClass c => unquoted c | NNumpy d => unquoted d | _ => True end /\
  forall e, In e (tcs n) -> In (ty_name (key_type (ekey e))) builtin_classes.
Definition spelled_tree (t : tree) : Prop := forall n, node_of n t -> spelled_node n.

Lemma wf_one_of l : Forall wf_ty l -> wf_ty (one_of l).
Proof.
  intros H. destruct l as [|a [|b l]]; cbn [one_of].
  - apply wf_app. split; auto. split; [reflexivity|]. do 2 eexists. split; [reflexivity|discriminate].
  - now inversion H.
  - apply wf_app. split; auto. split; [reflexivity|]. do 2 eexists. split; [reflexivity|discriminate].
Qed.
Lemma wf_any : wf_ty (TName "Any").
Proof. split; [reflexivity|]. do 2 eexists. split; [reflexivity|discriminate]. Qed.
Lemma wf_tor_any l : Forall wf_ty l -> Forall wf_ty (tor_any l).
Proof. destruct l; auto. intros _. constructor; auto. apply wf_any. Qed.
Lemma wf_members l : Forall wf_ty l -> Forall wf_ty (members l).
Proof. rewrite !Forall_forall. intros H t Ht. apply H. now apply members_In. Qed.
Lemma wf_union l : Forall wf_ty l -> wf_ty (union_ty l).
Proof. intros H. now apply wf_one_of, wf_members, wf_tor_any. Qed.
Lemma wf_tuple st l : Forall wf_ty l -> Forall wf_ty (tuple_args st l).
Proof.
  intros H. unfold tuple_args. destruct (_ && _).
  - repeat constructor. do 2 eexists. split; [reflexivity|discriminate].
  - destruct st; [now apply wf_tor_any|]. constructor; [now apply wf_union|]. constructor; [exact I|constructor].
Qed.
Lemma wf_class n : unquoted n -> wf_ty (class_ref n).
Proof. intros H. unfold class_ref. destruct (is_builtin n) eqn:E; [|exact H]. apply mem_spec in E. now apply builtin_name. Qed.
Lemma wf_keys ks : (forall k, In k ks -> In (ty_name (key_type k)) builtin_classes) -> wf_ty (key_ty ks).
Proof.
  intros H. destruct ks as [|k ks]; [apply wf_any|]. apply wf_one_of, wf_members. apply Forall_forall. intros t Ht. apply in_map_iff in Ht as (k' & <- & Hk).
  now apply builtin_name, H.
Qed.
Lemma seq_name s k t : is_name (fst (seq_container s k t)).
Proof. unfold seq_container. destruct k; try destruct (s_list s); try destruct (Nat.eqb _ _); (split; [reflexivity|]); do 2 eexists; (split; [reflexivity|discriminate]). Qed.
Lemma map_name s k t : is_name (fst (map_container s k t)).
Proof. unfold map_container. destruct (String.eqb _ _); try destruct (s_dict s); (split; [reflexivity|]); do 2 eexists; (split; [reflexivity|discriminate]). Qed.

Lemma rhs_wf s t : spelled_tree t -> wf_ty (rhs s t).
Proof.
  induction t as [i cs IH] using tree_ind'. intros H. rewrite Forall_forall in IH.
  destruct (H _ (node_refl _)) as (N1 & N2 & N3 & N4). unfold tkind in N3. cbn [ti tcs] in *.
  assert (Hin : Forall wf_ty (inside s cs)).
  { apply Forall_forall. intros t Ht. apply in_map_iff in Ht as (e & <- & He). apply before_none_In in He. unfold child_ty.
    assert (He' : spelled_tree (snd e)) by (intros n Hn; apply H; econstructor; eauto). destruct (perm s (snd e)).
    - apply (He' _ (node_refl _)).
    - now apply IH. }
  assert (Hd : wf_ty (rhs_dict s i cs)).
  { apply wf_app. split; [apply map_name|]. constructor; [|constructor; [now apply wf_union|constructor]].
    apply wf_keys. intros k Hk. apply in_map_iff in Hk as (e & <- & He). now apply N4. }
  rewrite rhs_node. destruct (i_kind i) as [|f|n| | |d|k| |data m] eqn:K; auto.
  - destruct (Nat.eqb _ _); [|now apply wf_class]. apply wf_app. split; [split; [reflexivity|]; do 2 eexists; split; [reflexivity|discriminate]|].
    constructor; [|constructor]. split; [reflexivity|]. do 2 eexists. split; [reflexivity|discriminate].
  - destruct (f_sig f) as [[sig n]|]; [|split; [reflexivity|]; do 2 eexists; split; [reflexivity|discriminate]].
    apply wf_app. split; [split; [reflexivity|]; do 2 eexists; split; [reflexivity|discriminate]|].
    constructor; [|constructor; [apply wf_any|constructor]]. apply wf_args. apply Forall_forall. intros t Ht. apply repeat_spec in Ht. subst. apply wf_any.
  - apply wf_app. split; [split; [reflexivity|]; do 2 eexists; split; [reflexivity|discriminate]|]. constructor; [now apply wf_class|constructor].
  - split; [reflexivity|]. do 2 eexists. split; [reflexivity|discriminate].
  - split; [reflexivity|]. do 2 eexists. split; [reflexivity|discriminate].
  - cbn [wf_ty]. rewrite !unquoted_app. repeat split; auto.
  - apply wf_app. split; [apply seq_name|]. destruct k; try (constructor; [now apply wf_union|constructor]). now apply wf_tuple.
Qed.
Lemma child_wf s t : spelled_tree t -> wf_ty (child_ty s t).
Proof. intros H. unfold child_ty. destruct (perm s t); [apply (H _ (node_refl _))|now apply rhs_wf]. Qed.

(** ** Readable declarations *)
Lemma wf_wrapped r o t : wf_ty t -> wf_ty (wrapped r o t).
Proof.
  assert (N : forall n, In n ["ReadOnly"; "NotRequired"] -> is_name n).
  { intros n [<-|[<-|[]]]; (split; [reflexivity|]); do 2 eexists; (split; [reflexivity|discriminate]). }
  assert (A : forall n u, In n ["ReadOnly"; "NotRequired"] -> wf_ty u -> wf_ty (TApp n [u])).
  { intros n u H1 H2. apply wf_app. split; [now apply N|]. constructor; [exact H2|constructor]. }
  intros H. unfold wrapped. destruct r, o; auto.
  - apply A; [simpl; auto|]. apply A; [simpl; auto|exact H].
  - apply A; [simpl; auto|exact H].
  - apply A; [simpl; auto|exact H].
Qed.
Lemma decl_readable s n : spelled_tree n -> dinv n -> wordy (tname n) ->
  (forall f p k, tkind n = NFun f -> f_sig f = Some (p, k) -> single_line p) ->
  (is_td_strategy s = true -> forall e, In e (tcs n) -> to_camel_case (tname (snd e)) = tname (snd e)) ->
  (forall D m, tkind n = NDict D m -> is_td s n = true -> class_doc s D = None /\
     forall k, has_key k (m_data m) -> ~ doc_key k /\ forall x, k = KStr x -> quotable x) ->
  readable (decl_of s n).
Proof.
  intros Hsp Hd Hw Hf Hc Hk. assert (W : word_like (declared (decl_of s n)) /\ declared (decl_of s n) <> "").
  { rewrite declared_decl_of. destruct Hw as [A B]. split; auto. now apply word_like_spec. }
  split; [apply W|]. split; [apply W|]. clear W.
  assert (AL : wf_ty (rhs s n)) by now apply rhs_wf.
  destruct (tkind n) as [|f|c| | |dt|k| |D m] eqn:K; try (unfold decl_of; rewrite K; exact AL); [unfold decl_of, fun_decl; rewrite K; destruct (f_sig f) as [[sg n0]|] eqn:Es; [destruct (f_lambda f)|]; cbv beta iota; auto;
    pose proof (Hf f sg n0 eq_refl Es) as Hl; destruct (contains "->" sg); [exact Hl|]; destruct (f_return f) as [[]|]; try exact Hl; (apply no_nl_app; split; [exact Hl|reflexivity])|].
  destruct (is_td s n) eqn:T.
  2: { unfold is_td, node_is_typed_dict in T. rewrite K in T. unfold decl_of. rewrite K, T. exact AL. }
  destruct (Hk D m eq_refl eq_refl) as [Dc Kd]. destruct (typed_fields s n D m Hd K T) as (E1 & E2 & _ & _ & E5). destruct (td_node s n D m Hd K T) as [Nd _].
  set (fields := filter visible_field (map (typed_field s m) (tcs n))) in *. rewrite E1, Dc. split; auto. intros f Hin.
  assert (TS : is_td_strategy s = true).
  { unfold is_td, node_is_typed_dict in T. rewrite K in T. unfold is_typed_dict in T. now apply andb_true_iff in T. }
  assert (Ex : exists e, In e (tcs n) /\ f = typed_field s m e).
  { unfold fields in Hin. apply filter_In in Hin as [Hin _]. apply in_map_iff in Hin as (e & <- & He). eauto. }
  destruct Ex as (e & He & ->). destruct (Nd e He) as (N1 & (k & N2) & N3). unfold ekey in *. unfold typed_field. cbn [fd_type fd_doc fd_key]. rewrite N2. cbn [key_str].
  assert (Hm : has_key (KStr k) (m_data m)).
  { destruct (Hd D m K) as (_ & _ & (I & A & _ & [M _]) & _). rewrite N2 in N1. destruct (M _ N1) as (_ & M1 & _). apply M1. unfold child_key. rewrite <- N2.
    now apply (in_map (fun e : key * nat * tree => fst (fst e))). }
  split; [|split].
  - rewrite <- N2. replace (wrap s m (fst (fst e)) (typed_ref s (snd e) (rhs s (snd e)))) with (wrapped (s_read_only s) (optional m (fst (fst e))) (typed_ref s (snd e) (rhs s (snd e)))).
    + apply wf_wrapped. assert (He' : spelled_tree (snd e)).
      { intros x Hx. apply Hsp. destruct n as [i cs]. cbn [tcs] in He. econstructor; eauto. }
      unfold typed_ref. destruct (perm s (snd e)); [|now apply rhs_wf]. rewrite Hc; auto. apply (He' _ (node_refl _)).
    + unfold wrap, wrapped, optional, ekey in *. destruct (dget (fst (fst e)) (m_required m)) as [[]|]; [| |congruence]; destruct (s_read_only s); reflexivity.
  - unfold key_doc. destruct (dget (KStr (hidden_prefix ++ k)) (m_data m)) as [x|] eqn:G; auto. exfalso. apply dget_In in G.
    destruct (Kd (KStr (hidden_prefix ++ k))) as [X _]; [unfold has_key; now apply (in_map fst) in G|]. apply X. now exists k.
  - destruct (functional_syntax m) eqn:Fs; [now apply (Kd _ Hm)|]. unfold functional_syntax in Fs. apply negb_false_iff in Fs. rewrite forallb_forall in Fs.
    unfold has_key in Hm. apply in_map_iff in Hm as (kv & Ek & Hkv). specialize (Fs kv Hkv). rewrite Ek in Fs. apply andb_true_iff in Fs as [_ Fs]. now apply word_like_spec, compatible_word.
Qed.

(** ** Acceptance *)
Section Accept.
  Variable ds : list decl.
  Hypothesis Typing : forall n, In n (map declared ds) -> ~ In n typing_names.

  Lemma undeclared n : In n typing_names -> ~ In n (map declared ds).
  Proof. intros H G. exact (Typing n G H). Qed.
  Lemma int_accepts w : accepts ds (TName "int") w -> class_accepts "int" w.
  Proof.
    assert (U : ~ In "int" (map declared ds)) by (apply undeclared; apply mem_spec; reflexivity).
    intros H. inversion H; subst; auto; exfalso; apply U.
    - match goal with H : In _ ds |- _ => exact (in_map declared _ _ H) end.
    - match goal with H : In _ ds |- _ => exact (in_map declared _ _ H) end.
    - match goal with H : In _ ds |- _ => exact (in_map declared _ _ H) end.
  Qed.
  Lemma any_accepts w : accepts ds (TName "Any") w.
  Proof. apply acc_class; [apply undeclared; apply mem_spec; reflexivity|]. now left. Qed.

  Lemma pick_self l t : Forall wf_ty l -> In t l -> pick l (print_ty t) = t.
  Proof.
    rewrite Forall_forall. intros H Ht. apply print_ty_inj.
    - apply H. apply pick_In. now apply in_map.
    - auto.
    - apply pick_print. now apply in_map.
  Qed.
  Lemma accepts_one_of l t w : In t l -> accepts ds t w -> accepts ds (one_of l) w.
  Proof.
    destruct l as [|a [|b l]]; intros H A; [destruct H| |].
    - destruct H as [->|[]]. exact A.
    - eapply acc_union; eauto.
  Qed.
  Lemma accepts_members l t w : Forall wf_ty l -> In t l -> accepts ds t w -> accepts ds (one_of (members l)) w.
  Proof.
    intros W H A.
    assert (D : (print_ty t = "int" -> ~ In "float" (map print_ty l)) \/ (print_ty t = "int" /\ In "float" (map print_ty l))).
    { destruct (string_dec (print_ty t) "int") as [E|E]; [|left; congruence].
      destruct (in_dec string_dec "float" (map print_ty l)); [right; auto|left; auto]. }
    destruct D as [D|[E F]].
    - apply (accepts_one_of _ t); auto. unfold members. apply in_map_iff. exists (print_ty t). split; [now apply pick_self|].
      apply union_members_iff. split; auto. now apply in_map.
    - apply in_map_iff in F as (u & Eu & Hu). rewrite Forall_forall in W.
      assert (N : forall n, In n ["int"; "float"] -> wf_ty (TName n)).
      { intros n [<-|[<-|[]]]; (split; [reflexivity|]); do 2 eexists; (split; [reflexivity|discriminate]). }
      assert (t = TName "int") by (apply print_ty_inj; auto; apply N; simpl; auto). subst t.
      assert (u = TName "float") by (apply print_ty_inj; auto; apply N; simpl; auto). subst u.
      apply (accepts_one_of _ (TName "float")).
      + unfold members. apply in_map_iff. exists "float". split; [apply (pick_self l (TName "float")); auto; now apply Forall_forall|].
        apply union_members_iff. split; [|congruence]. apply in_map_iff. exists (TName "float"). auto.
      + apply acc_class; [apply undeclared; apply mem_spec; reflexivity|]. apply int_accepts in A. unfold class_accepts in *.
        destruct A as [A|[A|[A|[[A _]|[_ A]]]]]; try discriminate; auto 10.
  Qed.
  Lemma accepts_union l t w : Forall wf_ty l -> In t l -> accepts ds t w -> accepts ds (union_ty l) w.
  Proof. intros W H A. unfold union_ty. destruct l; [destruct H|]. cbn [tor_any]. eapply accepts_members; eauto. Qed.
  Lemma accepts_union_empty w : accepts ds (union_ty []) w.
  Proof. apply any_accepts. Qed.

  Lemma accepts_tuple_any l t els : Forall wf_ty l -> (forall x, In x els -> exists u, In u l /\ accepts ds u x) ->
    accepts ds (TApp "Tuple" (tuple_args TAnySize l)) (VSeq KTuple t els).
  Proof.
    intros W H. unfold tuple_args. destruct (_ && _).
    - apply acc_tuple_any. intros. apply any_accepts.
    - apply acc_tuple_any. intros x Hx. destruct (H x Hx) as (u & Hu & A). change (one_of (members (tor_any l))) with (union_ty l). eapply accepts_union; eauto.
  Qed.
  Lemma accepts_tuple_fixed l t els : Forall2 (accepts ds) l els -> accepts ds (TApp "Tuple" (tuple_args TFixed l)) (VSeq KTuple t els).
  Proof.
    intros H. unfold tuple_args. destruct (_ && _) eqn:E.
    - apply acc_tuple_any. intros. apply any_accepts.
    - destruct l; [discriminate|]. apply acc_tuple. exact H.
  Qed.
  Lemma accepts_class n w : ~ In n (map declared ds) -> class_accepts n w -> accepts ds (class_ref n) w.
  Proof. intros H A. unfold class_ref. destruct (is_builtin n); [now apply acc_class | now apply acc_forward]. Qed.
  Lemma accepts_type m n : ~ In n (map declared ds) -> accepts ds (TApp "Type" [class_ref n]) (VClass m n).
  Proof. intros H. unfold class_ref. destruct (is_builtin n); [now apply acc_type | now apply acc_type_forward]. Qed.
  Lemma accepts_key ks k k' : (forall k, In k ks -> In (ty_name (key_type k)) builtin_classes) ->
    (forall k, In k ks -> ~ In (ty_name (key_type k)) (map declared ds)) ->
    In k' ks -> key_type k' = key_type k -> accepts ds (key_ty ks) (key_val k).
  Proof.
    intros B U Hk E. destruct ks as [|k0 ks]; [destruct Hk|]. unfold key_ty. apply (accepts_members _ (TName (ty_name (key_type k')))).
    - apply Forall_forall. intros t Ht. apply in_map_iff in Ht as (k1 & <- & H1). now apply builtin_name, B.
    - now apply (in_map (fun k => TName (ty_name (key_type k)))).
    - apply acc_class; [now apply U|]. right. right. left. rewrite E. destruct k; reflexivity.
  Qed.

  (** ** Nodes *)
  Variable s : strategies.
  Variable t0 : tree.
  Hypothesis Hds : ds = decls s t0.
  Hypothesis Hsp : spelled_tree t0.
  Hypothesis Heq : eq_free t0.
  Hypothesis Hread : forall n, In n (collect s t0) -> readable (decl_of s n).
  Hypothesis Hdinv : dinv_all t0.
  Hypothesis Hcamel : is_td_strategy s = true -> forall n, node_of n t0 -> to_camel_case (tname n) = tname n.
  Hypothesis Hfail : forall n, In n (collect s t0) -> function_fails n = false.
  Hypothesis Hclass : forall n, node_of n t0 -> tkind n = NInst -> ~ In (ty_name (i_type (ti n))) (map declared ds).
  Hypothesis Hnamed : forall n c, node_of n t0 -> tkind n = NClass c -> ~ In c (map declared ds).
  Hypothesis Hkeys : forall n e, node_of n t0 -> In e (tcs n) -> ~ In (ty_name (key_type (ekey e))) (map declared ds).
  Hypothesis Hproxy : forall n, node_of n t0 -> tkind n = NProxy -> ty_name (i_type (ti n)) = "mappingproxy".
  Hypothesis Hdict : forall n d m, node_of n t0 -> tkind n = NDict d m -> ty_name (i_type (ti n)) <> "mappingproxy".

  Lemma iter_all n : node_of n t0 -> iter_entries (tcs n) = tcs n.
  Proof.
    intros H. apply before_none_all. intros e He F. destruct (Hsp n H) as (_ & _ & _ & B). specialize (B e He). rewrite F in B.
    apply mem_spec in B. vm_compute in B. discriminate.
  Qed.
  Lemma node_child i cs e t : node_of (Node i cs) t -> In e cs -> node_of (snd e) t.
  Proof. intros H He. eapply node_of_trans; [|exact H]. econstructor; eauto. constructor. Qed.

  Lemma child_collected n e : node_of n t0 -> In e (tcs n) -> perm s (snd e) = true -> In (snd e) (collect s t0).
  Proof.
    assert (G : forall t, node_of t t0 -> node_of n t -> In e (tcs n) -> perm s (snd e) = true -> In (snd e) (collect s t)).
    { induction t as [i cs IH] using tree_ind'. rewrite Forall_forall in IH. intros Ht Hn He P. rewrite collect_node.
      pose proof (iter_all _ Ht) as It. cbn [tcs] in It. rewrite It.
      apply node_of_inv in Hn as [->|(e1 & He1 & Hn)].
      - cbn [tcs] in He. destruct cs as [|e0 cs]; [destruct He|]. apply in_app_iff. left. apply in_flat_map. exists e. split; auto. apply in_app_iff. right. rewrite P. now left.
      - destruct cs as [|e0 cs]; [destruct He1|]. apply in_app_iff. left. apply in_flat_map. exists e1. split; auto. apply in_app_iff. left.
        apply IH; auto. eapply node_child; eauto. }
    intros Hn He P. apply (G t0); auto. constructor.
  Qed.
  Lemma collected_In n : In n (collect s t0) -> In (decl_of s n) ds.
  Proof.
    intros H. destruct (collect_nodes s t0 n H) as [Nn Pn].
    assert (F : exists n', In n' (kept s t0) /\ fst (top s n') = fst (top s n)).
    { unfold kept. clear -H.
      assert (G : forall l seen, In n l -> In (fst (top s n)) seen \/ exists n', In n' (firsts (fun n => fst (top s n)) seen l) /\ fst (top s n') = fst (top s n)).
      { induction l as [|a l IH]; intros seen Hn; cbn [firsts]; [destruct Hn|]. destruct Hn as [->|Hn].
        - destruct (mem (fst (top s n)) seen) eqn:E; [left; now apply mem_spec|]. right. exists n. split; [now left|auto].
        - destruct (mem (fst (top s a)) seen) eqn:E; [now apply IH|]. destruct (IH (fst (top s a) :: seen) Hn) as [[A|A]|(n' & A & B)]; [right; exists a; split; [now left|auto]|now left|right; exists n'; split; [now right|auto]]. }
      destruct (G _ [] H) as [[]|G']. exact G'. }
    destruct F as (n' & K & E). pose proof K as K'. apply firsts_incl in K'. destruct (collect_nodes s t0 n' K') as [Nn' Pn'].
    rewrite !top_decl in E; auto; try (intros y Hy; apply Heq; eapply node_of_trans; eauto).
    rewrite <- (reading_unique (decl_of s n') (decl_of s n)); auto. rewrite Hds. now apply in_map.
  Qed.

  Lemma rhs_unwrapped t : field_core (rhs s t) = rhs s t /\ field_required (rhs s t) = true.
  Proof.
    destruct t as [i cs]. rewrite rhs_node. assert (D : field_core (rhs_dict s i cs) = rhs_dict s i cs /\ field_required (rhs_dict s i cs) = true) by (split; reflexivity).
    destruct (i_kind i); auto; try (split; reflexivity).
    - destruct (Nat.eqb _ _); [split; reflexivity|]. unfold class_ref. destruct (is_builtin _); split; reflexivity.
    - destruct (f_sig f) as [[? ?]|]; split; reflexivity.
    - unfold seq_container. destruct k; try destruct (s_list s); try destruct (Nat.eqb _ _); try (split; reflexivity).
      all: cbn [fst]; destruct (tuple_args (s_tuple s) (inside s cs)) as [|a [|b l]]; split; reflexivity.
  Qed.
  Lemma child_unwrapped t : field_core (child_ty s t) = child_ty s t /\ field_required (child_ty s t) = true.
  Proof. unfold child_ty. destruct (perm s t); [split; reflexivity | apply rhs_unwrapped]. Qed.
  Lemma wrapped_core r o t : field_core t = t -> field_core (wrapped r o t) = t.
  Proof. intros H. unfold wrapped. destruct r, o; cbn [field_core mem existsb]; auto. Qed.
  Lemma wrapped_required r o t : field_required (wrapped r o t) = true -> o = false.
  Proof. unfold wrapped. destruct r, o; cbn; auto. Qed.

  Definition accepting (t : tree) : Prop := forall w, fits s t w -> accepts ds (child_ty s t) w.

  Lemma inside_wf i cs : node_of (Node i cs) t0 -> Forall wf_ty (map (fun e : key * nat * tree => child_ty s (snd e)) cs).
  Proof.
    intros H. apply Forall_forall. intros t Ht. apply in_map_iff in Ht as (e & <- & He). apply child_wf. intros n Hn. apply Hsp. eapply node_of_trans; [exact Hn|].
    eapply node_child; eauto.
  Qed.

  Lemma rhs_accepts i cs w : node_of (Node i cs) t0 -> (forall e, In e cs -> accepting (snd e)) -> assigned s (Node i cs) = true ->
    fits s (Node i cs) w -> accepts ds (rhs s (Node i cs)) w.
  Proof.
    intros Hn Hc Ha F. pose proof (iter_all _ Hn) as It. cbn [tcs] in It. pose proof (inside_wf i cs Hn) as W.
    assert (Ein : inside s cs = map (fun e : key * nat * tree => child_ty s (snd e)) cs) by (unfold inside; now rewrite It).
    rewrite rhs_node. rewrite fits_node in F. cbv zeta in F. unfold rhs_dict. rewrite Ein. set (ins := map (fun e => child_ty s (snd e)) cs) in *.
    assert (In1 : forall p x, In p (map (child_fits s) cs) -> snd p x -> exists u, In u ins /\ accepts ds u x).
    { intros p x Hp Fx. apply in_map_iff in Hp as (e & <- & He). exists (child_ty s (snd e)). split; [now apply (in_map (fun e : key * nat * tree => child_ty s (snd e)))|]. apply Hc; auto. }
    assert (Mp : forall h k t d, map_accepts h k -> plain_map_fits (map (child_fits s) cs) d ->
       accepts ds (TApp h [key_ty (map (fun e => fst (fst e)) cs); union_ty ins]) (VMap k t d)).
    { intros h k t d Hh Hd. apply acc_map; auto. intros key x Hx. destruct (Hd key x Hx) as [(p & Hp & Ep) (q & Hq & Fq)]. split.
      - apply in_map_iff in Hp as (e & <- & He). apply (accepts_key _ key (ekey e)); auto.
        + intros k0 Hk0. apply in_map_iff in Hk0 as (e0 & <- & He0). destruct (Hsp _ Hn) as (_ & _ & _ & B). now apply B.
        + intros k0 Hk0. apply in_map_iff in Hk0 as (e0 & <- & He0). apply (Hkeys (Node i cs)); auto.
        + now apply (in_map (fun e : Values.key * nat * tree => fst (fst e))).
      - destruct (In1 q x Hq Fq) as (u & Hu & A). eapply accepts_union; eauto. }
    assert (Cn : forall h, h = fst (map_container s (i_kind i) (i_type i)) -> ty_name (i_type i) <> "mappingproxy" -> map_accepts h MDict).
    { intros h -> N. unfold map_container. apply String.eqb_neq in N. rewrite N. destruct (s_dict s); cbn; auto. }
    pose proof (Hclass _ Hn) as H1. pose proof (fun c => Hnamed _ c Hn) as H2. pose proof (Hproxy _ Hn) as H3. pose proof (fun d m => Hdict _ d m Hn) as H4.
    unfold assigned, tkind in *. cbn [ti] in *.
    destruct (i_kind i) as [|f|c| | |dt|k| |data m] eqn:K.
    - destruct (Nat.eqb (ty_id (i_type i)) t_NoneType) eqn:E.
      + apply acc_optional. apply acc_class; [apply undeclared; apply mem_spec; reflexivity|]. right. now left.
      + apply Nat.eqb_neq in E. destruct F as [F|F]; [contradiction|]. apply accepts_class; auto.
    - destruct F as (g & -> & F). unfold same_function in F. destruct (f_sig f) as [[sig n]|] eqn:Es; [|apply acc_callable]. destruct (f_sig g) as [[sig' n']|] eqn:Eg; [|destruct F]. destruct F as [_ F]. cbn in Ha. rewrite ?Es in Ha. rewrite Ha in F. subst n'. eapply acc_callable_args; eauto.
    - destruct F as (m & ->). apply accepts_type. auto.
    - destruct F as (u & ->). apply acc_module.
    - destruct F as (u & ->). apply acc_textio.
    - destruct F as (u & ->). apply acc_array.
    - destruct F as (l & -> & F). unfold seq_fits in F.
      assert (G : seq_accepts (fst (seq_container s k (i_type i))) k (i_type i) -> (forall x, In x l -> exists p, In p (map (child_fits s) cs) /\ snd p x) ->
         accepts ds (TApp (fst (seq_container s k (i_type i))) [union_ty ins]) (VSeq k (i_type i) l)).
      { intros A F'. apply acc_seq; auto. intros x Hx. destruct (F' x Hx) as (p & Hp & Fp). destruct (In1 p x Hp Fp) as (u & Hu & Au). eapply accepts_union; eauto. }
      destruct k; cbn [seq_container] in *.
      + apply G; [|exact F]. destruct (s_list s); cbn; auto.
      + cbn [fst]. destruct (s_tuple s).
        * apply accepts_tuple_fixed. subst ins. clear -F Hc.
          assert (Gen : forall a b, Forall2 (fun (p : key * (pyval -> Prop)) x => snd p x) (map (child_fits s) a) b -> incl a cs ->
             Forall2 (accepts ds) (map (fun e : key * nat * tree => child_ty s (snd e)) a) b).
          { induction a as [|e a IHa]; intros b Fb Ia; cbn [map] in *; inversion Fb; subst; constructor.
            - apply Hc; auto. apply Ia. now left.
            - apply IHa; auto. intros z Hz. apply Ia. now right. }
          apply Gen; auto. apply incl_refl.
        * apply accepts_tuple_any; auto. intros x Hx. destruct (F x Hx) as (p & Hp & Fp). eauto.
      + apply G; [|exact F]. unfold seq_accepts. destruct (Nat.eqb (ty_id (i_type i)) t_frozenset); reflexivity.
      + apply G; [reflexivity|exact F].
      + apply G; [reflexivity|exact F].
    - destruct F as (d & -> & F). apply Mp; auto. unfold map_container. rewrite H3 by auto. cbn. auto.
    - destruct F as (d & -> & F). apply negb_true_iff in Ha. rewrite Ha in F. apply Mp; auto. eapply Cn; eauto.
  Qed.

  Lemma node_accepts t : node_of t t0 -> (perm s t = true -> In t (collect s t0)) -> accepting t.
  Proof.
    induction t as [i cs IH] using tree_ind'. rewrite Forall_forall in IH. intros Hn Hp w F.
    assert (Hc : forall e, In e cs -> accepting (snd e)).
    { intros e He. apply IH; auto; [eapply node_child; eauto|]. intros P. apply (child_collected (Node i cs)); auto. }
    unfold child_ty. destruct (perm s (Node i cs)) eqn:P.
    2: { apply rhs_accepts; auto. now apply not_perm_assigned. }
    specialize (Hp eq_refl). pose proof (collected_In _ Hp) as D. pose proof (Hfail _ Hp) as Ff. destruct (assigned s (Node i cs)) eqn:A.
    - pose proof (rhs_accepts i cs w Hn Hc A F) as R. apply (acc_alias ds _ (rhs s (Node i cs))); auto.
      unfold decl_of in D. unfold assigned in A. destruct (tkind (Node i cs)) as [|f|c| | |dt|k| |data m] eqn:K; auto.
      + unfold fun_decl in D. destruct (f_sig f) as [[sig n]|]; auto. now rewrite A in D.
      + apply negb_true_iff in A. now rewrite A in D.
    - unfold assigned in A. destruct (tkind (Node i cs)) as [|f|c| | |dt|k| |data m] eqn:K; try discriminate.
      + destruct (f_sig f) as [[sig n]|] eqn:Es; [|discriminate]. unfold decl_of in D. rewrite K in D. unfold fun_decl in D. rewrite Es, A in D.
        rewrite fits_node in F. cbv zeta in F. unfold tkind in K. cbn [ti] in K. rewrite K in F. destruct F as (g & -> & F). unfold same_function in F. rewrite Es, A in F. destruct (f_sig g) as [[sig' n']|] eqn:Eg; [|destruct F]. destruct F as [_ <-].
        eapply acc_proto; [exact D|exact Eg|]. destruct (contains "->" sig); auto. destruct (f_return f) as [[]|]; auto.
      + assert (T : is_td s (Node i cs) = true) by (unfold is_td, node_is_typed_dict; rewrite K; now apply negb_false_iff in A).
        destruct (typed_fields s _ _ _ (Hdinv _ Hn) K T) as (E1 & E2 & _ & _ & E5). destruct (td_node s _ _ _ (Hdinv _ Hn) K T) as [Nd _].
        set (fields := filter visible_field (map (typed_field s m) (tcs (Node i cs)))) in *. rewrite E1 in D.
        rewrite fits_node in F. cbv zeta in F. unfold tkind in K. cbn [ti tcs] in *. rewrite K in F. destruct F as (d & -> & F).
        unfold is_td, node_is_typed_dict, tkind in T. cbn [ti] in T. rewrite K in T. rewrite T in F. destruct F as [F1 F2].
        assert (TS : is_td_strategy s = true) by (unfold is_typed_dict in T; now apply andb_true_iff in T).
        assert (Al : forall (fs : list field) (es : list (key * nat * tree)), map (fun f => KStr (fd_key f)) fs = map ekey es ->
          map fd_type fs = map (fun e => wrapped (s_read_only s) (optional m (ekey e)) (typed_ref s (snd e) (rhs s (snd e)))) es ->
          Forall2 (fun f e => KStr (fd_key f) = ekey e /\ fd_type f = wrapped (s_read_only s) (optional m (ekey e)) (typed_ref s (snd e) (rhs s (snd e)))) fs es).
        { induction fs as [|f fs IHf]; intros [|e es] A1 A2; try discriminate; constructor; cbn [map] in *; [injection A1 as A1 _; injection A2 as A2 _; auto|].
          injection A1 as _ A1. injection A2 as _ A2. auto. }
        pose proof (Al _ _ E2 E5) as Z. clear Al.
        assert (Rf : forall e, In e cs -> typed_ref s (snd e) (rhs s (snd e)) = child_ty s (snd e)).
        { intros e He. unfold typed_ref, child_ty. destruct (perm s (snd e)); auto. rewrite Hcamel; auto. eapply node_child; eauto. }
        eapply acc_typed; [exact D| |].
        * intros k x Hx. destruct (F1 k x Hx) as (p & Hp' & <- & Fp). apply in_map_iff in Hp' as (e & <- & He). cbn [child_fits fst snd] in *.
          assert (Ex : exists f, In f fields /\ KStr (fd_key f) = ekey e /\ fd_type f = wrapped (s_read_only s) (optional m (ekey e)) (typed_ref s (snd e) (rhs s (snd e)))).
          { clear -Z He. induction Z as [|f e' fs es A Z IHz]; [destruct He|]. destruct He as [->|He]; [exists f; split; [now left|auto]|]. destruct (IHz He) as (f' & B & C). exists f'. split; [now right|auto]. }
          destruct Ex as (f & Hf & Kf & Tf). exists f. split; auto. split; auto. rewrite Tf, Rf by auto. rewrite wrapped_core by apply child_unwrapped. now apply Hc.
        * intros f Hf Rq. assert (Ex : exists e, In e cs /\ KStr (fd_key f) = ekey e /\ fd_type f = wrapped (s_read_only s) (optional m (ekey e)) (typed_ref s (snd e) (rhs s (snd e)))).
          { clear -Z Hf. induction Z as [|f' e' fs es A Z IHz]; [destruct Hf|]. destruct Hf as [->|Hf]; [exists e'; split; [now left|auto]|]. destruct (IHz Hf) as (f'' & B & C). exists f''. split; [now right|auto]. }
          destruct Ex as (e & He & Kf & Tf). rewrite Kf. apply F2. rewrite Tf in Rq. apply wrapped_required in Rq. destruct (Nd e He) as (_ & _ & Nn). unfold optional in Rq.
          destruct (dget (ekey e) (m_required m)) as [[]|]; auto; congruence.
  Qed.
End Accept.
