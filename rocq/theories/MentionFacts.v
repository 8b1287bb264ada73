(** Which names the declarations mention, for all data: also with keys of any class and behind [None] keys. *)
From Coq Require Import Ascii String List Bool Arith Lia Permutation.
From Verif Require Import PyStr PyStrFacts Utils Strategies Docstring Imports Dispatch Values Tree Build Emit TreeFacts SpecNames NamesFacts SpecData SpecMerge BuildFacts BuildInd TotalFacts TreeProofs SeqFacts BaseProofs MergeFacts GroupFacts SpecTypes Elab ElabFacts Provenance DictInv SpecEmit EmitFacts EmitTop.
Import ListNotations.
Local Open Scope string_scope.
Local Open Scope nat_scope.

(** [r] has a declaration of its own and is referred to in the declaration of the other tree. *)
Inductive vref (s : strategies) (r : tree) : tree -> Prop :=
  | vref_here : forall i cs e, In e (iter_entries cs) -> perm s (snd e) = true -> r = snd e -> vref s r (Node i cs)
  | vref_below : forall i cs e, In e (iter_entries cs) -> perm s (snd e) = false -> vref s r (snd e) -> vref s r (Node i cs).

Lemma vref_collect s r t : vref s r t -> In r (flat_map (fun e => collect s (snd e) ++ (if perm s (snd e) then [snd e] else []))%list (iter_entries (tcs t))).
Proof.
  induction 1 as [i cs e He P ->|i cs e He P V IH]; cbn [tcs]; apply in_flat_map; exists e; (split; [exact He|]); apply in_app_iff.
  - rewrite P. right. now left.
  - left. destruct (snd e) as [i' cs'] eqn:E. rewrite collect_node. cbn [tcs] in IH. destruct cs' as [|e' cs']; [destruct IH|]. apply in_app_iff. now left.
Qed.
Lemma vref_node s r t : vref s r t -> node_of r t /\ perm s r = true.
Proof.
  induction 1 as [i cs e He P ->|i cs e He P V [A B]].
  - split; auto. econstructor; [eapply before_none_In; exact He|constructor].
  - split; auto. econstructor; [eapply before_none_In; exact He|exact A].
Qed.
Definition vordered (s : strategies) (l : list tree) : Prop := forall a n b, l = (a ++ n :: b)%list -> forall r, vref s r n -> In r a.
Lemma vordered_nil s : vordered s [].
Proof. intros [|] ? ? ?; discriminate. Qed.
Lemma vordered_app s l1 l2 : vordered s l1 -> vordered s l2 -> vordered s (l1 ++ l2).
Proof.
  intros H1 H2 a n b E. revert a n b E.
  assert (G : forall u v w z : list tree, (u ++ v = w ++ z)%list -> (exists k, w = u ++ k /\ v = k ++ z)%list \/ (exists k, u = w ++ k /\ z = k ++ v)%list).
  { clear. induction u as [|x u IHu]; intros v w z E; [left; exists w; auto|]. destruct w as [|y w]; cbn [app] in E.
    - right. exists (x :: u). auto.
    - injection E as -> E. apply IHu in E as [(k & -> & ->)|(k & -> & ->)]; [left|right]; exists k; auto. }
  intros a n b E. apply G in E as [(k & -> & E)|(k & E1 & E)].
  - intros r Hr. apply in_app_iff. right. exact (H2 k n b E r Hr).
  - destruct k as [|y k]; cbn [app] in E.
    + rewrite app_nil_r in E1. subst l1. intros r Hr. destruct (H2 [] n b (eq_sym E) r Hr).
    + injection E as -> ->. exact (H1 a y k E1).
Qed.
Lemma vordered_snoc s l x : vordered s l -> (forall r, vref s r x -> In r l) -> vordered s (l ++ [x]).
Proof.
  intros H1 Hx a n b E. destruct (@exists_last _ (n :: b)) as (b' & y & Eb); [discriminate|]. rewrite Eb, app_assoc in E. apply app_inj_tail in E as [E ->].
  destruct b' as [|z b']; cbn [app] in Eb; injection Eb as -> Eb.
  - rewrite app_nil_r in E. now subst.
  - exact (H1 a z b' E).
Qed.
Lemma collect_vordered s t : vordered s (collect s t).
Proof.
  induction t as [i cs IH] using tree_ind'. rewrite Forall_forall in IH. rewrite collect_node. destruct cs as [|e0 cs].
  - destruct (_ && _); [|apply vordered_nil]. apply (vordered_snoc s [] _ (vordered_nil s)). intros r V. inversion V as [? ? ? X _ _|? ? ? X _ _]; destruct X.
  - set (l := e0 :: cs) in *.
    assert (O : vordered s (flat_map (fun e => collect s (snd e) ++ (if perm s (snd e) then [snd e] else [])) (iter_entries l))%list).
    { assert (G : forall e, In e (iter_entries l) -> vordered s (collect s (snd e) ++ (if perm s (snd e) then [snd e] else []))%list).
      { intros e He. apply before_none_In in He. destruct (perm s (snd e)); [|rewrite app_nil_r; now apply IH].
        apply vordered_snoc; [now apply IH|]. intros r Hr. apply vref_collect in Hr; auto. destruct (snd e) as [i' cs']. rewrite collect_node. cbn [tcs] in Hr.
        destruct cs' as [|e' cs']; [destruct Hr|]. apply in_app_iff. now left. }
      revert G. generalize (iter_entries l). clear. induction l as [|e l IHl]; intros G; cbn [flat_map]; [apply vordered_nil|].
      apply vordered_app; [apply G; now left|]. apply IHl. intros; apply G; now right. }
    destruct (perm s (Node i l)); [|now rewrite app_nil_r]. apply vordered_snoc; auto. intros r Hr. apply (vref_collect s r (Node i l) Hr).
Qed.

Section Mentions.
  Variable s : strategies.
  Definition refers (t : tree) (x : string) : Prop := exists r, vref s r t /\ x = tname r.
  Lemma rhs_mentions t : eq_free t -> assigned s t = true -> forall x, In x (names_in (rhs s t)) ->
    known (snd (top s t)) x \/ refers t x \/ key_name t x.
  Proof.
    induction t as [i cs IH] using tree_ind'. rewrite Forall_forall in IH. intros F A x Hx.
    set (cty := fun e : key * nat * tree => child_type s (fst (fst e), (snd e, top s (snd e)))) in *.
    assert (Ins : In x (flat_map names_in (inside s cs)) -> known (outs_imports (map cty (iter_entries cs))) x \/ refers (Node i cs) x \/ key_name (Node i cs) x).
    { intros G. unfold inside in G. apply in_flat_map in G as (u & Hu & G). apply in_map_iff in Hu as (e & <- & He'). pose proof (before_none_In _ _ _ He') as He.
      unfold child_ty in G. destruct (perm s (snd e)) eqn:P.
      - right. left. destruct G as [<-|[]]. exists (snd e). split; auto. econstructor; eauto.
      - apply IH in G as [G|[G|G]]; auto; [| | |eapply eq_free_child; eauto|now apply not_perm_assigned].
        + left. eapply known_incl; [|exact G]. intros y Hy. unfold outs_imports. apply in_flat_map. exists (cty e). split; [now apply in_map|].
          unfold cty, child_type. cbn [fst snd]. rewrite P. exact Hy.
        + right. left. destruct G as (r & Hr & ->). exists r. split; auto. eapply vref_below; eauto.
        + right. right. eapply key_name_child; eauto. }
    pose proof (outs_inside s i cs F) as OI. fold cty in OI.
    assert (D : In x (names_in (rhs_dict s i cs)) -> known (snd (parse_dict s i (outs s cs) (before_none (@fst key (tree * out)) (outs s cs)))) x \/ refers (Node i cs) x \/ key_name (Node i cs) x).
    { unfold rhs_dict. intros G. unfold parse_dict. rewrite (child_type_imports s cs). fold cty. rewrite OI.
      pose proof (names_map s (i_kind i) (i_type i)) as NM. destruct (map_container s (i_kind i) (i_type i)) as [container ci]. cbn [fst snd] in NM, G.
      cbn [names_in flat_map] in G. rewrite app_nil_r in G.
      destruct (types_of (map print_ty (inside s cs))) as [vs vi] eqn:ET.
      destruct cs as [|e0 cs'].
      - cbn [outs map]. change (any_import (map print_ty (inside s []))) with ["Any"].
        destruct (format_types (union_members (or_any (map print_ty (inside s []))))) as [ks ki]. cbn [snd].
        destruct G as [<-|G]; [left; eapply known_incl; [|exact NM]; intros y Hy; apply in_app_iff; now left|].
        apply in_app_iff in G as [G|G].
        + cbn in G. destruct G as [<-|[]]. left. eapply EmitFacts.known_kw; [apply in_app_iff; right; left; reflexivity|cbn; tauto].
        + apply names_union in G as [[]|G]. left. rewrite ET in G. cbn [snd] in G. eapply known_incl; [|exact G]. intros y Hy. rewrite !in_app_iff. tauto.
      - set (l := e0 :: cs') in *. assert (EK : map (fun c : key * (tree * out) => ty_name (key_type (fst c))) (outs s l) = map (fun k => ty_name (key_type k)) (map (fun e : key * nat * tree => fst (fst e)) l)).
        { unfold outs. rewrite !map_map. reflexivity. }
        assert (EL : outs s l <> []) by discriminate.
        destruct (outs s l) as [|o os] eqn:EO; [congruence|]. cbv zeta. rewrite EK.
        destruct (format_types (union_members (map (fun k => ty_name (key_type k)) (map (fun e : key * nat * tree => fst (fst e)) l)))) as [ks ki] eqn:EF. cbn [snd].
        destruct G as [<-|G]; [left; eapply known_incl; [|exact NM]; intros y Hy; apply in_app_iff; now left|].
        apply in_app_iff in G as [G|G].
        + apply names_keys in G; [|discriminate]. destruct G as [G|(k & Hk & ->)].
          2: { right. right. apply in_map_iff in Hk as (e & <- & He). exists (Node i l), e. split; [constructor|auto]. }
          left. rewrite EF in G. cbn [snd] in G. eapply known_incl; [|exact G]. intros y Hy. rewrite !in_app_iff. tauto.
        + apply names_union in G as [G|G].
          * apply Ins in G as [G|[G|G]]; auto. left. eapply known_incl; [|exact G]. intros y Hy. rewrite !in_app_iff. tauto.
          * left. rewrite ET in G. cbn [snd] in G. eapply known_incl; [|exact G]. intros y Hy. rewrite !in_app_iff. tauto. }
    rewrite top_node. rewrite rhs_node in Hx. unfold assigned, tkind in A. cbn [ti] in A.
    destruct (i_kind i) as [|f|n| | |d|k| |data m] eqn:Kd; try (now apply D).
    - left. unfold instance_top. destruct (Nat.eqb (ty_id (i_type i)) t_NoneType).
      + cbn [names_in flat_map app snd] in *. destruct Hx as [<-|[<-|[]]]; [eapply EmitFacts.known_kw; [right; left; reflexivity|cbn; tauto]|]. left. cbn; tauto.
      + left. now apply names_class in Hx.
    - left. unfold function_top. destruct (f_sig f) as [[sig n]|]; [rewrite A|]; cbn [snd names_in] in *.
      + destruct Hx as [<-|Hx]; [eapply EmitFacts.known_kw; [left; reflexivity|cbn; tauto]|]. cbn [flat_map names_in app] in Hx. apply in_app_iff in Hx as [Hx|[<-|[]]].
        * apply in_flat_map in Hx as (u & Hu & Hx). apply repeat_spec in Hu. subst. destruct Hx as [<-|[]]. eapply EmitFacts.known_kw; [right; left; reflexivity|cbn; tauto].
        * eapply EmitFacts.known_kw; [right; left; reflexivity|cbn; tauto].
      + destruct Hx as [<-|[]]. eapply EmitFacts.known_kw; [left; reflexivity|cbn; tauto].
    - left. cbn [names_in flat_map snd] in *. rewrite app_nil_r in Hx. destruct Hx as [<-|Hx]; [eapply EmitFacts.known_kw; [left; reflexivity|cbn; tauto]|]. left. now apply names_class in Hx.
    - left. destruct Hx as [<-|[]]. eapply EmitFacts.known_kw; [left; reflexivity|cbn; tauto].
    - left. destruct Hx as [<-|[]]. eapply EmitFacts.known_kw; [left; reflexivity|cbn; tauto].
    - destruct Hx.
    - cbv zeta. cbn [snd]. rewrite (child_type_imports s cs). fold cty. rewrite OI. cbn [names_in] in Hx. destruct Hx as [<-|Hx].
      { left. eapply known_incl; [|apply names_seq]. intros y Hy. rewrite in_app_iff. now left. }
      assert (G : In x (flat_map names_in (inside s cs)) \/ known (snd match k with KTuple => tuple_types_of (s_tuple s) (map print_ty (inside s cs)) | _ => types_of (map print_ty (inside s cs)) end) x).
      { destruct k; try (cbn [flat_map] in Hx; rewrite app_nil_r in Hx; now apply names_union in Hx). now apply names_tuple in Hx. }
      destruct G as [G|G].
      + apply Ins in G as [G|[G|G]]; auto. left. eapply known_incl; [|exact G]. intros y Hy. rewrite !in_app_iff. tauto.
      + left. eapply known_incl; [|exact G]. intros y Hy. rewrite !in_app_iff. tauto.
    - apply negb_true_iff in A. rewrite A. now apply D.
  Qed.

  Lemma decl_mentions t : eq_free t -> (is_td s t = true -> iter_entries (tcs t) = tcs t) -> perm s t = true -> function_fails t = false ->
    forall x, In x (mentioned (decl_of s t)) -> known (snd (top s t)) x \/ refers t x \/ key_name t x \/
      (is_td s t = true /\ exists c, vref s c t /\ x = to_camel_case (tname c)).
  Proof.
    intros F IT P X x Hx. pose proof (rhs_mentions t F) as R.
    assert (AL : forall n u, assigned s t = true -> In "TypeAlias" (snd (top s t)) -> u = rhs s t -> In x (mentioned (DAlias n u)) -> known (snd (top s t)) x \/ refers t x \/ key_name t x \/
      (is_td s t = true /\ exists c, vref s c t /\ x = to_camel_case (tname c))).
    { intros n u A T -> [<-|G]; [left; eapply EmitFacts.known_kw; [exact T|cbn; tauto]|]. apply R in G as [G|[G|G]]; auto. }
    destruct t as [i cs]. unfold decl_of, assigned, perm, function_fails, is_td, node_is_typed_dict, tkind in *. cbn [ti] in *. rewrite top_node in *.
    destruct (i_kind i) as [|f|n| | |d|k| |data m] eqn:K.
    - eapply AL; [reflexivity| |reflexivity|exact Hx]. unfold instance_top. rewrite P. destruct (Nat.eqb _ _); cbn [snd In]; tauto.
    - unfold fun_decl in Hx. unfold function_top in *. destruct (f_sig f) as [[sig n]|].
      + destruct (f_lambda f); [eapply AL; [reflexivity| |reflexivity|exact Hx]; cbn [snd In]; tauto|].
        cbn in Hx. destruct Hx as [<-|[]]. left. destruct (contains "->" sig); [eapply EmitFacts.known_kw; [left; reflexivity|cbn; tauto]|].
        destruct (f_return f) as [[]|]; [| |discriminate]; (eapply EmitFacts.known_kw; [left; reflexivity|cbn; tauto]).
      + eapply AL; [reflexivity| |reflexivity|exact Hx]. cbn [snd In]. tauto.
    - eapply AL; [reflexivity| |reflexivity|exact Hx]. cbn [snd In]. tauto.
    - eapply AL; [reflexivity| |reflexivity|exact Hx]. cbn [snd In]. tauto.
    - eapply AL; [reflexivity| |reflexivity|exact Hx]. cbn [snd In]. tauto.
    - eapply AL; [reflexivity| |reflexivity|exact Hx]. cbn [snd In]. tauto.
    - eapply AL; [reflexivity| |reflexivity|exact Hx]. cbv zeta. cbn [snd]. rewrite !in_app_iff. cbn [In]. tauto.
    - eapply AL; [reflexivity| |reflexivity|exact Hx]. unfold parse_dict. destruct (map_container _ _ _), (types_of _). destruct (outs s cs); cbv zeta; destruct (format_types _); cbn [snd]; rewrite !in_app_iff; cbn [In]; tauto.
    - destruct (is_typed_dict s m) eqn:T.
      + clear AL R. cbn [mentioned] in Hx. unfold parse_typed_dict. cbn [snd]. destruct Hx as [<-|Hx]; [left; eapply EmitFacts.known_kw; [left; reflexivity|cbn; tauto]|].
        apply in_flat_map in Hx as (fl & Hf & Hx). apply filter_In in Hf as [Hf _]. apply in_map_iff in Hf as (e & <- & He). cbn [typed_field fd_type] in Hx.
        assert (He' : In e (iter_entries cs)) by (cbn [tcs] in IT; rewrite IT; auto).
        assert (IMP : forall l, incl l (snd (field_type s m (fst (fst e)) (print_ty (typed_ref s (snd e) (rhs s (snd e)))))) \/ (perm s (snd e) = false /\ incl l (snd (top s (snd e)))) ->
          incl l ("TypedDict" :: flat_map (fun f => snd (snd f)) (map (fun c => let t := fst (snd c) in
                  let base : out := if perm s t then (to_camel_case (tname t), []) else (without_lvalue (fst (snd (snd c))), snd (snd (snd c))) in
                  let ft := field_type s m (fst c) (fst base) in (key_str (fst c), (fst ft, (snd base ++ snd ft)%list))) (outs s cs)))).
        { intros l Hl y Hy. right. apply in_flat_map. eexists. split; [apply in_map; unfold outs; apply in_map; exact He|]. cbn [fst snd]. apply in_app_iff.
          unfold typed_ref in Hl. destruct (perm s (snd e)) eqn:Pe; cbn [fst snd].
          - right. destruct Hl as [Hl|[? _]]; [|discriminate]. now apply Hl.
          - assert (CO : without_lvalue (fst (top s (snd e))) = print_ty (rhs s (snd e))) by (apply (child_ok_all s (snd e)); auto; eapply eq_free_child; eauto).
            rewrite CO. destruct Hl as [Hl|[_ Hl]]; [right|left]; now apply Hl. }
        apply wrap_names in Hx as [Hx|Hx].
        * unfold typed_ref in Hx. destruct (perm s (snd e)) eqn:Pe.
          -- right. right. right. split; auto. destruct Hx as [<-|[]]. exists (snd e). split; auto. econstructor; eauto.
          -- apply rhs_mentions in Hx as [Hx|[Hx|Hx]]; [| | |eapply eq_free_child; eauto|now apply not_perm_assigned].
             ++ left. eapply known_incl; [|exact Hx]. apply IMP. right. split; auto using incl_refl.
             ++ right. left. destruct Hx as (r & Hr & ->). exists r. split; auto. eapply vref_below; eauto.
             ++ right. right. left. eapply key_name_child; eauto.
        * left. eapply known_incl; [|exact Hx]. apply IMP. left. apply incl_refl.
      + eapply AL; [reflexivity| |reflexivity|exact Hx]. unfold parse_dict. destruct (map_container _ _ _), (types_of _). destruct (outs s cs); cbv zeta; destruct (format_types _); cbn [snd]; rewrite !in_app_iff; cbn [In]; tauto.
  Qed.
End Mentions.

Lemma mentions s t texts : eq_free t -> (forall n, node_of n t -> is_td s n = true -> iter_entries (tcs n) = tcs n) -> (forall n, node_of n t -> wordy (tname n)) ->
  declarations s t = Some texts -> texts = map print_decl (decls s t) /\
  forall a d b, decls s t = (a ++ d :: b)%list -> forall x, In x (mentioned d) ->
    (In x (map declared a) \/ In x builtin_classes \/ imported (recorded_imports s t) x) \/ key_name t x \/
    exists n d', In n (collect s t) /\ d = decl_of s n /\ is_td s n = true /\ In d' a /\ x = to_camel_case (declared d').
Proof.
  intros F IT W D. pose proof D as D0. apply declarations_decls in D as [D NF]; auto. split; auto.
  intros a d b E x Hx. unfold decls in E. apply map_eq_app in E as (ka & kb & E & <- & Eb). destruct kb as [|n kb]; [discriminate|]. cbn [map] in Eb. injection Eb as <- <-.
  assert (Kn : In n (kept s t)) by (rewrite E; apply in_or_app; right; now left).
  pose proof (NF n Kn) as Xn. assert (Cn : In n (collect s t)) by (eapply firsts_incl; exact Kn).
  destruct (collect_nodes s t n Cn) as [Nn Pn].
  assert (Fn : eq_free n) by (intros y Hy; apply F; eapply node_of_trans; eauto).
  assert (DR : forall r, vref s r n -> exists d', In d' (map (decl_of s) ka) /\ declared d' = tname r).
  { intros r Hr. pose proof E as E0. unfold kept in E. apply firsts_split in E as (p & q & E & _ & Pp).
    assert (Hp : In r p) by (eapply (collect_vordered s t); eauto).
    destruct (Pp r Hp) as [[]|Hf]. apply in_map_iff in Hf as (r' & Ef & Hr').
    assert (Kr : In r' (kept s t)) by (rewrite E0; apply in_or_app; now left).
    assert (Cr : In r (collect s t)) by (rewrite E; apply in_or_app; now left).
    assert (Cr' : In r' (collect s t)) by (eapply firsts_incl; exact Kr).
    destruct (collect_nodes s t r Cr) as [Nr Pr], (collect_nodes s t r' Cr') as [Nr' Pr'].
    assert (Xr : function_fails r = false).
    { unfold declarations in D0. destruct (existsb function_fails (collect s t)) eqn:X; [discriminate|]. apply not_true_iff_false. intros Y.
      assert (existsb function_fails (collect s t) = true) by (apply existsb_exists; eauto). congruence. }
    rewrite !top_decl in Ef; auto; try (intros y Hy; apply F; eapply node_of_trans; eauto).
    apply (f_equal head_name) in Ef. rewrite !print_decl_name in Ef by (rewrite declared_decl_of; auto). rewrite !declared_decl_of in Ef.
    exists (decl_of s r'). rewrite declared_decl_of. split; auto. now apply in_map. }
  apply decl_mentions in Hx as [Hx|[Hx|[Hx|[T Hx]]]]; auto.
  - left. right. destruct Hx as [Hx|(kw & K & Pr)]; [now left|right]. exists kw. split; auto. now apply (recorded_top s t n Cn).
  - left. left. destruct Hx as (r & Hr & ->). destruct (DR r Hr) as (d' & I & <-). now apply in_map.
  - right. left. destruct Hx as (y & e & Hy & He & ->). exists y, e. split; auto. eapply node_of_trans; eauto.
  - right. right. destruct Hx as (c & Hc & ->). destruct (DR c Hc) as (d' & I & <-). exists n, d'. auto 6.
Qed.
