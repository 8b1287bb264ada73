(** C104: what the class of a dict accepts besides the dict it was made for. *)
From Coq Require Import Ascii String List Bool Arith Lia Permutation.
From Verif Require Import Exc PyStr PyStrFacts Utils Strategies Dispatch Values Tree Build Emit Imports ImportsFacts TreeFacts SpecNames NamesFacts SpecData SpecTypes SpecEmit SpecImports SpecModules SpecMerge SpecExact Elab ElabFacts BuildFacts TotalFacts
  TreeProofs EmitFacts EmitTop TextFacts SpecSound SoundEmit SoundTop SoundRead SpecCamel SpecUnique SpecClear Samples SampleUnique SampleEmit SampleSound SampleClear SoundJson
  PropsBase PropsEmit ClearFacts PropsUnique TypedFacts GroupFacts MergeFacts SoundTree SoundBuild SoundHash PropsUnique PropsClear PropsOutput SpecEnd PropsRead PropsEnd.
Import ListNotations.
Local Open Scope string_scope.
Local Open Scope nat_scope.

(** What is accepted by the name of a TypedDict that is declared once. *)
Lemma declared_once ds d d' : NoDup (map declared ds) -> In d ds -> In d' ds -> declared d = declared d' -> d = d'.
Proof.
  induction ds as [|x ds IH]; intros N A B E; [destruct A|]. cbn [map] in N. inversion N as [|? ? Nx N']; subst. destruct A as [->|A], B as [->|B]; auto.
  - exfalso. apply Nx. rewrite E. now apply in_map.
  - exfalso. apply Nx. rewrite <- E. now apply in_map.
Qed.
Lemma typed_only ds n f fs doc w : NoDup (map declared ds) -> In (DTyped n f fs doc) ds -> ~ In n ["Callable"; "ModuleType"; "TextIO"] -> accepts ds (TName n) w ->
  exists ty kvs, w = VMap MDict ty kvs /\ (forall k x, In (k, x) kvs -> exists g, In g fs /\ k = KStr (fd_key g) /\ accepts ds (field_core (fd_type g)) x) /\
    (forall g, In g fs -> field_required (fd_type g) = true -> has_key (KStr (fd_key g)) kvs).
Proof.
  intros N I T A. assert (D : In n (map declared ds)) by (change n with (declared (DTyped n f fs doc)); now apply in_map). inversion A; subst; try contradiction; try (exfalso; apply T; cbn; tauto).
  - match goal with H : In (DAlias n ?t) ds |- _ => pose proof (declared_once ds _ _ N I H eq_refl) as E; discriminate E end.
  - match goal with H : In (DTyped n ?f' ?fs' ?doc') ds |- _ => pose proof (declared_once ds _ _ N I H eq_refl) as E; injection E as -> -> -> end. eauto 6.
  - match goal with H : In (DProto n ?t) ds |- _ => pose proof (declared_once ds _ _ N I H eq_refl) as E; discriminate E end.
Qed.


(** What a value may be, going by the data: for a dict with text keys a dict with the same keys, and at every key what the value there
    allows; for a list, set or series that is not empty one (for a list with [Sequence] also a tuple) whose elements are as those of the list, or dicts ([row])
    that have only keys of the dicts of the list and all keys that those have in common;
    for a number, a text or another instance something that its class accepts ([None] becomes [Optional[object]]); nothing is
    said about other values. *)
Definition row (ds : list dict) (y : pyval) : Prop :=
  exists ty kvs, y = VMap MDict ty kvs /\ (forall k, has_key k kvs -> in_some ds k) /\ (forall k, in_all ds k -> has_key k kvs).
Inductive resembles : pyval -> pyval -> Prop :=
  | re_dict : forall ty kvs ty' kvs', (forall k, has_key k kvs' <-> has_key k kvs) -> (forall k x y, In (k, x) kvs -> In (k, y) kvs' -> resembles x y) ->
      resembles (VMap MDict ty kvs) (VMap MDict ty' kvs')
  | re_instance : forall x y, is_instance x -> class_accepts (ty_name (type_of x)) y -> resembles x y
  | re_none : forall t y, ty_id t = t_NoneType -> resembles (VInst t) y
  | re_list : forall k ty l k' ty' l', k <> KTuple -> k' = k \/ (k = KList /\ k' = KTuple) -> (forall y, In y l' -> (exists x, In x l /\ resembles x y) \/ row (string_dicts l) y) -> resembles (VSeq k ty l) (VSeq k' ty' l')
  | re_rest : forall x y, ~ is_instance x -> (forall ty kvs, x = VMap MDict ty kvs -> ~ string_keys kvs) ->
      (forall k ty l, x = VSeq k ty l -> k = KTuple \/ l = []) -> resembles x y.

Lemma two_maps {A B C D} (f : A -> C) (f' : B -> C) (g : A -> D) (g' : B -> D) : forall l l', map f l = map f' l' -> map g l = map g' l' ->
  (forall x, In x l -> exists x', In x' l' /\ f x = f' x' /\ g x = g' x') /\ (forall x', In x' l' -> exists x, In x l /\ f x = f' x' /\ g x = g' x').
Proof.
  induction l as [|a l IH]; intros [|b l'] E E'; try discriminate E; [split; intros ? []|]. cbn [map] in *. injection E as Ea E. injection E' as Eb E'. destruct (IH l' E E') as [P Q]. split.
  - intros x [<-|Hx]; [exists b; split; [now left|auto]|]. destruct (P x Hx) as (x' & I & ? & ?). exists x'. split; [now right|auto].
  - intros x' [<-|Hx]; [exists a; split; [now left|auto]|]. destruct (Q x' Hx) as (x & I & ? & ?). exists x. split; [now right|auto].
Qed.

(** A tree and what renaming, any number of times, makes of it. *)
Inductive like : tree -> tree -> Prop :=
  | like_refl : forall c, like c c
  | like_ren : forall k new l c c0, like c c0 -> like (ren k new l c) c0.
Lemma like_trans a b c : like a b -> like b c -> like a c.
Proof. induction 1; auto. intros. constructor. auto. Qed.
Lemma renamed_like c c0 : renamed c c0 -> like c c0.
Proof. intros [->|(new & ->)]; [constructor|]. unfold rename. constructor. constructor. Qed.
Lemma like_kind c c0 : like c c0 -> tkind c = tkind c0.
Proof. induction 1; [reflexivity|]. now rewrite ren_kind. Qed.
Lemma like_td s c c0 : like c c0 -> is_td s c = is_td s c0.
Proof. intros L. unfold is_td, node_is_typed_dict. now rewrite (like_kind _ _ L). Qed.
Lemma like_hash s c c0 : like c c0 -> thash s c = thash s c0.
Proof. induction 1; [reflexivity|]. now rewrite thash_ren. Qed.
Lemma like_root c c0 : like c c0 -> i_root (ti c) = i_root (ti c0).
Proof. induction 1; [reflexivity|]. now rewrite ren_root. Qed.
Lemma like_type c c0 : like c c0 -> i_type (ti c) = i_type (ti c0).
Proof. induction 1 as [|k new l c c0 L IH]; [reflexivity|]. rewrite <- IH. destruct c; reflexivity. Qed.
Lemma like_children c c0 : like c c0 -> map ekey (tcs c) = map ekey (tcs c0) /\ forall e, In e (tcs c) -> exists e0, In e0 (tcs c0) /\ ekey e = ekey e0 /\ like (snd e) (snd e0).
Proof.
  induction 1 as [c|k new l c c0 L [IH1 IH2]]; [split; [reflexivity|]; intros e He; exists e; split; [exact He|]; split; [reflexivity|constructor]|]. destruct c as [i cs]. cbn [ren tcs] in *. split.
  - rewrite <- IH1, map_map. apply map_ext. intros [[key m] c]. reflexivity.
  - intros e He. apply in_map_iff in He as ([[key m] c] & <- & He). destruct (IH2 _ He) as (e0 & He0 & Ek & Le). exists e0. split; [exact He0|]. split; [exact Ek|]. cbn [snd] in *. now constructor.
Qed.
Lemma once_key (l : list (key * nat * tree)) a b : NoDup (map ekey l) -> In a l -> In b l -> ekey a = ekey b -> a = b.
Proof.
  induction l as [|x l IH]; intros N A B E; [destruct A|]. cbn [map] in N. inversion N as [|? ? Nx N']; subst. destruct A as [->|A], B as [->|B]; auto.
  - exfalso. apply Nx. rewrite E. now apply in_map.
  - exfalso. apply Nx. rewrite <- E. now apply in_map.
Qed.
Lemma is_instance_dec x : {is_instance x} + {~ is_instance x}.
Proof. destruct x; cbn; auto. Qed.
Section Only.
  Variable s : strategies.
  Variable ord : set_order.
  Hypothesis Hs : valid s.
  Hypothesis Ho : set_like ord.
  Variable v : pyval.
  Variable n : string.
  Variable t : tree.
  Hypothesis Ht : tidy s v.
  Hypothesis Hn : names_ok s v n.
  Hypothesis H : from_data s ord v n = Ok t.
  Variable texts : list string.
  Hypothesis D : declarations s t = Some texts.
  Hypothesis U : unambiguous (decls s t) v.

  Lemma collected_declared c : In c (collect s t) -> In (decl_of s c) (decls s t).
  Proof.
    intros Hc. destruct (fits_accepts_all s ord Hs Ho _ n t _ Ht Hn H D) as (RD & _). pose proof Hn as (O & W & _). pose proof (from_data_eq_free s ord _ n t Hs Ho O (named_plain _ W) H) as EF.
    apply (collected_In (decls s t) s t eq_refl EF RD); [|exact Hc]. intros m Hm. destruct (function_fails m) eqn:Q; [|reflexivity]. exfalso. unfold declarations in D.
    assert (X : existsb function_fails (collect s t) = true) by (apply existsb_exists; eauto). rewrite X in D. discriminate D.
  Qed.
  Lemma td_only c E m y : node_of c t -> In c (collect s t) -> tkind c = NDict E m -> is_td s c = true -> accepts (decls s t) (TName (tname c)) y ->
    exists ty kvs, y = VMap MDict ty kvs /\ (forall k z, In (k, z) kvs -> exists e, In e (tcs c) /\ k = ekey e /\ accepts (decls s t) (child_ty s (snd e)) z) /\
      (forall e, In e (tcs c) -> optional m (ekey e) = false -> has_key (ekey e) kvs).
  Proof.
    intros Nc Cc K T A. destruct (C24_typed_dict_fields s ord v n t Ho (tidy_unique _ _ Ht) H c E m Nc K T) as (f & fs & doc & Ed & Ek & _ & _ & _ & Et).
    pose proof (collected_declared c Cc) as I. rewrite Ed in I. destruct U as [U1 U2 _ _ _].
    assert (Nt : ~ In (tname c) ["Callable"; "ModuleType"; "TextIO"]).
    { intros X. apply (U2 (tname c)); [change (tname c) with (declared (DTyped (tname c) f fs doc)); now apply in_map|]. unfold typing_names. cbn in X |- *. intuition. }
    destruct (typed_only _ _ f fs doc y U1 I Nt A) as (ty & kvs & -> & Only & Req). exists ty, kvs. split; [reflexivity|].
    destruct (two_maps _ _ _ _ fs (tcs c) Ek Et) as [P Q].
    assert (Td : is_td_strategy s = true) by (eapply td_is_strategy; exact T).
    assert (Ref : forall e, In e (tcs c) -> typed_ref s (snd e) (rhs s (snd e)) = child_ty s (snd e)).
    { intros e He. unfold typed_ref, child_ty. destruct (perm s (snd e)); [|reflexivity]. f_equal. pose proof Hn as (O & W & Kb & Cm). apply td_strategy_iff in Td. destruct (Cm Td) as (? & ? & ?).
      eapply from_data_camel; eauto. eapply node_of_trans; [|exact Nc]. destruct c as [i cs]. econstructor; [exact He|constructor]. }
    split.
    - intros k z Hz. destruct (Only k z Hz) as (g & Hg & -> & Ag). destruct (P g Hg) as (e & He & Eq1 & Eq2). exists e. split; [exact He|]. split; [exact Eq1|]. rewrite Eq2, (Ref e He), wrapped_core in Ag; [exact Ag|apply child_unwrapped].
    - intros e He Op. destruct (Q e He) as (g & Hg & Eq1 & Eq2). rewrite <- Eq1. apply Req; [exact Hg|]. rewrite Eq2, Op, (Ref e He). pose proof (proj2 (child_unwrapped s (snd e))) as R.
      unfold wrapped. destruct (s_read_only s); cbn [field_required String.eqb]; exact R.
  Qed.
  Lemma init_required kvs k : has_key k kvs -> ~ doc_key k -> optional (init_meta kvs) k = false.
  Proof. intros Hk Nd. unfold optional. destruct (MergeFacts.meta_ok_init kvs) as [M _]. destruct (M k Nd) as (_ & _ & Q & _). apply Q in Hk. now rewrite Hk. Qed.

  Lemma instance_only x y : is_instance x -> sub x v -> ty_id (type_of x) <> t_NoneType -> accepts (decls s t) (class_ref (ty_name (type_of x))) y -> class_accepts (ty_name (type_of x)) y.
  Proof.
    intros Ix Sx Nn A. destruct U as [_ _ U3 _ _]. pose proof (U3 x Sx) as Nd. pose proof Hn as (O & _). pose proof (proj1 O x Sx) as W. set (nm := ty_name (type_of x)) in *. clearbody nm.
    unfold class_ref in A. destruct (is_builtin nm) eqn:B.
    - inversion A; subst; auto; try (exfalso; apply Nd; match goal with J : In ?d (decls s t) |- _ => exact (in_map declared _ _ J) end); vm_compute in B; discriminate B.
    - inversion A; subst; auto. exfalso. unfold word_like in W. cbn [String.append chars] in W.
      do 7 (apply Forall_inv_tail in W). apply Forall_inv in W. vm_compute in W. intuition lia.
  Qed.
  Local Notation part := (part s v).
  Local Notation tree_of := (tree_of s ord).
  Lemma td_collected c : node_of c t -> is_td s c = true -> In c (collect s t).
  Proof.
    intros Nc T. destruct (C26_min_height_partial s s ord v n t Ho eq_refl eq_refl eq_refl eq_refl (le_n _) H) as (_ & _ & _ & Q). apply Q; auto. intros k Hk ->.
    pose proof Hn as (_ & _ & K & _). pose proof (K _ Hk) as B. apply mem_spec in B. vm_compute in B. discriminate B.
  Qed.
  Lemma perm_collected c : node_of c t -> perm s c = true -> In c (collect s t).
  Proof.
    intros Nc Pc. pose proof Hn as (_ & _ & Kb & _). pose proof (from_data_keys_builtin s ord v n t Ho Kb H) as KB.
    assert (It : forall m, node_of m t -> iter_entries (tcs m) = tcs m).
    { intros m Hm. apply before_none_all. intros e He F. pose proof (KB m e Hm He) as B. unfold ekey in F, B. rewrite F in B. apply mem_spec in B. vm_compute in B. discriminate B. }
    assert (G : forall t', node_of t' t -> node_of c t' -> c = t' \/ In c (collect s t')).
    { induction t' as [i cs IH] using tree_ind'. rewrite Forall_forall in IH. intros Hm Hc. apply node_of_inv in Hc as [->|(e1 & He1 & Hc)]; [now left|right].
      rewrite collect_node. pose proof (It _ Hm) as It'. cbn [tcs] in It'. rewrite It'. destruct cs as [|e0 cs]; [destruct He1|]. apply in_app_iff. left. apply in_flat_map. exists e1. split; [exact He1|].
      apply in_app_iff. destruct (IH e1 He1) as [->|X]; [eapply node_of_trans; [|exact Hm]; econstructor; [exact He1|constructor]|exact Hc| |left; exact X]. right. rewrite Pc. now left. }
    destruct (G t (node_refl t) Nc) as [->|X]; [|exact X]. apply (root_perm s ord v n t H).
  Qed.
  Lemma rhs_only c k y : node_of c t -> tkind c = NSeq k -> accepts (decls s t) (child_ty s c) y -> accepts (decls s t) (rhs s c) y.
  Proof.
    intros Nc K A. unfold child_ty in A. destruct (perm s c) eqn:Pc; [|exact A]. pose proof (collected_declared c (perm_collected c Nc Pc)) as I. unfold decl_of in I. rewrite K in I.
    destruct U as [U1 U2 _ _ _]. assert (Dn : In (tname c) (map declared (decls s t))) by exact (in_map declared _ _ I).
    assert (Nt : ~ In (tname c) ["Callable"; "ModuleType"; "TextIO"]) by (intros X; apply (U2 (tname c) Dn); unfold typing_names; cbn in X |- *; intuition).
    inversion A; subst; try contradiction; try (exfalso; apply Nt; cbn; tauto).
    - match goal with J : In (DAlias (tname c) ?t') _ |- _ => pose proof (declared_once _ _ _ U1 I J eq_refl) as E; injection E as <- end. assumption.
    - match goal with J : In (DTyped _ _ _ _) _ |- _ => pose proof (declared_once _ _ _ U1 I J eq_refl) as E; discriminate E end.
    - match goal with J : In (DProto _ _) _ |- _ => pose proof (declared_once _ _ _ U1 I J eq_refl) as E; discriminate E end.
  Qed.
  Lemma union_only l y : l <> [] -> accepts (decls s t) (union_ty l) y -> exists u, In u l /\ accepts (decls s t) u y.
  Proof.
    intros Nl A. unfold union_ty in A. replace (tor_any l) with l in A by (destruct l; [contradiction|reflexivity]).
    assert (X : exists u, In u (members l) /\ accepts (decls s t) u y).
    { assert (W : accepts (decls s t) (TApp "Union" (members l)) y -> exists u, In u (members l) /\ accepts (decls s t) u y).
      { intros B. inversion B; subst; eauto; exfalso; repeat match goal with J : seq_accepts _ ?k ?u |- _ => destruct k; cbn in J; try destruct (Nat.eqb (ty_id u) t_frozenset) | J : map_accepts _ ?k |- _ => destruct k; cbn in J end; intuition discriminate. }
      unfold one_of in A. destruct (members l) as [|u [|u' r]]; [apply W; exact A|exists u; split; [now left|exact A]|apply W; exact A]. }
    destruct X as (u & Hu & Au). exists u. split; [now apply members_In|exact Au].
  Qed.
  Lemma list_only c k y : k <> KTuple -> node_of c t -> tkind c = NSeq k -> tcs c <> [] -> accepts (decls s t) (child_ty s c) y ->
    exists k' ty' l', (k' = k \/ (k = KList /\ k' = KTuple)) /\ y = VSeq k' ty' l' /\ forall z, In z l' -> exists e, In e (tcs c) /\ accepts (decls s t) (child_ty s (snd e)) z.
  Proof.
    intros Nk Nc K Ne A. apply (rhs_only c _ y Nc K) in A. destruct c as [i cs]. rewrite rhs_node in A. unfold tkind in K. cbn [ti tcs] in *. rewrite K in A. 
    assert (Ins : inside s cs = map (fun e => child_ty s (snd e)) cs).
    { unfold inside. f_equal. pose proof Hn as (_ & _ & Kb & _). pose proof (from_data_keys_builtin s ord v n t Ho Kb H) as KB.
      apply before_none_all. intros e He F. pose proof (KB _ e Nc He) as B. unfold ekey in F, B. rewrite F in B. apply mem_spec in B. vm_compute in B. discriminate B. }
    rewrite Ins in A. set (ins := map (fun e => child_ty s (snd e)) cs) in *.
    replace (match k with KTuple => tuple_args (s_tuple s) ins | _ => [union_ty ins] end) with [union_ty ins] in A by (destruct k; congruence).
    assert (Hh : In (fst (seq_container s k (i_type i))) ["List"; "Sequence"; "Set"; "FrozenSet"; "Iterator"; "pd.Series"]) by (unfold seq_container; destruct k; [destruct (s_list s)|contradiction|destruct (Nat.eqb _ _)| |]; cbn; tauto).
    assert (Hk : forall k' u, seq_accepts (fst (seq_container s k (i_type i))) k' u -> k' = k \/ (k = KList /\ k' = KTuple)).
    { intros k' u J. unfold seq_container in J. destruct k; [destruct (s_list s)|contradiction|destruct (Nat.eqb (ty_id (i_type i)) t_frozenset)| |]; destruct k'; cbn in J; try destruct (Nat.eqb (ty_id u) t_frozenset); auto; try discriminate J; destruct J as [J|J]; discriminate J. }
    assert (Q : exists k' ty' l', (k' = k \/ (k = KList /\ k' = KTuple)) /\ y = VSeq k' ty' l' /\ forall z, In z l' -> accepts (decls s t) (union_ty ins) z).
    { generalize dependent (fst (seq_container s k (i_type i))). intros h A Hh Hk. inversion A; subst; try (exfalso; cbn in Hh; repeat destruct Hh as [X|Hh]; [discriminate X..|destruct Hh]).
      do 3 eexists. split; [eapply Hk; eassumption|]. split; [reflexivity|assumption]. }
    destruct Q as (k' & ty' & l' & Hk' & -> & El). exists k', ty', l'. split; [exact Hk'|]. split; [reflexivity|]. intros z Hz. destruct (union_only ins z) as (u & Hu & Au); [intros X; apply Ne; destruct cs; [reflexivity|discriminate X]|exact (El z Hz)|].
    unfold ins in Hu. apply in_map_iff in Hu as (e & <- & He). eauto.
  Qed.
  Definition only_at (f : nat) : Prop := forall d d' x0 c0 c x tx y, part x0 -> tree_of f d x0 c0 -> like c c0 -> node_of c t -> 
    sub x v -> tree_of f d' x tx -> heq (thash s tx) (thash s c) = true -> accepts (decls s t) (child_ty s c) y -> resembles x y.

  Lemma dict_step f : only_at f -> forall name d root ty kvs tx name0 d0 root0 ty0 kvs0 c0 c y, sub (VMap MDict ty kvs) v -> part (VMap MDict ty0 kvs0) ->
    build s ord (S f) name d root (VMap MDict ty kvs) = Ok tx -> build s ord (S f) name0 d0 root0 (VMap MDict ty0 kvs0) = Ok c0 -> like c c0 -> node_of c t ->
    is_td s tx = true -> is_td s c0 = true -> heq (thash s tx) (thash s c0) = true -> accepts (decls s t) (TName (tname c)) y -> resembles (VMap MDict ty kvs) y.
  Proof.
    intros IH name d root ty kvs tx name0 d0 root0 ty0 kvs0 c0 c y Sx P0 Bx B0 L Nc Tx T0 E A. assert (Px : part (VMap MDict ty kvs)) by (left; exact Sx).
    assert (Tc : is_td s c = true) by (rewrite (like_td s _ _ L); exact T0).
    destruct (map_children_of s ord part (part_data s v Ht) (part_once s v Ht) (part_keys s v Ht) (part_merge s v) f name d root MDict ty kvs tx Px Bx) as (Ek & _ & Kx & _).
    destruct (map_children_of s ord part (part_data s v Ht) (part_once s v Ht) (part_keys s v Ht) (part_merge s v) f name0 d0 root0 MDict ty0 kvs0 c0 P0 B0) as (Ek0 & _ & K0 & Ch0).
    assert (Kc : tkind c = NDict kvs0 (init_meta kvs0)) by (rewrite (like_kind _ _ L); exact Ek0).
    destruct (td_only c kvs0 (init_meta kvs0) y Nc (td_collected c Nc Tc) Kc Tc A) as (ty' & kvs' & -> & Only & Req).
    destruct (like_children _ _ L) as [Lk Lc].
    pose proof (td_heq_keys s tx c0 Tx T0 E) as Keys. unfold child_key in Keys. rewrite Kx, K0 in Keys.
    assert (E0 := E). rewrite (tree_mapping s tx MDict kvs Ek), (tree_mapping s c0 MDict kvs0 Ek0), Tx, T0 in E0. apply heq_set in E0 as [E1 _].
    constructor.
    - intros k. split.
      + intros Hk. apply in_map_iff in Hk as ([k1 z] & <- & Hz). destruct (Only _ _ Hz) as (e & He & Eq & _). apply Keys. cbn [fst]. rewrite Eq, <- K0, <- Lk. now apply in_map.
      + intros Hk. apply Keys in Hk as Hk0. rewrite <- K0, <- Lk in Hk0. apply in_map_iff in Hk0 as (e & <- & He). apply Req; [exact He|]. apply Keys in Hk. apply init_required; [exact Hk|].
        apply in_map_iff in Hk as ([k1 z] & <- & Hz). exact (part_keys s v Ht _ _ _ _ _ P0 Hz).
    - intros k x1 z Hx Hz. destruct (Only _ _ Hz) as (e & He & Eq & Az). destruct (Lc e He) as (e0 & He0 & Eqk & Le).
      assert (Hk : In k (map ekey (tcs tx))) by (rewrite Kx; change k with (fst (k, x1)); now apply in_map). apply in_map_iff in Hk as (e' & Ke' & He').
      rewrite <- Ke' in Hx.
      destruct (map_child s ord part (part_val s v) (part_data s v Ht) (part_once s v Ht) (part_keys s v Ht) (part_merge s v) f name d root MDict ty kvs tx e' x1 Px Bx He' Hx) as (tx1 & x2 & c2 & T1 & _ & _ & Eq2 & R2).
      destruct (Ch0 e0 He0) as (x3 & c3 & k4 & x4 & c4 & Hx3 & T3 & Hx4 & T4 & _ & R4).
      destruct (E1 _ (in_map _ _ _ He')) as (h & Hh & Eh). apply in_map_iff in Hh as (e1 & <- & He1). unfold entry_hash in Eh. cbn [heq] in Eh. apply andb_true_iff in Eh as [Eh1 Eh2]. apply key_eqb_spec in Eh1.
      assert (e1 = e0) as ->.
      { assert (N0 : NoDup (map ekey (tcs c0))) by (rewrite K0; exact (part_once s v Ht _ _ _ P0)). apply (once_key _ _ _ N0 He1 He0). congruence. }
      refine (IH (S d0) (S d) x4 c4 (snd e) x1 tx1 z (part_val s v _ _ _ _ _ P0 Hx4) T4 _ _ _ T1 _ Az).
      + eapply like_trans; [exact Le|now apply renamed_like].
      + eapply node_of_trans; [|exact Nc]. destruct c as [i cs]. econstructor; [exact He|constructor].
      + eapply sub_trans; [|exact Sx]. econstructor; [exact Hx|constructor].
      + rewrite (like_hash s _ _ Le). eapply heq_trans; [apply teq_heq; exact Eq2|]. rewrite <- (renamed_hash s _ _ R2). exact Eh2.
  Qed.
  (** Where a child of the tree of a sequence comes from. *)
  Lemma child_source f d l cs c : (forall x, In x l -> part x) -> unmerged_seq s ord f d l cs \/ (exists D0 M tD, merged_seq s ord v f d l cs D0 M tD) -> In c cs ->
    exists x c', part x /\ tree_of f d x c' /\ thash s c = thash s c' /\ is_td s c = is_td s c'.
  Proof.
    intros Pl C Hc. assert (P : plain_child s ord f d l c -> exists x c', part x /\ tree_of f d x c' /\ thash s c = thash s c' /\ is_td s c = is_td s c').
    { intros (x & c' & Hx & T & R). exists x, c'. split; [now apply Pl|]. split; [exact T|]. split; [now apply renamed_hash|now apply renamed_td]. }
    destruct C as [[C _]|(D0 & M & tD & C)]; [now apply P, C|]. pose proof C as (TD & PD & _ & _ & _ & _ & _ & _ & _ & Kinds). destruct (Kinds c Hc) as [[Q _]|E]; [now apply P|]. 
    destruct (merged_td s ord v Ht f d l cs D0 M tD C) as (T1 & T2 & T3 & _). exists (VMap MDict ty_dict D0), tD. rewrite E. split; [exact PD|]. split; [exact TD|]. split; [exact T3|congruence].
  Qed.
  (** A child that is a TypedDict. *)
  Lemma td_child f d l cs c : is_td s c = true -> unmerged_seq s ord f d l cs \/ (exists D0 M tD, merged_seq s ord v f d l cs D0 M tD) -> In c cs -> (forall x, In x l -> part x) ->
    (exists kvs, In kvs (string_dicts l) /\ tkind c = NDict kvs (init_meta kvs) /\ (forall k, has_key k kvs -> ~ doc_key k) /\ (forall k, child_key c k <-> has_key k kvs)) \/
    (exists D0 M, tkind c = NDict D0 M /\ (forall k, child_key c k <-> in_some (string_dicts l) k) /\ (forall k, in_all (string_dicts l) k -> optional M k = false) /\
       forall c', In c' cs -> is_td s c' = true -> c' = c).
  Proof.
    intros T C Hc Pl. destruct C as [[C _]|(D0 & M & tD & C)].
    - left. destruct (C c Hc) as (x & c' & Hx & Tc & R). rewrite (renamed_td s _ _ R) in T. destruct (td_value s ord f d x c' Tc T) as (ty & kvs & -> & Sk & _ & Ek & _).
      assert (Nd : forall k, has_key k kvs -> ~ doc_key k) by (intros k Hk; apply in_map_iff in Hk as ([k1 z] & <- & Hz); exact (part_keys s v Ht _ _ _ _ _ (Pl _ Hx) Hz)).
      exists kvs. split; [apply string_dicts_In; eauto|]. split; [now rewrite (renamed_kind _ _ R)|]. split; [exact Nd|]. intros k.
      destruct f as [|f]; [destruct (tree_zero s ord d _ c' Tc)|]. destruct (dict_tree s ord v Ht f d MDict ty kvs c' (Pl _ Hx) Tc) as (_ & _ & Kx & _). unfold child_key, has_key.
      destruct (like_children _ _ (renamed_like _ _ R)) as [Lk _]. rewrite Lk, Kx. tauto.
    - right. pose proof C as (TD & PD & KD & _ & _ & _ & In1 & In2 & _ & Kinds). destruct (Kinds c Hc) as [[_ Q]|E]; [congruence|]. destruct (merged_td s ord v Ht f d l cs D0 M tD C) as (T1 & T2 & T3 & T4 & T5).
      destruct (td_value s ord f d _ tD TD T1) as (ty & kvs & E1 & _ & _ & Ek & _). injection E1 as <- <-. exists D0, M. split; [rewrite E; unfold set_meta; now rewrite Ek|]. split; [|split].
      + intros k. rewrite <- In1, <- T5. unfold child_key. rewrite E, T4. tauto.
      + intros k Hk. apply In2 in Hk. unfold optional. now rewrite Hk.
      + intros c' Hc' Tc'. destruct (Kinds c' Hc') as [[_ Q]| ->]; [congruence|]. now symmetry.
  Qed.
  Lemma list_step f : only_at f -> is_td_strategy s = true -> forall d d' sk u l tx x0 c0 c y, sk <> KTuple -> l <> [] -> sub (VSeq sk u l) v -> part x0 ->
    tree_of (S f) d' (VSeq sk u l) tx -> tree_of (S f) d x0 c0 -> like c c0 -> node_of c t -> heq (thash s tx) (thash s c0) = true -> accepts (decls s t) (child_ty s c) y -> resembles (VSeq sk u l) y.
  Proof.
    intros IH Td d d' sk u l tx x0 c0 c y Nsk Nl Sx P0 Tx T0 L Nc E A. assert (Px : part (VSeq sk u l)) by (left; exact Sx).
    destruct (seq_hash s ord Ho v Ht (S f) d' sk u l tx Px Tx) as (_ & _ & Sh).
    assert (L0 : ~ is_leaf x0). { intros L0. rewrite heq_sym in E. eapply (leaf_hash_no_set s ord v (S f) d x0 c0 (thash s tx) P0 L0 T0); [|exact E]. destruct (thash s tx); auto. }
    destruct x0 as [| | | | | | |k0 u0 l0|k0 u0 kvs0]; try (exfalso; apply L0; exact I).
    2: { exfalso. exact (seq_not_dict s ord Ho v Ht (S f) d' d _ _ _ _ _ _ _ _ Px P0 Tx T0 E). }
    destruct Tx as (nx & Bx). destruct T0 as (n0 & B0).
    destruct (seq_children s ord Ho v Ht f nx d' false sk u l tx Px Bx) as (Ek & _ & Ne & Cx). destruct (seq_children s ord Ho v Ht f n0 d false k0 u0 l0 c0 P0 B0) as (Ek0 & _ & _ & C0).
    rewrite (tree_seq s tx _ Ek), (tree_seq s c0 _ Ek0) in E.
    assert (Nf : ~ fixed_kind s sk) by (intros [X _]; contradiction).
    destruct (shash_cases s sk (map etree (tcs tx))) as [[F _]|[_ Ex]]; [contradiction|].
    destruct (shash_cases s k0 (map etree (tcs c0))) as [[F Ex0]|[F Ex0]]; rewrite Ex, Ex0 in E; [discriminate E|].
    destruct (part_kinds s v Ht _ _ _ _ _ _ Px P0 (conj (fun X => match Nf X with end) (fun X => match F X with end))) as [<- <-].
    apply heq_set in E as [E1 E2]. destruct (like_children _ _ L) as [_ Lc].
    assert (Nec : tcs c <> []).
    { intros X. specialize (Ne Nl). destruct (tcs tx) as [|e1 r] eqn:Q; [now apply Ne|]. assert (H1 : In (thash s (etree e1)) (map (thash s) (map etree (e1 :: r)))) by (left; reflexivity). destruct (E1 _ H1) as (h & Hh & _). apply in_map_iff in Hh as (c1 & _ & Hc1).
      destruct (like_children _ _ L) as [Lk _]. rewrite X in Lk. destruct (tcs c0); [destruct Hc1|discriminate Lk]. }
    assert (Kc : tkind c = NSeq sk) by (rewrite (like_kind _ _ L); exact Ek0).
    assert (Pl : forall x, In x l -> part x) by (intros x Hx; exact (part_el s v _ _ _ _ Px Hx)). assert (Pl0 : forall x, In x l0 -> part x) by (intros x Hx; exact (part_el s v _ _ _ _ P0 Hx)).
    destruct (list_only c sk y Nsk Nc Kc Nec A) as (k' & ty' & l' & Hk & -> & El). apply re_list; [exact Nsk|exact Hk|]. intros z Hz. destruct (El z Hz) as (e & He & Az). destruct (Lc e He) as (e0 & He0 & _ & Le).
    assert (Hc0 : In (etree e0) (map etree (tcs c0))) by now apply in_map.
    destruct (E2 _ (in_map _ _ _ Hc0)) as (h & Hh & Eh). apply in_map_iff in Hh as (c2 & <- & Hc2).
    set (cx := map etree (tcs tx)) in *. set (cs0 := map etree (tcs c0)) in *.
    assert (Ne0 : node_of (snd e) t) by (eapply node_of_trans; [|exact Nc]; destruct c as [i cs]; econstructor; [exact He|constructor]).
    assert (Plain : plain_child s ord f (S d') l c2 -> plain_child s ord f (S d) l0 (etree e0) -> exists x, In x l /\ resembles x z).
    { intros (x2 & c2' & Hx2 & T2 & R2) (x3 & c3 & Hx3 & T3 & R3). exists x2. split; [exact Hx2|].
      assert (Sx2 : sub x2 v) by (eapply sub_trans; [eapply sub_seq; [exact Hx2|apply sub_refl]|exact Sx]).
      refine (IH (S d) (S d') x3 c3 (snd e) x2 c2' z (Pl0 _ Hx3) T3 _ Ne0 Sx2 T2 _ Az).
      - eapply like_trans; [exact Le|now apply renamed_like].
      - rewrite (like_hash s _ _ Le). rewrite <- (renamed_hash s _ _ R2). exact Eh. }
    assert (Same : forall a b, In a cx -> In b cs0 -> heq (thash s a) (thash s b) = true -> is_td s a = is_td s b).
    { intros a b Ha Hb Eab. destruct (child_source f (S d') l cx a Pl Cx Ha) as (xa & ca & Pa & Ta & Ha1 & Ha2). destruct (child_source f (S d) l0 cs0 b Pl0 C0 Hb) as (xb & cb & Pb & Tb & Hb1 & Hb2). rewrite Ha1, Hb1 in Eab. rewrite Ha2, Hb2.
      destruct (is_td s ca) eqn:Qa; [symmetry; exact (heq_td s ord Ho v Ht f _ _ _ _ _ _ Pa Pb Ta Tb Qa Eab)|]. destruct (is_td s cb) eqn:Qb; [|reflexivity]. rewrite heq_sym in Eab. rewrite (heq_td s ord Ho v Ht f _ _ _ _ _ _ Pb Pa Tb Ta Qb Eab) in Qa. discriminate Qa. }
    pose proof (Same c2 (etree e0) Hc2 Hc0 Eh) as Tq. destruct (is_td s (etree e0)) eqn:T1.
    2: { left. assert (PlainOf : forall g dd ll cs a, unmerged_seq s ord g dd ll cs \/ (exists D0 M tD, merged_seq s ord v g dd ll cs D0 M tD) -> In a cs -> is_td s a = false -> plain_child s ord g dd ll a).
         { intros g dd ll cs a C Ha Ta. destruct C as [[C _]|(D0 & M & tD & C)]; [now apply C|]. pose proof C as (_ & _ & _ & _ & _ & _ & _ & _ & _ & Kinds). destruct (Kinds a Ha) as [[Q _]| ->]; [exact Q|].
           destruct (merged_td s ord v Ht g dd ll cs D0 M tD C) as (_ & X & _). congruence. }
         apply Plain; [exact (PlainOf _ _ _ _ _ Cx Hc2 Tq)|exact (PlainOf _ _ _ _ _ C0 Hc0 T1)]. }
    right. pose proof (td_heq_keys s c2 (etree e0) Tq T1 Eh) as Keys.
    assert (Te : is_td s (snd e) = true) by (rewrite (like_td s _ _ Le); exact T1). destruct (like_children _ _ Le) as [Lk _].
    assert (Aw : accepts (decls s t) (TName (tname (snd e))) z).
    { assert (Pe : perm s (snd e) = true) by (unfold is_td, node_is_typed_dict in Te; unfold perm; destruct (tkind (snd e)); try discriminate Te; now rewrite Te). unfold child_ty in Az. now rewrite Pe in Az. }
    assert (Some_l : forall k, child_key c2 k -> in_some (string_dicts l) k).
    { intros k Hk0. destruct (td_child f (S d') l cx c2 Tq Cx Hc2 Pl) as [(kvs & Hd & _ & Nd & Q)|(_ & _ & _ & Q & _)]; [|now apply Q]. apply Q in Hk0. split; [now apply Nd|]. eauto. }
    assert (Only : forall kk, In kk (map ekey (tcs (snd e))) -> in_some (string_dicts l) kk) by (intros kk Hkk; apply Some_l, Keys; unfold child_key; unfold etree in *; now rewrite <- Lk).
    destruct (td_child f (S d) l0 cs0 (etree e0) T1 C0 Hc0 Pl0) as [(kvs & Hd & K & Nd & Q)|(D0 & M & K & Q & Op & Uq)].
    - destruct (td_only (snd e) kvs (init_meta kvs) z Ne0 (td_collected _ Ne0 Te)) as (tz & kz & -> & O1 & O2); [rewrite (like_kind _ _ Le); exact K|exact Te|exact Aw|]. exists tz, kz. split; [reflexivity|]. split.
      + intros k Hkk. apply in_map_iff in Hkk as ([k1 w] & <- & Hw). destruct (O1 _ _ Hw) as (e1 & He1 & -> & _). cbn [fst]. apply Only. now apply in_map.
      + intros k (Nk & Nn & All).
        assert (Hck : child_key c2 k). { destruct (td_child f (S d') l cx c2 Tq Cx Hc2 Pl) as [(kvs' & Hd' & _ & _ & Q')|(_ & _ & _ & Q' & _)]; apply Q'; [now apply All|]. split; [exact Nk|]. destruct (string_dicts l) as [|d0 r]; [contradiction|]. exists d0. split; [now left|]. apply All. now left. }
        apply Keys in Hck. pose proof (proj1 (Q k) Hck) as Hv. unfold child_key in Hck. unfold etree in Hck. rewrite <- Lk in Hck. apply in_map_iff in Hck as (e1 & <- & He1). apply O2; [exact He1|]. apply init_required; auto.
    - destruct (td_only (snd e) D0 M z Ne0 (td_collected _ Ne0 Te)) as (tz & kz & -> & O1 & O2); [rewrite (like_kind _ _ Le); exact K|exact Te|exact Aw|]. exists tz, kz. split; [reflexivity|]. split.
      + intros k Hkk. apply in_map_iff in Hkk as ([k1 w] & <- & Hw). destruct (O1 _ _ Hw) as (e1 & He1 & -> & _). cbn [fst]. apply Only. now apply in_map.
      + intros k Hal. assert (Eqv : forall kk, in_some (string_dicts l) kk <-> in_some (string_dicts l0) kk).
        { intros kk. split.
          - intros (Nk & dx & Hdx & Hkk). destruct Cx as [[_ Cx]|(D1 & M1 & tD1 & Cx)].
            + destruct (Cx Td dx Hdx) as (c5 & Hc5 & T5 & K5). destruct (E1 _ (in_map _ _ _ Hc5)) as (h & Hh & E5). apply in_map_iff in Hh as (c6 & <- & Hc6). pose proof (Same c5 c6 Hc5 Hc6 E5) as T6. rewrite T5 in T6. symmetry in T6. pose proof (Uq c6 Hc6 T6) as X. subst c6.
              apply Q. apply (td_heq_keys s c5 _ T5 T1 E5). now apply K5.
            + apply Q, Keys. destruct (td_child f (S d') l cx c2 Tq (or_intror (ex_intro _ D1 (ex_intro _ M1 (ex_intro _ tD1 Cx)))) Hc2 Pl) as [(kvs' & Hd' & Kd' & _ & Q')|(_ & _ & _ & Q' & _)]; [|apply Q'; split; eauto].
              pose proof Cx as (TD & PD & KD & _ & _ & _ & In1 & _ & _ & Kinds). destruct (Kinds c2 Hc2) as [[_ X]|X]; [congruence|]. destruct (merged_td s ord v Ht f (S d') l cx D1 M1 tD1 Cx) as (_ & _ & _ & T4 & T5).
              unfold child_key. rewrite X, T4. apply T5, In1. split; eauto.
          - intros Hkk. apply Some_l, Keys, Q, Hkk. }
        assert (Hal0 : in_all (string_dicts l0) k).
        { apply td_strategy_iff in Td. apply (tidy_optional s v Ht Td sk u l sk u l0 Sx (part_sub s v _ _ _ P0)); [|intros X|exact Eqv|exact Hal]; destruct Hal as (Nk & Nn & All); [exact Nn|].
          destruct (string_dicts l) as [|d0 r]; [contradiction|]. destruct (proj1 (Eqv k)) as (_ & d1 & Hd1 & _); [split; [exact Nk|]; exists d0; split; [now left|apply All; now left]|]. rewrite X in Hd1. destruct Hd1. }
        assert (Hck : child_key (etree e0) k). { apply Q. destruct Hal0 as (Nk & Nn & All). split; [exact Nk|]. destruct (string_dicts l0) as [|d0 r]; [contradiction|]. exists d0. split; [now left|]. apply All. now left. }
        unfold child_key, etree in Hck. rewrite <- Lk in Hck. apply in_map_iff in Hck as (e1 & <- & He1). apply O2; [exact He1|]. now apply Op.
  Qed.
  Lemma node_only : is_td_strategy s = true -> forall f, only_at f.
  Proof.
    intros Td. induction f as [f IHf] using lt_wf_ind. intros d d' x0 c0 c x tx y P0 T0 L Nc Sx Tx E A. assert (Px : part x) by (left; exact Sx). rewrite (like_hash s _ _ L) in E.
    destruct (is_instance_dec x) as [Ix|Nx].
    - assert (Lx : is_leaf x) by (destruct x; try contradiction; exact I).
      assert (Lx0 : is_leaf x0).
      { destruct x0 as [| | | | | | |k0 u l|k0 u l]; try exact I; exfalso.
        - destruct (seq_hash s ord Ho v Ht f d k0 u l c0 P0 T0) as (_ & _ & S1). eapply (leaf_hash_no_set s ord v f d' x tx (thash s c0) Px Lx Tx); [|exact E]. destruct (thash s c0); auto.
        - destruct (dict_hash s ord v Ht f d k0 u l c0 P0 T0) as (_ & _ & S1). eapply (leaf_hash_no_set s ord v f d' x tx (thash s c0) Px Lx Tx); [|exact E]. destruct (thash s c0); auto. }
      pose proof (part_leaf s v x0 Lx0 P0) as S0. rewrite (tree_leaf s ord f d' x tx Tx Lx), (tree_leaf s ord f d x0 c0 T0 Lx0) in E.
      destruct (leaf_same s v Ht x x0 Sx S0 Lx Lx0 E) as [Id _]. pose proof (tidy_leaves s v Ht x x0 Sx S0 Lx Lx0 Id) as Sl.
      assert (Q : is_instance x0 /\ type_of x = type_of x0) by (destruct x; try contradiction; cbn [same_leaf] in Sl; tauto). destruct Q as [I0 Ty].
      assert (K : tkind c = NInst /\ i_type (ti c) = type_of x /\ i_root (ti c) = false).
      { rewrite (like_kind _ _ L), (like_type _ _ L), (like_root _ _ L). destruct T0 as (name & T0). rewrite Ty.
        destruct x0; try contradiction; destruct f; cbn [build] in T0; unfold leaf in T0; destruct (is_compatible name); try discriminate T0; injection T0 as <-; auto. }
      destruct K as (K1 & K2 & K3). unfold child_ty, perm in A. rewrite K1, K3 in A. destruct c as [i cs]. unfold tkind in K1. cbn [ti] in *. cbn [rhs] in A. rewrite K1, K2 in A.
      destruct (Nat.eqb (ty_id (type_of x)) t_NoneType) eqn:B.
      + destruct x as [str| |u| | | | | |]; try contradiction; [vm_compute in B; discriminate B|]. apply re_none. now apply Nat.eqb_eq.
      + apply re_instance; [exact Ix|]. apply (instance_only x y Ix Sx); [now apply Nat.eqb_neq|exact A].
    - destruct x as [| | | | | | |k u l|k u kvs]; try (apply re_rest; [exact Nx|intros ? ? X; discriminate X|intros ? ? ? X; discriminate X]).
      { assert (Q : (k <> KTuple /\ l <> []) \/ (k = KTuple \/ l = [])).
        { destruct l as [|a r]; [auto|]. destruct k; auto; left; split; discriminate. }
        destruct Q as [(Nk & Nl)|Q]; [|apply re_rest; [exact Nx|intros ? ? X; discriminate X|intros ? ? ? X; injection X as <- _ <-; exact Q]].
        destruct f as [|f]; [destruct (tree_zero s ord d' _ tx Tx)|]. exact (list_step f (IHf f (le_n _)) Td d d' k u l tx x0 c0 c y Nk Nl Sx P0 Tx T0 L Nc E A). }
      destruct k; [|apply re_rest; [exact Nx|intros ? ? X; discriminate X|intros ? ? ? X; discriminate X]].
      destruct (is_typed_dict s (init_meta kvs)) eqn:B.
      + destruct f as [|f]; [destruct (tree_zero s ord d' _ tx Tx)|].
        assert (Sk : string_keys kvs) by (apply dict_td in B; apply B).
        pose proof (tree_td s ord (S f) d' _ u kvs tx Tx eq_refl Sk Td) as Tt. pose proof (heq_td s ord Ho v Ht (S f) d' d _ x0 tx c0 Px P0 Tx T0 Tt E) as T1.
        destruct (td_value s ord (S f) d x0 c0 T0 T1) as (ty0 & kvs0 & -> & _ & _ & Ek0 & _). destruct Tx as (name & Bx). destruct T0 as (name0 & B0).
        apply (dict_step f (IHf f (le_n _)) name d' false u kvs tx name0 d false ty0 kvs0 c0 c y Sx P0 Bx B0 L Nc Tt T1 E).
        assert (Pc : perm s c = true). { unfold perm. rewrite (like_kind _ _ L), Ek0. unfold is_td, node_is_typed_dict in T1. rewrite Ek0 in T1. now rewrite T1. }
        unfold child_ty in A. now rewrite Pc in A.
      + apply re_rest; [exact Nx| |intros ? ? ? X; discriminate X]. intros ty0 kvs0 X Sk. injection X as <- <-. assert (is_typed_dict s (init_meta kvs) = true) by (apply dict_td; auto). congruence.
  Qed.
End Only.

Lemma resembles_dict ty kvs w : string_keys kvs -> resembles (VMap MDict ty kvs) w ->
  exists ty' kvs', w = VMap MDict ty' kvs' /\ (forall k, has_key k kvs' <-> has_key k kvs) /\ (forall k x y, In (k, x) kvs -> In (k, y) kvs' -> resembles x y).
Proof.
  intros Sk R. inversion R as [? ? ty' kvs' K V|? ? F|? ? F| |? ? F G]; subst; [eauto 6|destruct F|]. destruct (G _ _ eq_refl Sk).
Qed.
(** For a dict with text keys made into a TypedDict: whatever the class accepts resembles the dict, so it has the same keys at every
    level of dicts in dicts, and instances of the same classes at them. *)
Theorem C104_resembles : forall s ord ty kvs c, valid s -> set_like ord -> s_dict s = DTypedDict -> string_keys kvs -> describable s c (VMap MDict ty kvs) ->
  exists text, class_text s ord (VMap MDict ty kvs) c = Val text /\ (exists stmts ds, Reads text stmts ds) /\
    forall stmts ds, Reads text stmts ds -> accepts ds (TName c) (VMap MDict ty kvs) /\ forall w, accepts ds (TName c) w -> resembles (VMap MDict ty kvs) w.
Proof.
  intros s ord ty kvs c Hs Ho Td Sk De. destruct (C96_text s ord _ c Hs Ho De) as (text & T & stmts & ds & R & _ & _ & Acc). exists text. split; [exact T|]. split; [eauto|].
  intros stmts' ds' R'. assert (ds' = ds) as -> by (symmetry; eapply C66_one_reading; eassumption). split; [exact Acc|]. clear stmts' R'.
  destruct De as [Ti C N L A P I Hl]. destruct (C09_data_partial s ord _ c Hs Ho Ti C N L A P I Hl) as (t & ds1 & H & D & _).
  destruct (fits_accepts_decls s ord Hs Ho _ c t _ Ti N H D) as (E & Rd & _). rewrite E in D. clear E ds1.
  assert (E : ds = decls s t).
  { unfold class_text in T. rewrite H in T. destruct (to_string s t true) as [text'|] eqn:X; [|discriminate T]. injection T as ->. destruct (C66_layout s t true text X) as (texts & D' & _ & block & F & Lay). rewrite D in D'. injection D' as <-.
    destruct (block_describes s t block F) as (st & B & _). apply (C66_one_reading text stmts st); [exact R|exists block; auto]. }
  subst ds. intros w Aw. pose proof N as (O & W & _).
  assert (U : unambiguous (decls s t) (VMap MDict ty kvs)) by (eapply clear_unambiguous; eauto using named_plain; exact (data_clear s ord Ho _ Ti C c t H)).
  pose proof (proj2 (td_strategy_iff s) Td) as Ts. destruct (root_perm s ord _ c t H) as (_ & _ & Tn).
  pose proof H as B. unfold from_data in B. destruct (is_compatible c) eqn:Ci; [|discriminate B].
  destruct (map_children_of s ord (part s (VMap MDict ty kvs)) (part_data s _ Ti) (part_once s _ Ti) (part_keys s _ Ti) (part_merge s _) _ c 0 true MDict ty kvs t (or_introl (sub_refl _)) B) as (Ek & _).
  assert (Tt : is_td s t = true) by (unfold is_td, node_is_typed_dict; rewrite Ek; apply dict_td; auto).
  refine (dict_step s ord Hs Ho _ c t Ti N H _ D U _ (node_only s ord Hs Ho _ c t Ti N H _ D U Ts _) c 0 true ty kvs t c 0 true ty kvs t t w (sub_refl _) (or_introl (sub_refl _)) B B (like_refl t) (node_refl t) Tt Tt (heq_refl _) _).
  rewrite Tn. exact Aw.
Qed.
Print Assumptions C104_resembles.

(** In particular it is a dict with exactly the same keys. *)
Theorem C104_keys : forall s ord ty kvs c, valid s -> set_like ord -> s_dict s = DTypedDict -> string_keys kvs -> describable s c (VMap MDict ty kvs) ->
  exists text, class_text s ord (VMap MDict ty kvs) c = Val text /\ (exists stmts ds, Reads text stmts ds) /\
    forall stmts ds, Reads text stmts ds -> accepts ds (TName c) (VMap MDict ty kvs) /\
      forall w, accepts ds (TName c) w -> exists ty' kvs', w = VMap MDict ty' kvs' /\ forall k, has_key k kvs' <-> has_key k kvs.
Proof.
  intros s ord ty kvs c Hs Ho Td Sk De. destruct (C104_resembles s ord ty kvs c Hs Ho Td Sk De) as (text & T & R & All). exists text. split; [exact T|]. split; [exact R|].
  intros stmts ds Rd. destruct (All stmts ds Rd) as [A B]. split; [exact A|]. intros w Aw. destruct (resembles_dict ty kvs w Sk (B w Aw)) as (ty' & kvs' & -> & K & _). eauto.
Qed.
Print Assumptions C104_keys.

(** The order whose post code is a text, the one that has an item without [sku], and the one that has nothing, are not accepted where the order is. *)
Definition order_entries : list (key * pyval) := match order with VMap _ _ kvs => kvs | _ => [] end.
Definition other_order : pyval :=
  vdict [("customer", vdict [("name", vstr); ("address", vdict [("street", vstr); ("zip", vstr)])]); ("items", vlist []); ("payments", vlist []); ("notes", vlist []); ("marks", vlist []); ("id", vint)].
Definition bad_items : pyval :=
  vdict [("customer", vdict [("name", vstr); ("address", vdict [("street", vstr); ("zip", vint)])]); ("items", vlist [vdict [("price", vfloat)]]); ("payments", vlist []); ("notes", vlist []); ("marks", vlist []); ("id", vint)].
Example C104_example : valid default_strategies /\ set_like as_inserted /\ s_dict default_strategies = DTypedDict /\ string_keys order_entries /\
  describable default_strategies "Order" (VMap MDict ty_dict order_entries) /\
  exists text stmts ds, class_text default_strategies as_inserted order "Order" = Val text /\ Reads text stmts ds /\ accepts ds (TName "Order") order /\
    ~ accepts ds (TName "Order") (vdict []) /\ ~ accepts ds (TName "Order") other_order /\ ~ accepts ds (TName "Order") bad_items.
Proof.
  assert (ND : ~ doc_key (KStr "sku")) by (intros (r & X); discriminate X).
  assert (Sk : string_keys order_entries) by (intros k Hx; unfold has_key in Hx; cbn in Hx; repeat destruct Hx as [<-|Hx]; try destruct Hx; eauto).
  split; [apply default_valid|]. split; [apply as_inserted_set_like|]. split; [reflexivity|]. split; [exact Sk|]. split; [exact order_describable|].
  destruct (C104_resembles default_strategies as_inserted ty_dict order_entries "Order" default_valid as_inserted_set_like eq_refl Sk order_describable) as (text & T & (stmts & ds & R) & All).
  destruct (All stmts ds R) as [A B]. exists text, stmts, ds. split; [exact T|]. split; [exact R|]. split; [exact A|]. split; [|split]; intros X; apply B in X; apply (resembles_dict _ _ _ Sk) in X as (ty' & kvs' & E & K & V).
  - injection E as _ <-. destruct (proj2 (K (KStr "id"))); unfold has_key; cbn; tauto.
  - injection E as _ <-. specialize (V _ _ _ (or_introl eq_refl) (or_introl eq_refl)).
    apply resembles_dict in V as (ty1 & kvs1 & E & _ & V); [|intros k Hx; unfold has_key in Hx; cbn in Hx; repeat destruct Hx as [<-|Hx]; try destruct Hx; eauto].
    injection E as _ <-. specialize (V _ _ _ (or_intror (or_introl eq_refl)) (or_intror (or_introl eq_refl))).
    apply resembles_dict in V as (ty2 & kvs2 & E & _ & V); [|intros k Hx; unfold has_key in Hx; cbn in Hx; repeat destruct Hx as [<-|Hx]; try destruct Hx; eauto].
    injection E as _ <-. specialize (V _ _ _ (or_intror (or_introl eq_refl)) (or_intror (or_introl eq_refl))).
    inversion V as [|? ? _ F|? ? F| |? ? F _]; subst; [|vm_compute in F; discriminate F|apply F; exact I]. unfold class_accepts in F. vm_compute in F. intuition discriminate.
  - injection E as _ <-. specialize (V _ _ _ (or_intror (or_introl eq_refl)) (or_intror (or_introl eq_refl))).
    inversion V as [|? ? F| |? ? ? ? ? ? _ _ W|? ? _ _ F]; subst; [destruct F| |destruct (F _ _ _ eq_refl) as [X|X]; discriminate X]. destruct (W _ (or_introl eq_refl)) as [(x & Hx & X)|(ty2 & kvs2 & E & _ & Every)].
    + cbn in Hx. destruct Hx as [<-|[<-|[]]]; apply resembles_dict in X as (ty2 & kvs2 & E & K2 & _); try (intros k Hx; unfold has_key in Hx; cbn in Hx; repeat destruct Hx as [<-|Hx]; try destruct Hx; eauto);
        injection E as _ <-; destruct (proj2 (K2 (KStr "sku"))) as [X|[]]; [unfold has_key; cbn; tauto|discriminate X|unfold has_key; cbn; tauto|discriminate X].
    + injection E as _ <-. destruct (Every (KStr "sku")) as [X|[]]; [|discriminate X]. split; [exact ND|]. split; [intros X; vm_compute in X; discriminate X|].
      intros d Hd. vm_compute in Hd. destruct Hd as [<-|[<-|[]]]; unfold has_key; cbn; tauto.
Qed.
