(** The order in which sets of nodes are iterated: without TypedDicts it only changes the order of the children of
    sequences and, with it, the order of the declarations. *)
From Coq Require Import Ascii String List Bool Arith Lia Permutation.
From Verif Require Import PyStr PyStrFacts Utils Strategies Imports Dispatch Values Tree Build Emit TreeFacts SpecData SpecOrder BuildFacts SmallFacts ImportsFacts.
Import ListNotations.
Local Open Scope string_scope.

Definition P2 {A} (R : A -> A -> Prop) (l l' : list A) : Prop := exists m, Permutation l m /\ Forall2 R m l'.
Lemma P2_app {A} (R : A -> A -> Prop) a a' b b' : P2 R a a' -> P2 R b b' -> P2 R (a ++ b) (a' ++ b').
Proof. intros (m & P & F) (m' & P' & F'). exists (m ++ m')%list. split; [now apply Permutation_app|now apply Forall2_app]. Qed.
Lemma P2_Forall2 {A} (R : A -> A -> Prop) a a' : Forall2 R a a' -> P2 R a a'.
Proof. intros F. exists a. auto. Qed.
Lemma P2_perm {A} (R : A -> A -> Prop) a b c : Permutation a b -> P2 R b c -> P2 R a c.
Proof. intros P (m & Q & F). exists m. split; auto. etransitivity; eauto. Qed.
Lemma Forall2_map_lr {A B C} (R : B -> C -> Prop) (f : A -> B) (g : A -> C) l : Forall (fun x => R (f x) (g x)) l -> Forall2 R (map f l) (map g l).
Proof. induction 1; cbn; auto. Qed.
Lemma Forall2_map2 {A A' B B'} (R : A -> B -> Prop) (R' : A' -> B' -> Prop) f g l l' : (forall a b, R a b -> R' (f a) (g b)) -> Forall2 R l l' -> Forall2 R' (map f l) (map g l').
Proof. intros H. induction 1; cbn; auto. Qed.
Lemma Forall2_imp {A B} (R R' : A -> B -> Prop) l l' : (forall a b, R a b -> R' a b) -> Forall2 R l l' -> Forall2 R' l l'.
Proof. intros H. induction 1; auto. Qed.
Lemma Forall2_In_imp {A B} (R R' : A -> B -> Prop) l l' : (forall a b, In a l -> R a b -> R' a b) -> Forall2 R l l' -> Forall2 R' l l'.
Proof. intros H F. induction F; constructor; auto using in_eq. apply IHF. intros; apply H; auto. now right. Qed.
Lemma Forall2_length_eq {A B} (R : A -> B -> Prop) l l' : Forall2 R l l' -> List.length l = List.length l'.
Proof. induction 1; cbn; auto. Qed.
Lemma Forall2_filter2 {A B} (R : A -> B -> Prop) (p : A -> bool) (q : B -> bool) l l' : (forall a b, R a b -> p a = q b) -> Forall2 R l l' -> Forall2 R (filter p l) (filter q l').
Proof. intros H. induction 1; cbn; auto. rewrite (H _ _ H0). destruct (q y); auto. Qed.
Lemma Forall2_perm_l {A B} (R : A -> B -> Prop) l l' : Forall2 R l l' -> forall m', Permutation l' m' -> exists m, Permutation l m /\ Forall2 R m m'.
Proof.
  intros F m' P. revert l F. induction P; intros l0 F.
  - inversion F; subst. exists []. auto.
  - inversion F as [|a b l1 l1' H1 H2]; subst. destruct (IHP _ H2) as (m & Q & F2). exists (a :: m). auto.
  - inversion F as [|a b l1 l1' H1 H2]; subst. inversion H2 as [|a2 b2 l2 l2' H3 H4]; subst. exists (a2 :: a :: l2). split; [constructor|]. auto.
  - destruct (IHP1 _ F) as (m & Q & F2). destruct (IHP2 _ F2) as (m2 & Q2 & F3). exists m2. split; auto. etransitivity; eauto.
Qed.

(** ** Trees that differ in the order of the children of sequences *)
Definition unordered (s : strategies) (k : nkind) : bool :=
  match k with NSeq KTuple => match s_tuple s with TFixed => false | TAnySize => true end | NSeq _ => true | _ => false end.
Definition entry_rel (R : tree -> tree -> Prop) (e e' : key * nat * tree) : Prop := fst e = fst e' /\ R (snd e) (snd e').
Inductive shuffled (s : strategies) : tree -> tree -> Prop :=
  | sh_node : forall i cs m cs', (unordered s (i_kind i) = true /\ Forall (fun e => ekey e = no_key) cs \/ m = cs) -> Permutation cs m ->
      List.length m = List.length cs' ->
      (forall e e', In (e, e') (combine m cs') -> fst e = fst e' /\ shuffled s (snd e) (snd e')) ->
      shuffled s (Node i cs) (Node i cs').

Lemma combine_Forall2 {A B} (R : A -> B -> Prop) l : forall l', (List.length l = List.length l' /\ forall a b, In (a, b) (combine l l') -> R a b) <-> Forall2 R l l'.
Proof.
  induction l as [|a l IH]; intros [|b l']; cbn [combine List.length]; split; try (intros [H _]; discriminate H); try (intros H; inversion H; fail); auto.
  - intros _. split; [reflexivity|]. intros a b [].
  - intros [H G]. constructor; [apply G; now left|]. apply IH. split; [lia|]. intros; apply G; now right.
  - intros H. inversion H as [|a0 b0 l0 l0' H1 H2]; subst. apply IH in H2 as [L G]. split; [lia|]. intros x y [E|I]; [injection E as <- <-; exact H1|now apply G].
Qed.
Lemma sh_inv s t t' : shuffled s t t' -> exists i cs m cs', t = Node i cs /\ t' = Node i cs' /\
  (unordered s (i_kind i) = true /\ Forall (fun e => ekey e = no_key) cs \/ m = cs) /\ Permutation cs m /\ Forall2 (entry_rel (shuffled s)) m cs'.
Proof.
  intros H. inversion H as [i cs m cs' U P L G]; subst. exists i, cs, m, cs'. repeat split; auto. apply combine_Forall2. split; auto.
Qed.
Lemma sh_intro s i cs m cs' : (unordered s (i_kind i) = true /\ Forall (fun e => ekey e = no_key) cs \/ m = cs) -> Permutation cs m ->
  Forall2 (entry_rel (shuffled s)) m cs' -> shuffled s (Node i cs) (Node i cs').
Proof. intros U P F. apply combine_Forall2 in F as [L G]. econstructor; eauto. Qed.
Lemma sh_same s i cs cs' : Forall2 (entry_rel (shuffled s)) cs cs' -> shuffled s (Node i cs) (Node i cs').
Proof. intros F. eapply sh_intro; [right; reflexivity|apply Permutation_refl|exact F]. Qed.
Lemma sh_refl s t : shuffled s t t.
Proof.
  induction t as [i cs IH] using tree_ind'. apply sh_same. induction IH; constructor; auto. split; auto.
Qed.
Lemma sh_ti s t t' : shuffled s t t' -> ti t = ti t'.
Proof. intros H. apply sh_inv in H as (i & cs & m & cs' & -> & -> & _). reflexivity. Qed.
Lemma sh_name s t t' : shuffled s t t' -> tname t = tname t'.
Proof. intros H. unfold tname. now rewrite (sh_ti s t t' H). Qed.
Lemma sh_height s t t' : shuffled s t t' -> theight t = theight t'.
Proof. intros H. unfold theight. now rewrite (sh_ti s t t' H). Qed.

Lemma heq_set_intro l m : (forall x, In x l -> exists y, In y m /\ heq x y = true) -> (forall y, In y m -> exists x, In x l /\ heq x y = true) -> heq (HSet l) (HSet m) = true.
Proof.
  intros H1 H2. cbn [heq]. apply andb_true_iff. split; apply forallb_forall; intros x Hx; apply existsb_exists.
  - destruct (H1 x Hx) as (y & Hy & E). eauto.
  - destruct (H2 x Hx) as (y & Hy & E). eauto.
Qed.
Lemma Forall2_In_l {A B} (R : A -> B -> Prop) l l' x : Forall2 R l l' -> In x l -> exists y, In y l' /\ R x y.
Proof. induction 1; intros []; subst; eauto using in_eq. destruct IHForall2 as (z & Hz & Rz); auto. exists z. split; auto. now right. Qed.
Lemma Forall2_In_r {A B} (R : A -> B -> Prop) l l' y : Forall2 R l l' -> In y l' -> exists x, In x l /\ R x y.
Proof. induction 1; intros []; subst; eauto using in_eq. destruct IHForall2 as (z & Hz & Rz); auto. exists z. split; auto. now right. Qed.

Lemma sh_hash s t : forall t', shuffled s t t' -> heq (thash s t) (thash s t') = true.
Proof.
  induction t as [i cs IH] using tree_ind'. rewrite Forall_forall in IH. intros t' H. apply sh_inv in H as (i0 & cs0 & m & cs' & E & -> & U & P & F).
  injection E as <- <-. 
  assert (F' : Forall2 (fun e e' : key * nat * tree => fst e = fst e' /\ heq (thash s (snd e)) (thash s (snd e')) = true) m cs').
  { eapply Forall2_In_imp; [|exact F]. intros e e' He [E R]. split; auto. apply IH; auto. eapply Permutation_in; [symmetry; exact P|exact He]. }
  assert (Sets : forall g : key -> hk -> hk, (forall k a b, heq a b = true -> heq (g k a) (g k b) = true) ->
    heq (HSet (map (fun e : key * nat * tree => g (fst (fst e)) (thash s (snd e))) cs)) (HSet (map (fun e => g (fst (fst e)) (thash s (snd e))) cs')) = true).
  { intros g Hg. apply heq_set_intro.
    - intros x Hx. apply in_map_iff in Hx as (e & <- & He). eapply Permutation_in in He; [|exact P]. destruct (Forall2_In_l _ _ _ _ F' He) as (e' & He' & E & R).
      exists (g (fst (fst e')) (thash s (snd e'))). split; [apply in_map_iff; eauto|]. rewrite E. auto.
    - intros x Hx. apply in_map_iff in Hx as (e' & <- & He'). destruct (Forall2_In_r _ _ _ _ F' He') as (e & He & E & R).
      eapply Permutation_in in He; [|symmetry; exact P].
      exists (g (fst (fst e)) (thash s (snd e))). split; [apply in_map_iff; eauto|]. rewrite E. auto. }
  cbn [thash]. destruct (i_kind i) as [|f|c| | |d|k| |data mm] eqn:K; try apply heq_refl.
  - destruct k; try (apply (Sets (fun _ h => h)); auto; fail). destruct (s_tuple s) eqn:T; [|apply (Sets (fun _ h => h)); auto].
    destruct U as [[U _]|U]; [cbn in U; rewrite T in U; discriminate|]. subst m.
    rewrite heq_tup. apply heql_Forall2. eapply Forall2_map2; [|exact F']. intros e e' [_ R]. exact R.
  - apply (Sets (fun k h => HMap (ty_id (key_type k)) h)). intros. cbn [heq]. now rewrite Nat.eqb_refl.
  - destruct (is_typed_dict s mm).
    + apply (Sets (fun k h => HTd k h)). intros k a b Hab. cbn [heq]. rewrite key_eqb_refl. exact Hab.
    + apply (Sets (fun k h => HMap (ty_id (key_type k)) h)). intros. cbn [heq]. now rewrite Nat.eqb_refl.
Qed.
Lemma sh_teq1 s t t' : shuffled s t t' -> teq s t t' = true.
Proof. intros H. unfold teq. rewrite (sh_hash s t t' H). unfold tkind. rewrite (sh_ti s t t' H), Nat.eqb_refl. reflexivity. Qed.
Lemma sh_teq s a a' b b' : shuffled s a a' -> shuffled s b b' -> teq s a b = teq s a' b'.
Proof.
  intros Ha Hb. rewrite (teq_ext s a a' b (sh_teq1 _ _ _ Ha)). rewrite (teq_sym s a' b), (teq_sym s a' b'). apply teq_ext. now apply sh_teq1.
Qed.
Lemma sh_ren s t : forall t' k new n, shuffled s t t' -> shuffled s (ren k new n t) (ren k new n t').
Proof.
  induction t as [i cs IH] using tree_ind'. rewrite Forall_forall in IH. intros t' k new n H. apply sh_inv in H as (i0 & cs0 & m & cs' & E & -> & U & P & F).
  injection E as <- <-. cbn [ren]. set (f := fun e : key * nat * tree => let (p, c) := e in let (key, mm) := p in (key, mm, ren (k * mm) new n c)).
  apply sh_intro with (map f m).
  - destruct U as [[U N]|U]; [left|right; now subst]. split; [exact U|]. apply Forall_forall. intros e He. apply in_map_iff in He as ([[a b] c] & <- & He).
    rewrite Forall_forall in N. apply (N _ He).
  - now apply Permutation_map.
  - eapply Forall2_map2; [|eapply Forall2_In_imp; [|exact F]]; [intros a b H; exact H|]. intros [[a b] c] [[a' b'] c'] He [E R]. cbn [fst snd] in *. injection E as <- <-.
    split; auto. cbn [f snd]. apply (IH (a, b, c)); auto. eapply Permutation_in; [symmetry; exact P|exact He].
Qed.
Lemma sh_rename s new t t' : shuffled s t t' -> shuffled s (rename new t) (rename new t').
Proof. intros H. unfold rename. rewrite (sh_name s t t' H). now apply sh_ren. Qed.

(** ** Construction *)
Definition res_rel {A B} (R : A -> B -> Prop) (r : res A) (r' : res B) : Prop :=
  match r, r' with Ok a, Ok b => R a b | Err e, Err e' => e = e' | OutOfFuel, OutOfFuel => True | _, _ => False end.
Lemma bind_rel {A B C D} (R : A -> B -> Prop) (Q : C -> D -> Prop) r r' f f' : res_rel R r r' -> (forall a b, R a b -> res_rel Q (f a) (f' b)) -> res_rel Q (bind r f) (bind r' f').
Proof. destruct r, r'; cbn; auto; tauto. Qed.

Section Order.
  Variable s : strategies.
  Variables ord ord' : set_order.
  Hypothesis O : set_like ord.
  Hypothesis O' : set_like ord'.
  Notation R := (shuffled s).
  (** Related, and no TypedDicts. *)
  Definition Rn (t t' : tree) : Prop := R t t' /\ is_td s t = false.
  Lemma Rn_r t t' : Rn t t' -> is_td s t' = false.
  Proof. intros [H N]. unfold is_td, node_is_typed_dict, tkind in *. now rewrite <- (sh_ti s t t' H). Qed.
  Lemma Rn_lists l l' : Forall2 Rn l l' -> Forall (fun t => is_td s t = false) l /\ Forall (fun t => is_td s t = false) l' /\ Forall2 R l l'.
  Proof. induction 1 as [|a b l l' H F (A & B & C)]; auto. pose proof (Rn_r _ _ H). destruct H. auto. Qed.
  Lemma no_metas ts : Forall (fun t => is_td s t = false) ts -> metas_of s ts = [].
  Proof.
    induction 1 as [|t ts H F IH]; cbn [metas_of flat_map]; auto. unfold metas_of in IH. rewrite IH. unfold is_td, node_is_typed_dict in H. destruct (tkind t); auto.
    now rewrite H.
  Qed.
  Lemma no_filter ts : Forall (fun t => is_td s t = false) ts -> filter (is_td s) ts = [].
  Proof. induction 1 as [|t ts H F IH]; cbn [filter]; auto. now rewrite H. Qed.

  Lemma exists_rel c c' ch ch' : R c c' -> Forall2 R ch ch' -> existsb (teq s c) ch = existsb (teq s c') ch'.
  Proof. intros Hc. induction 1; cbn; auto. now rewrite (sh_teq s c c' x y), IHForall2. Qed.
  Lemma build_set_rel bld bld' p els : (forall n x, In x els -> res_rel Rn (bld n x) (bld' n x)) ->
    forall ch ch' ns, Forall2 Rn ch ch' -> res_rel (Forall2 Rn) (build_set s bld p els (ch, ns)) (build_set s bld' p els (ch', ns)).
  Proof.
    induction els as [|v els IH]; intros H ch ch' ns F; cbn [build_set]; [exact F|]. eapply bind_rel; [apply H; now left|]. cbn [snd]. intros a b Hab.
    pose proof (Rn_lists _ _ F) as (_ & _ & F2). pose proof (Rn_r _ _ Hab) as N. destruct Hab as [Hab N0].
    unfold add_child. rewrite (exists_rel a b ch ch') by auto. fold (is_td s a) (is_td s b). rewrite N, N0.
    destruct (existsb (teq s b) ch'); apply IH; auto; try (intros; apply H; now right). apply Forall2_app; auto. constructor; auto. split; auto.
  Qed.
  Definition added_rel (e e' : tree * string) : Prop := R (fst e) (fst e') /\ snd e = snd e'.
  Lemma lookup_rel a b ad ad' : R a b -> Forall2 added_rel ad ad' -> lookup_tree s a ad = lookup_tree s b ad'.
  Proof.
    intros Hab F. unfold lookup_tree. induction F as [|x y l l' [H1 H2] F IH]; cbn [find]; auto. rewrite (sh_teq s a b (fst x) (fst y)) by auto.
    destruct (teq s b (fst y)); cbn; auto. now rewrite H2.
  Qed.
  Lemma td_rename new t : is_td s (rename new t) = is_td s t.
  Proof. destruct t as [i cs]. reflexivity. Qed.
  Lemma build_list_rel bld bld' p els : (forall n x, In x els -> res_rel Rn (bld n x) (bld' n x)) ->
    forall ch ch' ad ad', Forall2 Rn ch ch' -> Forall2 added_rel ad ad' -> res_rel (Forall2 Rn) (build_list s bld p els ch ad) (build_list s bld' p els ch' ad').
  Proof.
    induction els as [|v els IH]; intros H ch ch' ad ad' F G; cbn [build_list]; [exact F|].
    assert (E : map snd ad = map snd ad') by (clear -G; induction G as [|x y l l' [_ H] G IH]; cbn; auto; now rewrite H, IH). rewrite E.
    eapply bind_rel; [apply H; now left|]. intros a b [Hab N]. rewrite (lookup_rel a b ad ad') by auto.
    assert (H' : forall n x, In x els -> res_rel Rn (bld n x) (bld' n x)) by (intros; apply H; now right).
    destruct (lookup_tree s b ad'); apply IH; auto; apply Forall2_app; auto.
    - constructor; auto. split; [now apply sh_rename|now rewrite td_rename].
    - constructor; auto. split; auto.
    - constructor; auto. split; auto. cbn. now apply sh_name with s.
  Qed.
  Lemma no_sharing_rel l l' : Forall2 R l l' -> Forall2 (entry_rel R) (no_sharing l) (no_sharing l').
  Proof. intros F. eapply Forall2_map2; [|exact F]. intros a b H. split; auto. Qed.
  Lemma Forall_ord o n l : set_like o -> Forall (fun t => is_td s t = false) l -> Forall (fun t => is_td s t = false) (o n l).
  Proof. intros Ho H. rewrite Forall_forall in *. intros t Ht. apply H. eapply Permutation_in; [symmetry; apply Ho|exact Ht]. Qed.
  Lemma merge_set_rel bd bd' ch ch' : Forall2 Rn ch ch' ->
    res_rel (fun cs cs' => P2 (entry_rel R) cs cs' /\ Forall (fun e => ekey e = no_key) cs) (merge_set s ord bd ch) (merge_set s ord' bd' ch').
  Proof.
    intros F0. apply Rn_lists in F0 as (N & N' & F). unfold merge_set. rewrite !no_metas, !no_filter by auto using Forall_ord. destruct (should_merge s []); [reflexivity|]. split.
    - destruct (Forall2_perm_l _ _ _ F (ord' 0 ch')) as (m & P & F2); [apply O'|]. exists (no_sharing m). split; [|now apply no_sharing_rel].
      apply Permutation_map. etransitivity; [symmetry; apply O|exact P].
    - apply Forall_forall. intros e He. unfold no_sharing in He. apply in_map_iff in He as (t & <- & _). reflexivity.
  Qed.
  Lemma merge_list_rel bd bd' ch ch' : Forall2 Rn ch ch' -> res_rel (Forall2 (entry_rel R)) (merge_list s bd ch) (merge_list s bd' ch').
  Proof. intros F. apply Rn_lists in F as (N & N' & F). unfold merge_list. rewrite !no_metas, !no_filter by auto. destruct (should_merge s []); [reflexivity|]. now apply no_sharing_rel. Qed.

  Definition kc_rel (e e' : key * tree) : Prop := fst e = fst e' /\ R (snd e) (snd e').
  Lemma build_values_rel bld bld' p kvs : (forall n k x, In (k, x) kvs -> res_rel R (bld n x) (bld' n x)) ->
    res_rel (Forall2 kc_rel) (build_values bld p kvs) (build_values bld' p kvs).
  Proof.
    induction kvs as [|[k v] kvs IH]; intros H; cbn [build_values]; [constructor|]. assert (H' : forall n k x, In (k, x) kvs -> res_rel R (bld n x) (bld' n x)) by (intros; eapply H; right; eauto).
    destruct (is_hidden k); auto. eapply bind_rel; [eapply H; now left|]. intros a b Hab. eapply bind_rel; [apply IH; auto|]. intros l l' F. constructor; auto. split; auto.
  Qed.
  Definition g_rel (e e' : tree * list key) : Prop := R (fst e) (fst e') /\ snd e = snd e'.
  Lemma add_group_rel k c c' gs gs' : R c c' -> Forall2 g_rel gs gs' -> Forall2 g_rel (add_group s k c gs) (add_group s k c' gs').
  Proof.
    intros Hc. induction 1 as [|[t ks] [t' ks'] l l' [H1 H2] F IH]; cbn [add_group]; [constructor; [split; auto|constructor]|]. cbn [fst snd] in *. subst ks'.
    rewrite (sh_teq s c c' t t') by auto. destruct (teq s c' t'); constructor; auto; split; auto.
  Qed.
  Lemma groups_rel cs cs' : Forall2 kc_rel cs cs' -> Forall2 g_rel (groups_of s cs) (groups_of s cs').
  Proof.
    intros F. unfold groups_of. assert (G : Forall2 g_rel [] []) by constructor. revert G. generalize (@nil (tree * list key)) at 1 3. generalize (@nil (tree * list key)).
    induction F as [|[k c] [k' c'] l l' [H1 H2] F IH]; intros g' g G; cbn [fold_left]; auto. cbn [fst snd] in *. subst. apply IH. now apply add_group_rel.
  Qed.
  Lemma rename_groups_rel p gs gs' : Forall2 g_rel gs gs' -> forall last, Forall2 g_rel (rename_groups p gs last) (rename_groups p gs' last).
  Proof.
    induction 1 as [|[t ks] [t' ks'] l l' [H1 H2] F IH]; intros last; cbn [rename_groups]; [constructor|]. cbn [fst snd] in *. subst ks'.
    assert (E : group_name p t last = group_name p t' last) by (unfold group_name; now rewrite (sh_ti s t t' H1)). rewrite E, (sh_ti s t t' H1).
    destruct (Nat.ltb 1 (List.length ks)); constructor; auto; split; auto. cbn. now apply sh_rename.
  Qed.
  Lemma before_none_rel {A B} (Q : A -> B -> Prop) (f : A -> key) (g : B -> key) l l' : (forall a b, Q a b -> f a = g b) -> Forall2 Q l l' -> Forall2 Q (before_none f l) (before_none g l').
  Proof. intros H. induction 1; cbn; auto. rewrite (H _ _ H0). destruct (g y); auto. Qed.
  Lemma share_rel p cs cs' : Forall2 kc_rel cs cs' -> Forall2 (entry_rel R) (share_groups s p cs) (share_groups s p cs').
  Proof.
    intros F. unfold share_groups. pose proof (rename_groups_rel p _ _ (groups_rel cs cs' F) []) as G.
    assert (V : map fst (before_none fst cs) = map fst (before_none fst cs')).
    { assert (F2 : Forall2 kc_rel (before_none fst cs) (before_none fst cs')) by (eapply before_none_rel; [|exact F]; now intros a b []).
      clear -F2. induction F2 as [|a b l l' [H _] F IH]; cbn; auto. now rewrite H, IH. }
    rewrite V. set (gs := rename_groups p (groups_of s cs) []) in *. set (gs' := rename_groups p (groups_of s cs') []) in *.
    eapply Forall2_map2; [|exact F]. intros [k c] [k' c'] [H1 H2]. cbn [fst snd] in *. subst k'.
    assert (Fd : forall l l', Forall2 g_rel l l' -> match find (fun g => existsb (key_eqb k) (snd g)) l, find (fun g => existsb (key_eqb k) (snd g)) l' with
                  | Some a, Some b => g_rel a b | None, None => True | _, _ => False end).
    { induction 1 as [|[t ks] [t' ks'] l l' [E1 E2] Fl IH]; cbn [find]; auto. cbn [fst snd] in *. subst ks'. destruct (existsb (key_eqb k) ks); auto. split; auto. }
    specialize (Fd gs gs' G). destruct (find _ gs) as [[t ks]|], (find _ gs') as [[t' ks']|]; try contradiction.
    - destruct Fd as [E1 E2]. cbn [fst snd] in *. subst. split; auto.
    - split; auto.
  Qed.
  Lemma height_rel cs cs' : Forall2 (entry_rel R) cs cs' -> height_of cs = height_of cs'.
  Proof.
    intros F. unfold height_of. do 2 f_equal. assert (F2 : Forall2 (entry_rel R) (iter_entries cs) (iter_entries cs')).
    { eapply before_none_rel; [|exact F]. intros a b [H _]. unfold ekey. now rewrite H. }
    induction F2 as [|a b l l' [_ H] F2 IH]; cbn; auto. unfold etree at 1 3. now rewrite (sh_height s _ _ H), IH.
  Qed.
  Lemma before_all {A} (f : A -> key) l : Forall (fun a => f a = no_key) l -> before_none f l = l.
  Proof. induction 1 as [|a l H F IH]; cbn; auto. now rewrite H, IH. Qed.
  Lemma maxl_perm l m : Permutation l m -> maxl l = maxl m.
  Proof. induction 1; cbn in *; auto; unfold maxl in *; lia. Qed.
  Lemma height_P2 cs cs' : P2 (entry_rel R) cs cs' -> Forall (fun e => ekey e = no_key) cs -> height_of cs = height_of cs'.
  Proof.
    intros (m & P & F) N. assert (Nm : Forall (fun e => ekey e = no_key) m) by (rewrite Forall_forall in *; intros e He; apply N; eapply Permutation_in; [symmetry; exact P|exact He]).
    rewrite <- (height_rel m cs' F). unfold height_of, iter_entries. rewrite !before_all by auto. f_equal. apply maxl_perm. now apply Permutation_map.
  Qed.

  Definition apart (v : pyval) : Prop := is_td_strategy s = false \/ dicts_apart v = true.
  Lemma limit_incl {A} (l : list A) x : In x (limit s l) -> In x l.
  Proof.
    unfold limit. destruct (effective_limit s) as [n|]; auto. revert n. induction l as [|a l IH]; intros [|n]; cbn; auto; try tauto. intros [->|H]; eauto.
  Qed.
  Lemma build_no_td f name d r v t : is_td_strategy s = false \/ is_dict v = false -> build s ord f name d r v = Ok t -> is_td s t = false.
  Proof.
    intros [NT|N] H.
    - unfold is_td, node_is_typed_dict. destruct (tkind t); auto. unfold is_typed_dict. rewrite NT. apply andb_false_r.
    - assert (L : forall k ty, match k with NDict _ _ => False | _ => True end -> leaf name d r k ty = Ok t -> is_td s t = false).
      { intros k ty K. unfold leaf. destruct (is_compatible name); [|discriminate]. intros E. injection E as <-. destruct k; auto. contradiction. }
      destruct f, v as [| | | | | | |k ty l|k ty l]; cbn [build] in H; try (eapply L; [|exact H]; exact I).
      + destruct (negb _); discriminate.
      + destruct k; try discriminate. destruct (negb _); discriminate.
      + destruct (negb _); [discriminate|]. match type of H with bind ?x _ = _ => destruct x; try discriminate end. injection H as <-. reflexivity.
      + destruct k; try discriminate. destruct (negb _); [discriminate|]. match type of H with bind ?x _ = _ => destruct x; try discriminate end. injection H as <-. reflexivity.
  Qed.
  Lemma build_rel : forall f name d r v, apart v -> res_rel R (build s ord f name d r v) (build s ord' f name d r v).
  Proof.
    assert (Leaf : forall name d r k t, res_rel R (leaf name d r k t) (leaf name d r k t)).
    { intros. unfold leaf. destruct (is_compatible name); cbn; auto. apply sh_refl. }
    induction f as [|f IH]; intros name d r v Ap; destruct v as [| | | | | | |k t l|k t l]; cbn [build]; auto.
    - destruct (negb _); cbn; auto.
    - destruct k; cbn; auto. destruct (negb _); cbn; auto.
    - destruct (negb _); [reflexivity|].
      set (bd := fun n d0 => build s ord f n (S d) false (exhaust (VMap MDict ty_dict d0))). set (bd' := fun n d0 => build s ord' f n (S d) false (exhaust (VMap MDict ty_dict d0))).
      assert (Els : forall n x, In x (limit s l) -> res_rel Rn (build s ord f n (S d) false x) (build s ord' f n (S d) false x)).
      { intros n x Hx. apply limit_incl in Hx. assert (A : apart x /\ (is_td_strategy s = false \/ is_dict x = false)).
        { destruct Ap as [Ap|Ap]; [split; now left|]. cbn [dicts_apart] in Ap. rewrite forallb_forall in Ap. specialize (Ap x Hx). apply andb_true_iff in Ap as [A1 A2].
          apply negb_true_iff in A1. split; right; auto. }
        destruct A as [A1 A2]. pose proof (IH n (S d) false x A1) as H. pose proof (fun t => build_no_td f n (S d) false x t A2) as N.
        destruct (build s ord f n (S d) false x), (build s ord' f n (S d) false x); cbn in *; auto. split; auto. }
      assert (BS : unordered s (NSeq k) = true -> res_rel R
         (bind (bind (build_set s (fun n x => build s ord f n (S d) false x) name (limit s l) ([], [])) (merge_set s ord bd)) (fun cs => Ok (inner name d r (NSeq k) t cs)))
         (bind (bind (build_set s (fun n x => build s ord' f n (S d) false x) name (limit s l) ([], [])) (merge_set s ord' bd')) (fun cs => Ok (inner name d r (NSeq k) t cs)))).
      { intros U. eapply bind_rel; [eapply bind_rel; [apply build_set_rel; [exact Els|constructor]|intros; now apply merge_set_rel]|].
        intros cs cs' [P N]. unfold inner. rewrite (height_P2 cs cs') by auto. destruct P as (m & P & F). cbn [res_rel].
        apply sh_intro with m; auto. }
      assert (BL : res_rel R
         (bind (bind (build_list s (fun n x => build s ord f n (S d) false x) name (limit s l) [] []) (merge_list s bd)) (fun cs => Ok (inner name d r (NSeq k) t cs)))
         (bind (bind (build_list s (fun n x => build s ord' f n (S d) false x) name (limit s l) [] []) (merge_list s bd')) (fun cs => Ok (inner name d r (NSeq k) t cs)))).
      { eapply bind_rel; [eapply bind_rel; [apply build_list_rel; [exact Els|constructor|constructor]|intros; now apply merge_list_rel]|].
        intros cs cs' F. unfold inner. rewrite (height_rel cs cs') by auto. cbn [res_rel]. now apply sh_same. }
      destruct k; auto. destruct (s_tuple s) eqn:T; auto. apply BS. cbn. now rewrite T.
    - assert (V : forall kvs', incl kvs' l -> res_rel (Forall2 kc_rel) (build_values (fun n x => build s ord f n (S d) false x) name kvs') (build_values (fun n x => build s ord' f n (S d) false x) name kvs')).
      { intros kvs' I. apply build_values_rel. intros n key x Hx. apply IH. destruct Ap as [Ap|Ap]; [now left|right]. cbn [dicts_apart] in Ap. rewrite forallb_forall in Ap.
        apply (Ap (key, x)), I, Hx. }
      assert (Il : incl (limit s l) l) by (intros x; apply limit_incl). assert (Il2 : incl (if is_td_strategy s then l else limit s l) l) by (destruct (is_td_strategy s); auto using incl_refl).
      destruct k; [|destruct (negb _); [reflexivity|]]; (eapply bind_rel; [apply V; assumption|]); intros cs cs' F; cbn [res_rel]; unfold inner;
        rewrite (height_rel _ _ (share_rel name cs cs' F)); apply sh_same; now apply share_rel.
  Qed.
End Order.

(** ** Declarations *)
Definition out_rel (o o' : out) : Prop := fst o = fst o' /\ forall x, In x (snd o) <-> In x (snd o').
Lemma sh_perm s t t' : shuffled s t t' -> perm s t = perm s t'.
Proof. intros H. unfold perm, tkind, theight. now rewrite (sh_ti s t t' H). Qed.
Lemma or_any_perm l l' : Permutation l l' -> Permutation (or_any l) (or_any l').
Proof.
  intros P. destruct l as [|a l]; [apply Permutation_nil in P; now subst|]. destruct l' as [|b l']; [symmetry in P; now apply Permutation_nil in P|]. exact P.
Qed.
Lemma any_import_perm l l' : Permutation l l' -> any_import l = any_import l'.
Proof.
  intros P. destruct l as [|a l]; [apply Permutation_nil in P; now subst|]. destruct l' as [|b l']; [symmetry in P; now apply Permutation_nil in P|]. reflexivity.
Qed.
Lemma mem_perm x l l' : Permutation l l' -> mem x l = mem x l'.
Proof.
  intros P. apply eq_true_iff_eq. unfold mem. rewrite !existsb_exists. split; intros (y & Hy & E); exists y; split; auto; eapply Permutation_in; try exact Hy; auto. now symmetry.
Qed.
Lemma union_members_perm l l' : Permutation l l' -> union_members l = union_members l'.
Proof.
  intros P. unfold union_members. rewrite !(mem_perm _ l l' P). rewrite (sort_dedup_ext l l'); auto.
  intros x. split; apply Permutation_in; auto. now symmetry.
Qed.
Lemma types_of_perm l l' : Permutation l l' -> types_of l = types_of l'.
Proof. intros P. unfold types_of. now rewrite (union_members_perm _ _ (or_any_perm _ _ P)), (any_import_perm _ _ P). Qed.
Lemma tuple_types_perm l l' : Permutation l l' -> tuple_types_of TAnySize l = tuple_types_of TAnySize l'.
Proof. intros P. unfold tuple_types_of. now rewrite (union_members_perm _ _ (or_any_perm _ _ P)), (any_import_perm _ _ P). Qed.

Definition child_rel (s : strategies) (c c' : child_out) : Prop := fst c = fst c' /\ shuffled s (fst (snd c)) (fst (snd c')) /\ out_rel (snd (snd c)) (snd (snd c')).
Lemma child_type_rel s c c' : child_rel s c c' -> out_rel (child_type s c) (child_type s c').
Proof.
  intros (E & H & [T I]). unfold child_type. rewrite (sh_perm s _ _ H), (sh_name s _ _ H). destruct (perm s _); split; cbn [fst snd]; auto; [tauto|now rewrite T].
Qed.
Lemma outs_strings_rel l l' : Forall2 out_rel l l' -> outs_strings l = outs_strings l'.
Proof. unfold outs_strings. induction 1 as [|a b l l' [H _] F IH]; cbn; auto. now rewrite H, IH. Qed.
Lemma outs_imports_rel l l' : Forall2 out_rel l l' -> forall x, In x (outs_imports l) <-> In x (outs_imports l').
Proof. unfold outs_imports. induction 1 as [|a b l l' [_ H] F IH]; intros x; cbn; [tauto|]. rewrite !in_app_iff, H, IH. tauto. Qed.

Lemma parse_dict_rel s i cs cs' vs vs' : Forall2 (child_rel s) cs cs' -> Forall2 (child_rel s) vs vs' -> out_rel (parse_dict s i cs vs) (parse_dict s i cs' vs').
Proof.
  intros F G. unfold parse_dict. destruct (map_container s (i_kind i) (i_type i)) as [c ci].
  assert (G2 : Forall2 out_rel (map (child_type s) vs) (map (child_type s) vs')) by (eapply Forall2_map2; [|exact G]; intros; now apply child_type_rel).
  rewrite (outs_strings_rel _ _ G2). pose proof (outs_imports_rel _ _ G2) as I.
  destruct F as [|a b l l' H F].
  - destruct (format_types _) as [ks ki]. destruct (types_of _) as [v vi]. split; [reflexivity|]. intros x. cbn [snd]. rewrite !in_app_iff, I. tauto.
  - match goal with |- context [@map ?A ?B ?f (b :: l')] => assert (K : @map A B f (a :: l) = @map A B f (b :: l')) end.
    { cbn [map]. destruct H as [H _]. rewrite H. f_equal. clear -F. induction F as [|a b l l' [H _] F IH]; cbn [map]; auto. now rewrite H, IH. }
    cbv zeta. rewrite K. destruct (format_types _) as [ks ki]. destruct (types_of _) as [v vi]. split; [reflexivity|]. intros x. cbn [snd]. rewrite !in_app_iff, I. tauto.
Qed.

Lemma parse_typed_dict_rel s i data m cs cs' : Forall2 (child_rel s) cs cs' -> out_rel (parse_typed_dict s i data m cs) (parse_typed_dict s i data m cs').
Proof.
  intros F. unfold parse_typed_dict.
  match goal with |- context [@map ?A ?B ?f cs] => set (g := f) end.
  assert (G : Forall2 (fun a b : string * (string * list string) => fst a = fst b /\ out_rel (snd a) (snd b)) (map g cs) (map g cs')).
  { eapply Forall2_map2; [|exact F]. intros [k [t [o oi]]] [k' [t' [o' oi']]] (E & H & [T I]). cbn [fst snd] in E, H, T, I. subst k' o'. unfold g. cbv beta zeta. cbn [fst snd]. rewrite (sh_perm s _ _ H), (sh_name s _ _ H).
    split; [reflexivity|]. destruct (perm s _); cbn [fst snd]; [split; [reflexivity|intros; tauto]|]. unfold out_rel. cbn [fst snd]. split; [reflexivity|].
    intros x. rewrite !in_app_iff, I. tauto. }
  split; cbn [fst snd].
  - f_equal. clear -G. induction G as [|[a [b c]] [a' [b' c']] l l' (H & T & _) F IH]; cbn [map]; [reflexivity|]. cbn [fst snd] in *. subst. now rewrite IH.
  - intros x. cbn [In]. assert (Q : In x (flat_map (fun f => snd (snd f)) (map g cs)) <-> In x (flat_map (fun f => snd (snd f)) (map g cs'))); [|tauto].
    clear -G. induction G as [|[a [b c]] [a' [b' c']] l l' (H & _ & T) F IH]; cbn [flat_map]; [tauto|]. cbn [fst snd] in *. rewrite !in_app_iff, T, IH. tauto.
Qed.

Lemma sh_top s t : forall t', shuffled s t t' -> out_rel (top s t) (top s t').
Proof.
  induction t as [i cs IH] using tree_ind'. rewrite Forall_forall in IH. intros t' H. apply sh_inv in H as (i0 & cs0 & m & cs' & E & -> & U & P & F).
  injection E as <- <-. cbn [top].
  set (g := fun e : key * nat * tree => (fst (fst e), (snd e, top s (snd e)))).
  assert (F' : Forall2 (child_rel s) (map g m) (map g cs')).
  { eapply Forall2_map2; [|eapply Forall2_In_imp; [|exact F]]; [intros a b H; exact H|]. intros e e' He [E R]. unfold child_rel, g. cbn [fst snd]. rewrite E.
    repeat split; auto; apply (IH e); auto; eapply Permutation_in; try (symmetry; exact P); exact He. }
  assert (B : forall l l', Forall2 (child_rel s) l l' -> Forall2 (child_rel s) (before_none fst l) (before_none fst l')).
  { intros l l' Fl. eapply before_none_rel; [|exact Fl]. now intros a b []. }
  assert (Any : forall l l', Forall2 (child_rel s) l l' -> Forall2 out_rel (map (child_type s) l) (map (child_type s) l')).
  { intros l l' Fl. eapply Forall2_map2; [|exact Fl]. intros; now apply child_type_rel. }
  destruct U as [[U N]|U].
  - (* unordered *)
    destruct (i_kind i) as [|f|c| | |d|k| |data mm] eqn:K; try discriminate U.
    assert (Nm : Forall (fun e => ekey e = no_key) m) by (rewrite Forall_forall in *; intros e He; apply N; eapply Permutation_in; [symmetry; exact P|exact He]).
    assert (Nk : forall l : list (key * nat * tree), Forall (fun e => ekey e = no_key) l -> Forall (fun c : child_out => fst c = no_key) (map g l)).
    { intros l Hl. rewrite Forall_forall in *. intros c Hc. apply in_map_iff in Hc as (e & <- & He). apply (Hl e He). }
    assert (Nc : Forall (fun c : child_out => fst c = no_key) (map g cs')).
    { pose proof (Nk m Nm) as Q. clear -F' Q. induction F' as [|a b l l' [H _] F IH]; inversion Q; subst; constructor; auto. congruence. }
    rewrite !before_all by auto. 
    assert (PS : Permutation (outs_strings (map (child_type s) (map g cs))) (outs_strings (map (child_type s) (map g cs')))).
    { rewrite <- (outs_strings_rel _ _ (Any _ _ F')). unfold outs_strings. now repeat apply Permutation_map. }
    assert (IS : forall x, In x (outs_imports (map (child_type s) (map g cs))) <-> In x (outs_imports (map (child_type s) (map g cs')))).
    { intros x. rewrite <- (outs_imports_rel _ _ (Any _ _ F')). unfold outs_imports. split; apply Permutation_in, Permutation_flat_map; repeat apply Permutation_map; auto. now symmetry. }
    destruct (seq_container s k (i_type i)) as [c ci].
    assert (Q : match k with KTuple => tuple_types_of (s_tuple s) (outs_strings (map (child_type s) (map g cs))) | _ => types_of (outs_strings (map (child_type s) (map g cs))) end
              = match k with KTuple => tuple_types_of (s_tuple s) (outs_strings (map (child_type s) (map g cs'))) | _ => types_of (outs_strings (map (child_type s) (map g cs'))) end).
    { destruct k; try (apply types_of_perm; exact PS). cbn in U. destruct (s_tuple s); [discriminate|]. now apply tuple_types_perm. }
    rewrite Q. clear Q. destruct (match k with KTuple => _ | _ => _ end) as [ins ii]. split; [reflexivity|]. intros x. cbn [snd]. rewrite !in_app_iff, IS. tauto.
  - subst m. destruct (i_kind i) as [|f|c| | |d|k| |data mm] eqn:K; try (split; [reflexivity|intros; tauto]).
    + rewrite (outs_strings_rel _ _ (Any _ _ (B _ _ F'))). pose proof (outs_imports_rel _ _ (Any _ _ (B _ _ F'))) as I.
      destruct (seq_container s k (i_type i)) as [c ci]. destruct (match k with KTuple => _ | _ => _ end) as [ins ii]. split; [reflexivity|].
      intros x. cbn [snd]. rewrite !in_app_iff, I. tauto.
    + apply parse_dict_rel; auto.
    + destruct (is_typed_dict s mm); [now apply parse_typed_dict_rel|apply parse_dict_rel; auto].
Qed.

Lemma P2_flat_map {A B} (R : A -> A -> Prop) (Q : B -> B -> Prop) (f : A -> list B) l l' : Forall2 R l l' -> (forall a b, In a l -> R a b -> P2 Q (f a) (f b)) -> P2 Q (flat_map f l) (flat_map f l').
Proof.
  induction 1; intros H1; cbn; [exists []; auto|]. apply P2_app; [apply H1; auto using in_eq|]. apply IHForall2. intros; apply H1; auto. now right.
Qed.
Lemma sh_collect s t : forall t', shuffled s t t' -> P2 (shuffled s) (collect s t) (collect s t').
Proof.
  induction t as [i cs IH] using tree_ind'. rewrite Forall_forall in IH. intros t' H. pose proof H as H0. apply sh_inv in H as (i0 & cs0 & m & cs' & E & -> & U & P & F).
  injection E as <- <-. cbn [collect]. rewrite <- (sh_perm s _ _ H0).
  assert (Last : P2 (shuffled s) (if perm s (Node i cs) then [Node i cs] else []) (if perm s (Node i cs) then [Node i cs'] else [])).
  { apply P2_Forall2. destruct (perm s (Node i cs)); auto. }
  destruct cs as [|e0 cs].
  - apply Permutation_nil in P. subst m. inversion F; subst. apply P2_Forall2. destruct (_ && _); auto.
  - destruct cs' as [|e1 cs']; [inversion F; subst; apply Permutation_sym, Permutation_nil in P; discriminate|].
    set (l := e0 :: cs) in *. set (l' := e1 :: cs') in *. apply P2_app; auto.
    set (g := fun e : key * nat * tree => (fst (fst e), (collect s (snd e) ++ (if perm s (snd e) then [snd e] else []))%list)).
    assert (G : forall e e', In e l -> entry_rel (shuffled s) e e' -> fst (g e) = fst (g e') /\ P2 (shuffled s) (snd (g e)) (snd (g e'))).
    { intros e e' He [E R]. unfold g. cbn [fst snd]. rewrite E. split; auto. rewrite (sh_perm s _ _ R). apply P2_app; [now apply IH|]. apply P2_Forall2. destruct (perm s (snd e')); auto. }
    set (Rg := fun a b : key * list tree => fst a = fst b /\ P2 (shuffled s) (snd a) (snd b)).
    assert (FG : Forall2 Rg (map g m) (map g l')).
    { eapply Forall2_map2; [|eapply Forall2_In_imp; [|exact F]]; [intros a b H; exact H|]. intros e e' He R. apply G; auto. eapply Permutation_in; [symmetry; exact P|exact He]. }
    assert (FF : forall a b, Forall2 Rg a b -> P2 (shuffled s) (flat_map (fun x => snd x) a) (flat_map (fun x => snd x) b)).
    { induction 1 as [|x y a b [_ H] Fa IHa]; cbn; [exists []; auto|]. now apply P2_app. }
    destruct U as [[_ N]|U].
    + assert (Nm : Forall (fun e => ekey e = no_key) m) by (rewrite Forall_forall in *; intros e He; apply N; eapply Permutation_in; [symmetry; exact P|exact He]).
      assert (Nk : forall a : list (key * nat * tree), Forall (fun e => ekey e = no_key) a -> Forall (fun c : key * list tree => fst c = no_key) (map g a)).
      { intros a Ha. rewrite Forall_forall in *. intros c Hc. apply in_map_iff in Hc as (e & <- & He). apply (Ha e He). }
      assert (Nc : Forall (fun c : key * list tree => fst c = no_key) (map g l')).
      { pose proof (Nk m Nm) as Q. clear -FG Q. induction FG as [|a b la lb [H _] Fa IH]; inversion Q; subst; constructor; auto. congruence. }
      rewrite !before_all by auto. apply P2_perm with (flat_map (fun x => snd x) (map g m)); [|now apply FF].
      apply Permutation_flat_map. now apply Permutation_map.
    + subst m. apply FF. eapply before_none_rel; [|exact FG]. now intros a b [].
Qed.

Lemma dedup_list_spec l : NoDup (oset_as_list (oset_adds String.eqb l oset_empty)) /\ forall x, In x (oset_as_list (oset_adds String.eqb l oset_empty)) <-> In x l.
Proof.
  destruct (oset_adds_spec String.eqb String.eqb_eq l oset_empty (oset_ok_empty)) as ([H _] & G & _). split; [exact H|].
  intros x. unfold oset_as_list. rewrite G. cbn. tauto.
Qed.
Lemma P2_In_iff {A} (R : A -> A -> Prop) l l' : P2 R l l' -> (forall x, In x l -> exists y, In y l' /\ R x y) /\ (forall y, In y l' -> exists x, In x l /\ R x y).
Proof.
  intros (m & P & F). split; intros x H.
  - apply (Forall2_In_l _ _ _ _ F). eapply Permutation_in; eauto.
  - destruct (Forall2_In_r _ _ _ _ F H) as (y & Hy & Ry). exists y. split; auto. eapply Permutation_in; [symmetry; exact P|exact Hy].
Qed.
Lemma sh_declarations s t t' : shuffled s t t' ->
  match declarations s t, declarations s t' with Some ds, Some ds' => Permutation ds ds' | None, None => True | _, _ => False end.
Proof.
  intros H. pose proof (sh_collect s t t' H) as C. apply P2_In_iff in C as [C1 C2]. unfold declarations.
  assert (E : existsb function_fails (collect s t) = existsb function_fails (collect s t')).
  { apply eq_true_iff_eq. rewrite !existsb_exists. split; intros (x & Hx & Fx).
    - destruct (C1 x Hx) as (y & Hy & R). exists y. split; auto. unfold function_fails, tkind in *. now rewrite <- (sh_ti s x y R).
    - destruct (C2 x Hx) as (y & Hy & R). exists y. split; auto. unfold function_fails, tkind in *. now rewrite (sh_ti s y x R). }
  rewrite E. destruct (existsb function_fails (collect s t')); auto.
  destruct (dedup_list_spec (map (fun n => fst (top s n)) (collect s t))) as [N1 I1]. destruct (dedup_list_spec (map (fun n => fst (top s n)) (collect s t'))) as [N2 I2].
  apply NoDup_Permutation; auto. intros x. rewrite I1, I2, !in_map_iff. split; intros (n & <- & Hn).
  - destruct (C1 n Hn) as (y & Hy & R). exists y. split; auto. symmetry. apply (sh_top s n y R).
  - destruct (C2 n Hn) as (y & Hy & R). exists y. split; auto. apply (sh_top s y n R).
Qed.
Lemma sh_imports s t t' n : shuffled s t t' -> format_imports n (recorded_imports s t) = format_imports n (recorded_imports s t').
Proof.
  intros H. pose proof (sh_collect s t t' H) as C. apply P2_In_iff in C as [C1 C2]. unfold recorded_imports.
  assert (N : forall l, NoDup (imp_adds l [])) by (intros; apply imp_adds_NoDup; constructor).
  apply format_imports_perm; auto. apply NoDup_Permutation; auto. intros x. rewrite !imp_adds_In, !in_flat_map. cbn [In].
  split; (intros [(y & Hy & Hx)|[]]; left).
  - destruct (C1 y Hy) as (z & Hz & R). exists z. split; auto. now apply (sh_top s y z R).
  - destruct (C2 y Hy) as (z & Hz & R). exists z. split; auto. now apply (sh_top s z y R).
Qed.
