(** Facts about OrderedSet, strategies, dispatch and the per-instance cache. *)
From Coq Require Import Ascii String List Bool Arith Lia ZArith.
From Verif Require Import PyStr PyStrFacts Utils Strategies Dispatch.
Import ListNotations.

(** ** OrderedSet *)
Section OSet.
  Context {A : Type} (eqb : A -> A -> bool) (eqb_eq : forall x y, eqb x y = true <-> x = y).

  Definition oset_ok (s : oset A) : Prop :=
    NoDup (lst s) /\ forall x, In x (elements_added s) <-> In x (lst s).

  Lemma existsb_eqb x l : existsb (eqb x) l = true <-> In x l.
  Proof.
    rewrite existsb_exists. split.
    - intros (y & H & E). apply eqb_eq in E. now subst.
    - intros H. exists x. split; auto. now apply eqb_eq.
  Qed.

  Lemma oset_add_spec x s :
    oset_ok s ->
    oset_ok (oset_add eqb x s) /\
    (forall y, In y (lst (oset_add eqb x s)) <-> y = x \/ In y (lst s)) /\
    (exists t, lst (oset_add eqb x s) = lst s ++ t).
  Proof.
    intros [Hn He]. unfold oset_add. destruct (existsb (eqb x) (elements_added s)) eqn:E.
    - apply existsb_eqb in E. apply He in E. repeat split; auto; try apply He.
      + intros [->|H]; auto.
      + exists []. now rewrite app_nil_r.
    - assert (Hx : ~ In x (lst s)).
      { intros H. apply He, existsb_eqb in H. congruence. }
      repeat split; simpl.
      + 
        apply Permutation.Permutation_NoDup with (x :: lst s); [|now constructor].
        apply Permutation.Permutation_cons_append.
      + rewrite in_app_iff. simpl. rewrite He. tauto.
      + rewrite in_app_iff. simpl. rewrite He. intros [H|[H|[]]]; auto.
      + rewrite in_app_iff. simpl. intros [H|[H|[]]]; auto.
      + rewrite in_app_iff. simpl. intros [->|H]; auto.
      + eauto.
  Qed.

  Lemma oset_adds_spec l s :
    oset_ok s ->
    oset_ok (oset_adds eqb l s) /\
    (forall y, In y (lst (oset_adds eqb l s)) <-> In y l \/ In y (lst s)) /\
    (exists t, lst (oset_adds eqb l s) = lst s ++ t).
  Proof.
    revert s; induction l as [|x l IH]; intros s Hs; simpl.
    - split; auto. split; [tauto|]. exists []. now rewrite app_nil_r.
    - destruct (oset_add_spec x s Hs) as (H1 & H2 & t & H3).
      destruct (IH _ H1) as (H4 & H5 & t' & H6). split; auto. split.
      + intros y. rewrite H5, H2. split; intros [H|H]; auto; destruct H; auto.
      + exists (t ++ t'). now rewrite H6, H3, app_assoc.
  Qed.

  Lemma oset_ok_empty : oset_ok oset_empty.
  Proof. split; [constructor | tauto]. Qed.

  Lemma oset_adds_app l1 l2 s : oset_adds eqb (l1 ++ l2) s = oset_adds eqb l2 (oset_adds eqb l1 s).
  Proof. unfold oset_adds. apply fold_left_app. Qed.
End OSet.

(** ** Strategies *)
Definition documented (s : raw_strategies) : Prop :=
  (r_list s = "Sequence"%string \/ r_list s = "list"%string) /\
  (r_tuple s = "fixed"%string \/ r_tuple s = "any size"%string) /\
  (r_dict s = "TypedDict"%string \/ r_dict s = "Mapping"%string \/ r_dict s = "dict"%string) /\
  (r_pandas s = "Full type hint"%string \/ r_pandas s = "Type hint only for autocomplete"%string
   \/ r_pandas s = "Do not type hint columns"%string) /\
  (0 <= r_min_height s)%Z /\ (1 <= r_merge s <= 100)%Z.

Lemma mem2 x a b : mem x [a; b] = true <-> x = a \/ x = b.
Proof. rewrite mem_spec. simpl. intuition. Qed.
Lemma mem3 x a b c : mem x [a; b; c] = true <-> x = a \/ x = b \/ x = c.
Proof. rewrite mem_spec. simpl. intuition. Qed.

Lemma post_init_spec s :
  post_init s = None <-> documented s /\ match r_max_n s with None => True | Some n => (0 <= n)%Z end.
Proof.
  unfold post_init, documented, LIST_STRATEGIES, TUPLE_SIZE_STRATEGIES, MAPPING_STRATEGIES, PANDAS_STRATEGIES.
  rewrite <- !mem3, <- !mem2.
  match goal with |- context [mem (r_list s) ?l] => destruct (mem (r_list s) l) end; cbn [negb]; [|split; [discriminate|intuition discriminate]].
  match goal with |- context [mem (r_tuple s) ?l] => destruct (mem (r_tuple s) l) end; cbn [negb]; [|split; [discriminate|intuition discriminate]].
  match goal with |- context [mem (r_dict s) ?l] => destruct (mem (r_dict s) l) end; cbn [negb]; [|split; [discriminate|intuition discriminate]].
  match goal with |- context [mem (r_pandas s) ?l] => destruct (mem (r_pandas s) l) end; cbn [negb]; [|split; [discriminate|intuition discriminate]].
  destruct (Z.ltb_spec (r_min_height s) 0); [split; [discriminate|intuition lia]|].
  destruct (Z.leb_spec (r_merge s) 0); [split; [discriminate|intuition lia]|].
  destruct (Z.ltb_spec 100 (r_merge s)); [split; [discriminate|intuition lia]|].
  destruct (r_max_n s) as [n|]; [|split; intros; auto; intuition lia].
  destruct (Z.eqb_spec n 0); simpl; [subst; split; intros; auto; intuition lia|].
  destruct (Z.leb_spec n 0); split; intros; try discriminate; intuition lia.
Qed.

(** ** Dispatch *)
Lemma lookup_some t tbl p : lookup t tbl = Some p -> In (t, p) tbl.
Proof.
  unfold lookup. destruct (find (fun e => Nat.eqb (fst e) t) tbl) as [[t' p']|] eqn:E; simpl; [|discriminate].
  intros H; injection H as <-. apply find_some in E as [H1 H2]. simpl in H2.
  apply Nat.eqb_eq in H2. now subst.
Qed.

Definition registry_ok (r : registry) : Prop :=
  forall t p, In (t, p) (subclasses r) -> In t (wraps r p).

Lemma register_wraps_ok obj p ws tbl tbl' :
  register_wraps obj p ws tbl = Some tbl' ->
  (forall t q, In (t, q) tbl' -> In (t, q) tbl \/ (q = p /\ In t ws)) /\
  (forall t q, In (t, q) tbl -> In (t, q) tbl') /\
  (forall t, In t ws -> t <> obj -> In (t, p) tbl').
Proof.
  revert tbl; induction ws as [|w ws IH]; simpl; intros tbl H.
  - injection H as <-. repeat split; auto. intros ? [].
  - destruct (Nat.eqb_spec w obj).
    + destruct (IH _ H) as (H1 & H2 & H3). repeat split; auto.
      * intros t q Hq. destruct (H1 _ _ Hq) as [?|[? ?]]; auto.
      * intros t [->|Ht] Ho; [congruence|auto].
    + destruct (existsb (fun e => Nat.eqb (fst e) w) tbl); [discriminate|].
      destruct (IH _ H) as (H1 & H2 & H3). repeat split.
      * intros t q Hq. destruct (H1 _ _ Hq) as [Hq'|[? ?]]; auto.
        apply in_app_iff in Hq' as [?|[E|[]]]; auto. injection E as -> ->. auto.
      * intros t q Hq. apply H2, in_app_iff; auto.
      * intros t [->|Ht] Ho; [|auto]. apply H2, in_app_iff. right. now left.
Qed.

Lemma register_wraps_nodup obj p ws tbl tbl' :
  register_wraps obj p ws tbl = Some tbl' -> NoDup (map fst tbl) -> NoDup (map fst tbl').
Proof.
  revert tbl; induction ws as [|w ws IH]; simpl; intros tbl H N.
  - now injection H as <-.
  - destruct (Nat.eqb w obj); [eauto|].
    destruct (existsb (fun e => Nat.eqb (fst e) w) tbl) eqn:E; [discriminate|]. apply (IH _ H).
    rewrite map_app. simpl. apply Permutation.Permutation_NoDup with (w :: map fst tbl).
    + apply Permutation.Permutation_cons_append.
    + constructor; auto. intros Hin. apply in_map_iff in Hin as ([t q] & <- & Hin).
      assert (existsb (fun e => Nat.eqb (fst e) t) tbl = true); [|simpl in *; congruence].
      apply existsb_exists. exists (t, q). simpl. rewrite Nat.eqb_refl. auto.
Qed.

Lemma register_all_ok obj ps tbl tbl' :
  register_all obj ps tbl = Some tbl' ->
  (forall t q, In (t, q) tbl' -> In (t, q) tbl \/ exists ws, In (q, ws) ps /\ In t ws) /\
  (forall t q, In (t, q) tbl -> In (t, q) tbl') /\
  (forall t q ws, In (q, ws) ps -> In t ws -> t <> obj -> In (t, q) tbl').
Proof.
  revert tbl; induction ps as [|[p ws] ps IH]; simpl; intros tbl H.
  - injection H as <-. repeat split; auto. intros ? ? ? [].
  - destruct (register_wraps obj p ws tbl) eqn:E; [|discriminate].
    destruct (register_wraps_ok _ _ _ _ _ E) as (H1 & H2 & H3).
    destruct (IH _ H) as (H4 & H5 & H6). repeat split.
    + intros t q Hq. destruct (H4 _ _ Hq) as [Hq'|(ws' & ? & ?)]; [|eauto].
      destruct (H1 _ _ Hq') as [?|[-> ?]]; eauto.
    + auto.
    + intros t q ws' [E'|Hin] Ht Ho; [injection E' as -> ->; auto | eauto].
Qed.

(** ** Cache *)
Lemma cached_calls_some {A R} (f : A -> R) r args : cached_calls f (Some r) args = repeat r (List.length args).
Proof. induction args; simpl; auto. now rewrite IHargs. Qed.
Lemma cached_calls_none {A R} (f : A -> R) a args :
  cached_calls f None (a :: args) = repeat (f a) (S (List.length args)).
Proof. simpl. now rewrite cached_calls_some. Qed.
