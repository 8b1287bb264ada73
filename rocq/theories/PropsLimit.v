(** C16 (element limit) and C34 (the data is left untouched). *)
From Coq Require Import Ascii String List Bool Arith Lia Permutation.
From Verif Require Import PyStr PyStrFacts Utils Strategies Imports Dispatch Values Tree Build Emit TreeFacts SpecData BuildFacts TotalFacts AlikeFacts GroupFacts DataMap SpecLimit LimitFacts WalkFacts Samples.
Import ListNotations.
Local Open Scope string_scope.

(** ** C16: the tree depends on the first [n] elements of every container only.
    Full claim: this holds for all data.  Proved for all data whose iterators have at most n+1 elements, and for all data
    unless dicts become TypedDicts; missing: longer iterators inside of merged TypedDicts, where it is false of the code
    ([C16_second_pass_refuted]): the merged dict is built from values that were walked before.
    [bare]: the trees are equal but for the values that dict nodes keep; these do not show in the declarations. *)
Definition same_result (s : strategies) (r r' : res tree) : Prop :=
  match r, r' with
  | Ok t, Ok u => bare t = bare u /\ forall include_imports, to_string s t include_imports = to_string s u include_imports
  | Err e, Err e' => e = e'
  | _, _ => False
  end.

Lemma same_result_refl s r : r <> OutOfFuel -> same_result s r r.
Proof. destruct r; cbn; auto. Qed.
Lemma rmap_same s g r : (forall v, type_of (g v) = type_of v) -> (forall v d, g v = VStr d <-> v = VStr d) -> r <> OutOfFuel -> same_result s r (rmap (tmap g) r).
Proof.
  intros G1 G2 N. destruct r as [t|e|]; cbn; auto. split.
  - symmetry. apply bare_tmap. intros v. assert (Q : (exists d, v = VStr d) \/ forall d, v <> VStr d) by (destruct v; [left; eauto|right; discriminate..]).
    destruct Q as [(d & ->)|Q]; [now rewrite (proj2 (G2 (VStr d) d) eq_refl)|].
    assert (Q' : forall d, g v <> VStr d) by (intros d E; apply (Q d), G2, E).
    assert (B : forall x, (forall d, x <> VStr d) -> bare_value x = VInst (type_of x)) by (intros x Hx; destruct x; auto; now contradiction (Hx s0)).
    now rewrite !B, G1 by auto.
  - intros b. symmetry. now apply to_string_tmap.
Qed.
Lemma same_trans s a b c : same_result s a b -> same_result s b c -> same_result s a c.
Proof. destruct a, b, c; cbn; try tauto; try congruence. intros [E1 T1] [E2 T2]. split; [congruence|]. intros i. now rewrite T1, T2. Qed.
Lemma same_sym s a b : same_result s a b -> same_result s b a.
Proof. destruct a, b; cbn; try tauto; try congruence. intros [E T]. split; auto. Qed.
Lemma from_data_oof s ord v n : set_like ord -> from_data s ord v n <> OutOfFuel.
Proof. intros Ho. unfold from_data. destruct (is_compatible n); [|discriminate]. apply (FuelFacts.build_fuel s ord Ho (S (vdepth v)) (S (vdepth v))); lia. Qed.
Lemma limit_some s n : s_max_n s = Some n -> n <> 0 -> effective_limit s = Some n.
Proof. intros H N. unfold effective_limit. rewrite H. destruct n; congruence. Qed.

Theorem C16_first_elements_partial : forall s ord n v w name,
  s_max_n s = Some n -> n <> 0 -> set_like ord -> oblivious ord ->
  (s_dict s = DTypedDict -> iterators_upto (S n) v = true /\ iterators_upto (S n) w = true) ->
  cut (is_td_strategy s) n v = cut (is_td_strategy s) n w ->
  same_result s (from_data s ord v name) (from_data s ord w name).
Proof.
  intros s ord n v w name Hn N0 Ho Hb _ E. pose proof (limit_some s n Hn N0) as L.
  assert (G : forall x, same_result s (from_data s ord x name) (from_data s ord (cut (is_td_strategy s) n x) name)).
  { intros x. rewrite (from_data_cut s ord n _ eq_refl L); auto. apply rmap_same; [intros; apply type_cut|intros; apply text_cut|now apply from_data_oof]. }
  eapply same_trans; [apply G|]. rewrite E. apply same_sym, G.
Qed.
Print Assumptions C16_first_elements_partial.
(** The restriction on iterators describes where the model is exact: one walk over such a value leaves, in the part of
    it that the tool looks at, what the construction of merged dicts assumes. *)
Theorem C16_walk_exhausts : forall td n v, iterators_upto (S n) v = true -> cut td n (walked td (Some n) v) = cut td n (exhaust v).
Proof. exact walked_exhaust. Qed.
Print Assumptions C16_walk_exhausts.

(** With the limit the result is that of the shortened value without a limit. *)
Theorem C16_limit_is_cut_partial : forall s s' ord n v name,
  s_max_n s = Some n -> n <> 0 -> s' = Strategies (s_list s) (s_tuple s) (s_dict s) (s_pandas s) (s_min_height s) (s_key_doc s) (s_merge s) (s_read_only s) None ->
  set_like ord -> oblivious ord -> (s_dict s = DTypedDict -> iterators_upto (S n) v = true) ->
  same_result s (from_data s ord v name) (from_data s' ord (cut (is_td_strategy s) n v) name).
Proof.
  intros s s' ord n v name Hn N0 Hs Ho Hb _. pose proof (limit_some s n Hn N0) as L.
  rewrite <- (from_data_short s ord n _ eq_refl L ltac:(auto) s'); [|subst; repeat split|subst; reflexivity|apply cut_cut].
  rewrite (from_data_cut s ord n _ eq_refl L); auto. apply rmap_same; [intros; apply type_cut|intros; apply text_cut|now apply from_data_oof].
Qed.
Print Assumptions C16_limit_is_cut_partial.

(** [None] and 0 mean that there is no limit: the same trees, and the whole data is walked: no limit that is as large as
    every container changes the result. *)
Definition with_limit (s : strategies) (m : option nat) : strategies :=
  Strategies (s_list s) (s_tuple s) (s_dict s) (s_pandas s) (s_min_height s) (s_key_doc s) (s_merge s) (s_read_only s) m.
Theorem C16_zero_is_none : forall s ord v name, from_data (with_limit s (Some 0)) ord v name = from_data (with_limit s None) ord v name.
Proof. intros. apply alike_from_data; [repeat split|reflexivity]. Qed.
Print Assumptions C16_zero_is_none.
Theorem C16_no_limit : forall s ord v name n, n <> 0 -> oblivious ord -> cut (is_td_strategy s) n v = v ->
  from_data (with_limit s None) ord v name = from_data (with_limit s (Some n)) ord v name.
Proof.
  intros s ord v name n N0 Hb E. symmetry. apply (from_data_short (with_limit s (Some n)) ord n (is_td_strategy s)); auto; try reflexivity.
  - unfold effective_limit. cbn. destruct n; congruence.
  - repeat split.
Qed.
Print Assumptions C16_no_limit.

(** The keys of a TypedDict are never limited. *)
Theorem C16_typed_dict_keys : forall s ord ty kvs name t, s_dict s = DTypedDict -> from_data s ord (VMap MDict ty kvs) name = Ok t ->
  map ekey (tcs t) = filter (fun k => negb (is_hidden k)) (map fst kvs).
Proof.
  intros s ord ty kvs name t Hs H. unfold from_data in H. destruct (is_compatible name); [|discriminate]. cbn [build] in H.
  assert (T : is_td_strategy s = true) by (unfold is_td_strategy; now rewrite Hs). rewrite T in H.
  apply bind_Ok in H as (cs & Hc & H). injection H as <-. cbn [inner tcs]. rewrite share_groups_keys. eapply build_values_keys; eauto.
Qed.
Print Assumptions C16_typed_dict_keys.

(** Iterators longer than n+1: the second of two passes (set_and_sequence_operations.py:136-141: building the merged dict
    walks again over values that were walked when the single dicts were built) sees elements beyond the first n. *)
Theorem C16_second_pass_refuted : exists (n : nat) (l l' : list pyval),
  n <> 0 /\ firstn n l = firstn n l' /\
  fst (pass (Some n) (snd (pass (Some n) l))) <> fst (pass (Some n) (snd (pass (Some n) l'))).
Proof. exists 1, [vint; vint; vint], [vint; vint; vstr]. repeat split; try discriminate. Qed.
Print Assumptions C16_second_pass_refuted.

Definition lim2 := with_limit default_strategies (Some 2).
Lemma as_inserted_oblivious : oblivious as_inserted.
Proof. intros f i l. reflexivity. Qed.
Lemma reversed_oblivious : oblivious reversed_order.
Proof. intros f i l. unfold reversed_order. symmetry. apply map_rev. Qed.
Definition long_a := vdict [("a", vlist [vint; vdict [("x", vint); ("y", vlist [vint; vint; vstr])]; vstr]); ("b", vint); ("c", viter [vint; vstr; vnone])].
Definition long_b := vdict [("a", vlist [vint; vdict [("x", vint); ("y", vlist [vint; vint])]; vnone; vnone]); ("b", vint); ("c", viter [vint; vstr])].
Example C16_example : s_max_n lim2 = Some 2 /\ iterators_upto 3 long_a = true /\ iterators_upto 3 long_b = true /\
  cut (is_td_strategy lim2) 2 long_a = cut (is_td_strategy lim2) 2 long_b /\ long_a <> long_b /\
  (exists t, from_data lim2 as_inserted long_a "Example" = Ok t) /\
  from_data (with_limit default_strategies None) as_inserted long_a "Example" <> from_data lim2 as_inserted long_a "Example" /\
  cut true 3 long_a = long_a.
Proof.
  split; [reflexivity|]. split; [reflexivity|]. split; [reflexivity|]. split; [vm_compute; reflexivity|]. split; [discriminate|].
  split; [eexists; vm_compute; reflexivity|]. split; [|vm_compute; reflexivity].
  intros E. apply (f_equal (fun r => match r with Ok t => match to_string lim2 t false with Some x => String.length x | None => 0 end | _ => 0 end)) in E.
  vm_compute in E. discriminate E.
Qed.
(** The other orders of sets: the limit theorem applies to them too. *)
Example C16_order_example : set_like reversed_order /\ oblivious reversed_order.
Proof. split; [apply reversed_set_like|apply reversed_oblivious]. Qed.

(** ** C34: the data is left untouched.
    Full claim: for all data.  True unless the data contains iterators, which are used up. *)
Theorem C34_untouched_partial : forall td n v, no_iterators v = true -> walked td n v = v.
Proof. exact walked_same. Qed.
Print Assumptions C34_untouched_partial.
(** Exactly when nothing changes, for all data: every iterator that is looked at has no elements. *)
Theorem C34_all_data : forall td n v, walked td n v = v <-> forall t l, looked_at td n (VSeq KIter t l) v -> l = [].
Proof. exact walked_kept. Qed.
Print Assumptions C34_all_data.
Example C34_all_example : walked false (Some 1) (vlist [viter []; viter [vint]]) = vlist [viter []; viter [vint]] /\ walked false (Some 2) (vlist [viter []; viter [vint]]) <> vlist [viter []; viter [vint]].
Proof. split; [reflexivity|discriminate]. Qed.
(** The walk is the one that the construction of trees assumes. *)
Theorem C34_walk_is_exhaust : forall td v, walked td None v = exhaust v.
Proof. exact walked_none. Qed.
Print Assumptions C34_walk_is_exhaust.
(** Every non-empty iterator loses elements. *)
Theorem C34_iterators_lose_elements : forall td n t x l, exists l', walked td n (VSeq KIter t (x :: l)) = VSeq KIter t l' /\ List.length l' < List.length (x :: l).
Proof.
  intros td n t x l. cbn [walked pass]. destruct n as [n|]; cbn [snd].
  - exists (skipn n l). split; auto. cbn [List.length]. rewrite skipn_length. lia.
  - exists []. split; auto. cbn. lia.
Qed.
Print Assumptions C34_iterators_lose_elements.
Theorem C34_iterators_refuted : exists td n v, walked td n v <> v.
Proof. exists true, (Some 500), (viter [vint]). discriminate. Qed.
Print Assumptions C34_iterators_refuted.
Example C34_example : no_iterators (vdict [("a", vlist [vint; vset [vstr]]); ("b", vtuple [vdict [("c", vnone)]])]) = true /\
  walked true None (vdict [("a", viter [vint])]) <> vdict [("a", viter [vint])].
Proof. split; [reflexivity|discriminate]. Qed.
