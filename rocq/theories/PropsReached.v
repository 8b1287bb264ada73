(** C02 and C05: exactly when a tree is returned. *)
From Coq Require Import Ascii String List Bool Arith ZArith Lia Permutation.
From Verif Require Import PyStr PyStrFacts Utils Strategies Dispatch Values Tree Build TreeFacts SpecNames NamesFacts SpecData BuildFacts TotalFacts FuelFacts TreeProofs MergeFacts SpecReached ReachedFacts Samples.
Import ListNotations.
Local Open Scope string_scope.
Local Open Scope nat_scope.

(** A tree is returned if all classes are words after which a type is named: those of the elements of sequences and of
    the keys that are not strings.  Nothing is asked of other values, of elements beyond the limit and of what is stored
    under documentation keys. *)
Theorem C05_reached_partial : forall s ord v n, valid s -> set_like ord -> is_compatible n = true ->
  (forall x, element_met s x v -> word_like (ty_name (type_of x))) -> (forall k, key_met s k v -> word_like (ty_name (key_type k))) ->
  exists t, from_data s ord v n = Ok t.
Proof.
  intros s ord v n Hs Ho Hn A B. unfold from_data. rewrite Hn. apply build_fine; auto; [now apply valid_merge|]. split; auto.
Qed.
Print Assumptions C05_reached_partial.

(** And it is returned only then, except that the names of dicts are not validated. *)
Theorem C05_failure : forall s ord v n t x, from_data s ord v n = Ok t -> element_met s x v -> ~ is_dict x ->
  word_like (ty_name (type_of x)).
Proof.
  intros s ord v n t x H M N. unfold from_data in H. destruct (is_compatible n); [|discriminate]. eapply build_elements; eauto.
Qed.
Print Assumptions C05_failure.

(** The exact condition, for data in which the classes of dicts and of keys are words. *)
Theorem C05_exact_partial : forall s ord v n, valid s -> set_like ord -> is_compatible n = true ->
  (forall x, element_met s x v -> is_dict x -> word_like (ty_name (type_of x))) ->
  (forall k, key_met s k v -> word_like (ty_name (key_type k))) ->
  ((exists t, from_data s ord v n = Ok t) <-> forall x, element_met s x v -> word_like (ty_name (type_of x))).
Proof.
  intros s ord v n Hs Ho Hn D K. split.
  - intros (t & H) x M. assert (E : is_dict x \/ ~ is_dict x).
    { destruct x as [| | | | | | | |[] ? ?]; try (right; intros (? & ? & E); discriminate E). left. eexists. eauto. }
    destruct E as [E|E]; [now apply D|]. exact (C05_failure _ _ _ _ _ _ H M E).
  - intros A. now apply C05_reached_partial.
Qed.
Print Assumptions C05_exact_partial.
Theorem C02_exact_partial : forall s ord v n, valid s -> set_like ord -> is_compatible n = true ->
  (forall x, element_met s x v -> is_dict x -> word_like (ty_name (type_of x))) ->
  (forall k, key_met s k v -> word_like (ty_name (key_type k))) ->
  ((exists m, from_data s ord v n = Err (BadName m)) <-> ~ forall x, element_met s x v -> word_like (ty_name (type_of x))).
Proof.
  intros s ord v n Hs Ho Hn D K. pose proof (C05_exact_partial s ord v n Hs Ho Hn D K) as E. split.
  - intros (m & H) A. apply E in A as (t & A). congruence.
  - intros N. destruct (from_data s ord v n) as [t|[m]|] eqn:F.
    + exfalso. apply N, E. eauto.
    + eauto.
    + exfalso. now apply (from_data_terminates s ord v n Ho).
Qed.
Print Assumptions C02_exact_partial.

(** Objects of a class called "a b" do no harm as values of a dict, beyond the limit and below a documentation key. *)
Definition nameless : pytype := PyType 901 "a b".
Definition only_two : strategies := Strategies LList TFixed DTypedDict PFull 1 "" 50 false (Some 2).
Definition record : pyval :=
  vdict [("who", VInst nameless); ("___docstring_hidden_key_who", vlist [VInst nameless]);
         ("items", vlist [vint; vdict [("a", VInst nameless)]; VInst nameless])].
Fixpoint elements_in (s : strategies) (v : pyval) : list pyval :=
  match v with
  | VSeq _ _ l => (first_ones s l ++ flat_map (elements_in s) l)%list
  | VMap _ _ kvs => flat_map (fun kv => if is_hidden (fst kv) then [] else elements_in s (snd kv)) kvs
  | _ => []
  end.
Fixpoint keys_in (v : pyval) : list key :=
  match v with
  | VSeq _ _ l => flat_map keys_in l
  | VMap _ _ kvs => (map fst kvs ++ flat_map (fun kv => keys_in (snd kv)) kvs)%list
  | _ => []
  end.
Lemma elements_in_complete s x v : element_met s x v -> In x (elements_in s v).
Proof.
  intros (k & t & l & M & Hx). induction M as [|k' t' l' y Hy M IH|k' t' kvs key y Hy D M IH]; cbn [elements_in].
  - apply in_or_app. auto.
  - apply in_or_app. right. apply in_flat_map. exists y. split; auto. rewrite <- limit_first in Hy. eapply limit_incl; eauto.
  - apply in_flat_map. exists (key, y). split; [eapply looked_incl; eauto|]. apply hidden_false in D. simpl. now rewrite D.
Qed.
Lemma keys_in_complete s key v : key_met s key v -> In key (keys_in v).
Proof.
  intros (k & t & kvs & x & M & Hx & D). induction M as [|k' t' l' y Hy M IH|k' t' kvs' key' y Hy D' M IH]; cbn [keys_in].
  - apply in_or_app. left. apply looked_incl in Hx. now apply (in_map fst) in Hx.
  - apply in_flat_map. exists y. split; auto. rewrite <- limit_first in Hy. eapply limit_incl; eauto.
  - apply in_or_app. right. apply in_flat_map. exists (key', y). split; [eapply looked_incl; eauto|]. auto.
Qed.
Example C05_reached_example : valid only_two /\
  (forall x, element_met only_two x record -> word_like (ty_name (type_of x))) /\
  (forall k, key_met only_two k record -> word_like (ty_name (key_type k))) /\
  element_met only_two (vdict [("a", VInst nameless)]) record /\ ~ ordinary_types record /\
  exists t, from_data only_two as_inserted record "Example" = Ok t.
Proof.
  assert (W : forall k, word_like (ty_name (key_type (KStr k)))) by (intros; apply word_like_spec; reflexivity).
  assert (M : met only_two (vlist [vint; vdict [("a", VInst nameless)]; VInst nameless]) record).
  { apply met_value with (key := KStr "items") (y := vlist [vint; vdict [("a", VInst nameless)]; VInst nameless]); [vm_compute; auto| |apply met_here].
    intros (x & E). discriminate E. }
  split; [exists (Raw "list" "fixed" "TypedDict" "Full type hint" 1 "" 50 false (Some 2%Z)); reflexivity|]. split; [|split; [|split; [|split]]].
  - intros x Hx. apply elements_in_complete in Hx. cbv in Hx. repeat destruct Hx as [<-|Hx]; try (apply word_like_spec; reflexivity). destruct Hx.
  - intros k Hk. apply keys_in_complete in Hk. cbv in Hk. repeat destruct Hk as [<-|Hk]; try apply W. destruct Hk.
  - exists KList, ty_list, [vint; vdict [("a", VInst nameless)]; VInst nameless]. split; [exact M|]. vm_compute. auto.
  - intros [A _]. specialize (A (VInst nameless)). assert (B : word_like "a b").
    { apply A. econstructor; [left; reflexivity|constructor]. }
    apply word_like_spec in B. discriminate B.
  - eexists. vm_compute. reflexivity.
Qed.
(** As an element it does; a dict of such a class passes when nothing in it has to be named. *)
Example C02_exact_example :
  from_data only_two as_inserted (vdict [("a", vlist [vint; VInst nameless])]) "Example" = Err (BadName "ExampleAA b") /\
  exists t, from_data only_two as_inserted (vlist [VMap MDict nameless []]) "Example" = Ok t.
Proof. split; [vm_compute; reflexivity|]. eexists. vm_compute. reflexivity. Qed.
