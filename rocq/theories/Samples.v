(** Abbreviations for concrete values, used in the examples and counterexamples, and decision procedures for
    hypotheses about values. *)
From Coq Require Import Ascii String List Bool Arith ZArith.
From Verif Require Import PyStr Utils Strategies Dispatch Values Tree Build TreeFacts SpecNames NamesFacts SpecData BuildFacts TreeProofs.
Import ListNotations.
Local Open Scope string_scope.

Definition as_inserted : set_order := fun _ l => l.
Lemma as_inserted_set_like : set_like as_inserted.
Proof. intros n l. apply Permutation.Permutation_refl. Qed.
Definition reversed_order : set_order := fun _ l => rev l.
Lemma reversed_set_like : set_like reversed_order.
Proof. intros n l. apply Permutation.Permutation_rev. Qed.

Definition raw_default : raw_strategies := Raw "list" "fixed" "TypedDict" "Full type hint" 1 "" 50 false (Some 500%Z).
Lemma default_valid : valid default_strategies.
Proof. exists raw_default. reflexivity. Qed.

Definition vint := VInst ty_int.
Definition vfloat := VInst ty_float.
Definition vbool := VInst ty_bool.
Definition vnone := VInst ty_none.
Definition vstr := VStr "x".
Definition vlist (l : list pyval) := VSeq KList ty_list l.
Definition vtuple (l : list pyval) := VSeq KTuple ty_tuple l.
Definition vset (l : list pyval) := VSeq KSet ty_set l.
Definition vfrozenset (l : list pyval) := VSeq KSet ty_frozenset l.
Definition viter (l : list pyval) := VSeq KIter (PyType 900 "list_iterator") l.
Definition vdict (l : list (string * pyval)) := VMap MDict ty_dict (map (fun kv => (KStr (fst kv), snd kv)) l).

(** Decision procedure for conditions on all type names and keys. *)
Fixpoint everywhere (p : string -> bool) (q : key -> bool) (v : pyval) : bool :=
  p (ty_name (type_of v)) &&
  match v with
  | VSeq _ _ l => forallb (everywhere p q) l
  | VMap _ _ kvs => forallb (fun kv => q (fst kv) && everywhere p q (snd kv)) kvs
  | _ => true
  end.
Lemma everywhere_spec p q v : everywhere p q v = true ->
  (forall x, sub x v -> p (ty_name (type_of x)) = true) /\ (forall k, key_in k v -> q k = true).
Proof.
  intros H. assert (G : forall x, sub x v -> everywhere p q x = true).
  { intros x Hx. induction Hx; auto.
    - cbn [everywhere] in H. apply andb_true_iff in H as [_ H]. rewrite forallb_forall in H. apply IHHx. auto.
    - cbn [everywhere] in H. apply andb_true_iff in H as [_ H]. rewrite forallb_forall in H. specialize (H _ H0). apply andb_true_iff in H as [_ H]. auto. }
  split.
  - intros x Hx. apply G in Hx. destruct x; cbn [everywhere] in Hx; apply andb_true_iff in Hx; tauto.
  - intros k (mk & t & kvs & x & Hs & Hk). apply G in Hs. cbn [everywhere] in Hs. apply andb_true_iff in Hs as [_ Hs].
    rewrite forallb_forall in Hs. specialize (Hs _ Hk). apply andb_true_iff in Hs. tauto.
Qed.

Definition ordinaryb (v : pyval) : bool :=
  everywhere (str_forall word_char) (fun k => str_forall word_char (ty_name (key_type k))) v.
Lemma ordinaryb_spec v : ordinaryb v = true -> ordinary_types v.
Proof.
  intros H. apply everywhere_spec in H as [A B]. split.
  - intros x Hx. now apply word_like_spec, A.
  - intros k Hk. now apply word_like_spec, B.
Qed.
Definition plainb (v : pyval) : bool :=
  everywhere (str_forall W_plain) (fun k => str_forall W_plain (ty_name (key_type k)) && match k with KStr s => str_forall W_plain s | _ => true end) v.
Lemma plainb_spec v : plainb v = true -> plain_names v.
Proof.
  intros H. apply everywhere_spec in H as [A B]. split.
  - intros x Hx. now apply plain_spec, A.
  - intros k Hk. specialize (B k Hk). apply andb_true_iff in B as [B1 B2]. split; [now apply plain_spec|]. intros s ->. now apply plain_spec.
Qed.

(** All nodes of a tree. *)
Fixpoint nodes (t : tree) : list tree :=
  match t with Node i cs => t :: flat_map (fun e => nodes (snd e)) cs end.
Lemma nodes_node_of n t : In n (nodes t) -> node_of n t.
Proof.
  induction t as [i cs IH] using tree_ind'. rewrite Forall_forall in IH. simpl. intros [<-|H]; [constructor|].
  apply in_flat_map in H as (e & He & H). econstructor; eauto.
Qed.
Lemma node_of_nodes n t : node_of n t -> In n (nodes t).
Proof.
  induction 1; [destruct n; simpl; auto|]. simpl. right. apply in_flat_map. eauto.
Qed.

Definition unsharedb (t : tree) : bool := forallb (fun n => forallb (fun e => Nat.eqb (snd (fst e)) 1) (tcs n)) (nodes t).
Lemma unsharedb_spec t : unsharedb t = true -> unshared t.
Proof.
  intros H n e Hn He. unfold unsharedb in H. rewrite forallb_forall in H. specialize (H _ (node_of_nodes _ _ Hn)).
  rewrite forallb_forall in H. now apply Nat.eqb_eq, H.
Qed.
