(** Decision procedures for the hypotheses of the theorems about declarations. *)
From Coq Require Import Ascii String List Bool Arith.
From Verif Require Import PyStr PyStrFacts Utils Strategies Dispatch Values Tree Build Emit TreeFacts SpecNames NamesFacts SpecData BuildFacts TreeProofs Samples.
From Verif Require Import SpecMerge MergeFacts SpecTypes ElabFacts SpecEmit EmitFacts.
Import ListNotations.
Local Open Scope string_scope.

(** All values inside a value. *)
Fixpoint subs (v : pyval) : list pyval :=
  v :: match v with
       | VSeq _ _ l => flat_map subs l
       | VMap _ _ kvs => flat_map (fun kv => subs (snd kv)) kvs
       | _ => []
       end.
Lemma sub_subs x v : sub x v -> In x (subs v).
Proof.
  induction 1 as [|k t l y Hy H IH|k t kvs key y Hy H IH].
  - destruct x; now left.
  - right. apply in_flat_map. eauto.
  - right. apply in_flat_map. exists (key, y). auto.
Qed.
Definition map_keys (v : pyval) : list key := flat_map (fun x => match x with VMap _ _ kvs => map fst kvs | _ => [] end) (subs v).
Lemma key_in_keys k v : key_in k v -> In k (map_keys v).
Proof. intros (mk & t & kvs & x & H & Hk). apply in_flat_map. exists (VMap mk t kvs). split; [now apply sub_subs|]. now apply (in_map fst) in Hk. Qed.

Definition no_eqb (s : string) : bool := str_forall (fun c => negb (Ascii.eqb c "=")) s.
Lemma no_eqb_spec s : no_eqb s = true -> ~ In "="%char (chars s).
Proof.
  induction s as [|c s IH]; cbn; intros H; [tauto|]. apply andb_true_iff in H as [H1 H2]. intros [->|F]; [discriminate|]. now apply IH.
Qed.
Definition plain_textsb (v : pyval) : bool :=
  forallb (fun x => match x with VClass _ n => no_eqb n | VNdarray _ d => no_eqb d | _ => true end) (subs v).
Lemma plain_textsb_spec v : plain_textsb v = true -> plain_texts v.
Proof. unfold plain_textsb. rewrite forallb_forall. intros H x Hx. specialize (H x (sub_subs _ _ Hx)). destruct x; auto; now apply no_eqb_spec. Qed.

Definition builtin_keysb (v : pyval) : bool := forallb (fun k => is_builtin (ty_name (key_type k))) (map_keys v).
Lemma builtin_keysb_spec v : builtin_keysb v = true -> builtin_keys v.
Proof. unfold builtin_keysb. rewrite forallb_forall. intros H k Hk. apply mem_spec. apply H. now apply key_in_keys. Qed.

Definition solid_typesb (v : pyval) : bool :=
  forallb (fun x => str_forall is_alnum_char (ty_name (type_of x))) (subs v) && forallb (fun k => str_forall is_alnum_char (ty_name (key_type k))) (map_keys v).
Lemma solid_typesb_spec v : solid_typesb v = true -> solid_types v.
Proof.
  unfold solid_typesb. rewrite andb_true_iff, !forallb_forall. intros [H1 H2]. split.
  - intros x Hx. apply solid_spec. now apply H1, sub_subs.
  - intros k Hk. apply solid_spec. now apply H2, key_in_keys.
Qed.
Definition camel_nameb (n : string) : bool :=
  str_forall is_alnum_char n && match n with String c _ => Nat.leb 65 (nat_of_ascii c) && Nat.leb (nat_of_ascii c) 90 | _ => false end.
Lemma camel_nameb_spec n : camel_nameb n = true -> camel_name n.
Proof.
  unfold camel_nameb. rewrite andb_true_iff. intros [H1 H2]. split; [now apply solid_spec|]. destruct n as [|c r]; [discriminate|].
  exists c, r. split; auto. apply andb_true_iff in H2 as [A B]. split; now apply Nat.leb_le.
Qed.

Fixpoint nodupb (l : list key) : bool := match l with [] => true | k :: r => negb (existsb (key_eqb k) r) && nodupb r end.
Lemma nodupb_spec l : nodupb l = true -> NoDup l.
Proof.
  induction l as [|k l IH]; cbn; intros H; constructor; apply andb_true_iff in H as [H1 H2]; auto. intros F. apply negb_true_iff in H1.
  apply not_true_iff_false in H1. apply H1, existsb_exists. exists k. split; auto. apply key_eqb_refl.
Qed.
Definition unique_keysb (v : pyval) : bool := forallb (fun x => match x with VMap _ _ kvs => nodupb (map fst kvs) | _ => true end) (subs v).
Lemma unique_keysb_spec v : unique_keysb v = true -> unique_keys v.
Proof. unfold unique_keysb. rewrite forallb_forall. intros H mk t kvs Hx. apply nodupb_spec. exact (H _ (sub_subs _ _ Hx)). Qed.
