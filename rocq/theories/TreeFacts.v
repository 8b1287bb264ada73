(** Induction principles, equality of hashes, renaming. *)
From Coq Require Import Ascii String List Bool Arith Lia.
From Verif Require Import PyStr Strategies Dispatch Values Tree.
Import ListNotations.
Local Open Scope string_scope.

Section Ind.
  Variable P : tree -> Prop.
  Hypothesis H : forall i cs, Forall (fun e => P (snd e)) cs -> P (Node i cs).
  Fixpoint tree_ind' (t : tree) : P t :=
    match t with
    | Node i cs => H i cs ((fix go (cs : list (key * nat * tree)) : Forall (fun e => P (snd e)) cs :=
                              match cs with
                              | [] => Forall_nil _
                              | e :: r => Forall_cons e (tree_ind' (snd e)) (go r)
                              end) cs)
    end.
End Ind.

Section ValInd.
  Variable P : pyval -> Prop.
  Hypothesis Hstr : forall s, P (VStr s).
  Hypothesis Hinst : forall t, P (VInst t).
  Hypothesis Hfun : forall f, P (VFun f).
  Hypothesis Hclass : forall m n, P (VClass m n).
  Hypothesis Hmodule : forall t, P (VModule t).
  Hypothesis Hio : forall t, P (VIO t).
  Hypothesis Hnd : forall t d, P (VNdarray t d).
  Hypothesis Hseq : forall k t l, Forall P l -> P (VSeq k t l).
  Hypothesis Hmap : forall k t kvs, Forall (fun kv => P (snd kv)) kvs -> P (VMap k t kvs).
  Fixpoint pyval_ind' (v : pyval) : P v :=
    match v with
    | VStr s => Hstr s
    | VInst t => Hinst t
    | VFun f => Hfun f
    | VClass m n => Hclass m n
    | VModule t => Hmodule t
    | VIO t => Hio t
    | VNdarray t d => Hnd t d
    | VSeq k t l => Hseq k t l ((fix go (l : list pyval) : Forall P l :=
                                   match l with [] => Forall_nil _ | x :: r => Forall_cons x (pyval_ind' x) (go r) end) l)
    | VMap k t kvs => Hmap k t kvs ((fix go (l : list (key * pyval)) : Forall (fun kv => P (snd kv)) l :=
                                   match l with [] => Forall_nil _ | x :: r => Forall_cons x (pyval_ind' (snd x)) (go r) end) kvs)
    end.
End ValInd.

Section HkInd.
  Variable P : hk -> Prop.
  Hypothesis Hty : forall n, P (HTy n).
  Hypothesis Hstr : forall s, P (HStr s).
  Hypothesis Htup : forall l, Forall P l -> P (HTup l).
  Hypothesis Hset : forall l, Forall P l -> P (HSet l).
  Hypothesis Hmap : forall k h, P h -> P (HMap k h).
  Hypothesis Htd : forall k h, P h -> P (HTd k h).
  Fixpoint hk_ind' (h : hk) : P h :=
    let go := fix go (l : list hk) : Forall P l :=
                match l with [] => Forall_nil _ | x :: r => Forall_cons x (hk_ind' x) (go r) end in
    match h with
    | HTy n => Hty n
    | HStr s => Hstr s
    | HTup l => Htup l (go l)
    | HSet l => Hset l (go l)
    | HMap k h' => Hmap k h' (hk_ind' h')
    | HTd k h' => Htd k h' (hk_ind' h')
    end.
End HkInd.

Lemma type_eqb_spec a b : type_eqb a b = true <-> a = b.
Proof.
  unfold type_eqb. rewrite andb_true_iff, Nat.eqb_eq, String.eqb_eq. destruct a, b; simpl. split; [intros []; congruence | intros E; injection E; auto].
Qed.
Lemma key_eqb_spec a b : key_eqb a b = true <-> a = b.
Proof.
  destruct a as [x| |t n], b as [y| |u m]; simpl; try (split; [discriminate | congruence]); try (split; auto; fail).
  - rewrite String.eqb_eq. split; congruence.
  - rewrite andb_true_iff, type_eqb_spec, Nat.eqb_eq. split; [intros []; congruence | intros E; injection E; auto].
Qed.
Lemma key_eqb_refl a : key_eqb a a = true. Proof. now apply key_eqb_spec. Qed.
Lemma key_eqb_sym a b : key_eqb a b = key_eqb b a.
Proof. destruct (key_eqb a b) eqn:E, (key_eqb b a) eqn:F; auto; [apply key_eqb_spec in E | apply key_eqb_spec in F]; subst; rewrite key_eqb_refl in *; congruence. Qed.

(** ** heq *)

Definition heql := fix go (l m : list hk) : bool :=
  match l, m with
  | [], [] => true
  | x :: l', y :: m' => heq x y && go l' m'
  | _, _ => false
  end.
Lemma heq_tup l m : heq (HTup l) (HTup m) = heql l m.
Proof. reflexivity. Qed.
Lemma heql_Forall2 l m : heql l m = true <-> Forall2 (fun a b => heq a b = true) l m.
Proof.
  revert m. induction l; destruct m; simpl; try (split; [discriminate | inversion 1]); try (split; auto; fail).
  rewrite andb_true_iff, IHl. split; [intros []; constructor; auto | inversion 1; auto].
Qed.
Lemma heq_set l m : heq (HSet l) (HSet m) = true <->
  (forall x, In x l -> exists y, In y m /\ heq x y = true) /\ (forall y, In y m -> exists x, In x l /\ heq x y = true).
Proof.
  cbn [heq]. rewrite andb_true_iff, !forallb_forall. split; intros [A B]; (split; [intros x Hx; specialize (A x Hx) | intros x Hx; specialize (B x Hx)]);
  try (now apply existsb_exists in A || now apply existsb_exists in B); apply existsb_exists; auto.
Qed.

Lemma heq_refl h : heq h h = true.
Proof.
  induction h using hk_ind'.
  - simpl. apply Nat.eqb_refl.
  - simpl. apply String.eqb_refl.
  - rewrite heq_tup, heql_Forall2. induction H; constructor; auto.
  - rewrite Forall_forall in H. apply heq_set. split; eauto.
  - simpl. now rewrite Nat.eqb_refl.
  - simpl. now rewrite key_eqb_refl.
Qed.

Lemma heq_sym_true a : forall b, heq a b = true -> heq b a = true.
Proof.
  induction a using hk_ind'; intros b E; destruct b; simpl in E; try discriminate.
  - simpl. now rewrite Nat.eqb_sym.
  - simpl. now rewrite String.eqb_sym.
  - change (heq (HTup l) (HTup l0) = true) in E. rewrite heq_tup, heql_Forall2 in *.
    revert l0 E. induction H; intros l0 E; inversion E; subst; constructor; auto.
  - change (heq (HSet l) (HSet l0) = true) in E. rewrite heq_set in *. destruct E as [A B]. rewrite Forall_forall in H. split.
    + intros y Hy. destruct (B y Hy) as (x & ? & ?). eauto.
    + intros x Hx. destruct (A x Hx) as (y & ? & ?). eauto.
  - apply andb_true_iff in E as [E1 E2]. cbn [heq]. rewrite Nat.eqb_sym, E1. simpl. auto.
  - apply andb_true_iff in E as [E1 E2]. cbn [heq]. rewrite key_eqb_sym, E1. simpl. auto.
Qed.
Lemma heq_sym a b : heq a b = heq b a.
Proof. destruct (heq a b) eqn:E, (heq b a) eqn:F; auto; [apply heq_sym_true in E | apply heq_sym_true in F]; congruence. Qed.

Lemma heq_trans a : forall b c, heq a b = true -> heq b c = true -> heq a c = true.
Proof.
  induction a using hk_ind'; intros b c E F; destruct b; simpl in E; try discriminate;
  destruct c; simpl in F; try discriminate.
  - apply Nat.eqb_eq in E, F. simpl. apply Nat.eqb_eq. congruence.
  - apply String.eqb_eq in E, F. simpl. apply String.eqb_eq. congruence.
  - change (heq (HTup l) (HTup l0) = true) in E. change (heq (HTup l0) (HTup l1) = true) in F.
    rewrite heq_tup, heql_Forall2 in *. revert l0 l1 E F.
    induction H; intros l0 l1 E F; inversion E; subst; inversion F; subst; constructor; eauto.
  - change (heq (HSet l) (HSet l0) = true) in E. change (heq (HSet l0) (HSet l1) = true) in F.
    rewrite heq_set in *. rewrite Forall_forall in H. destruct E as [A B], F as [C D]. split.
    + intros x Hx. destruct (A x Hx) as (y & Hy & ?). destruct (C y Hy) as (z & ? & ?). eauto.
    + intros z Hz. destruct (D z Hz) as (y & Hy & ?). destruct (B y Hy) as (x & ? & ?). eauto.
  - apply andb_true_iff in E as [E1 E2], F as [F1 F2]. apply Nat.eqb_eq in E1, F1. cbn [heq].
    subst. rewrite Nat.eqb_refl. simpl. eauto.
  - apply andb_true_iff in E as [E1 E2], F as [F1 F2]. apply key_eqb_spec in E1, F1. cbn [heq].
    subst. rewrite key_eqb_refl. simpl. eauto.
Qed.

Lemma teq_refl s t : teq s t t = true.
Proof. unfold teq. now rewrite Nat.eqb_refl, heq_refl. Qed.
Lemma teq_sym s a b : teq s a b = teq s b a.
Proof. unfold teq. now rewrite Nat.eqb_sym, heq_sym. Qed.
Lemma teq_trans s a b c : teq s a b = true -> teq s b c = true -> teq s a c = true.
Proof.
  unfold teq. rewrite !andb_true_iff, !Nat.eqb_eq. intros [] []. split; [congruence | eapply heq_trans; eauto].
Qed.
Lemma teq_ext s a b c : teq s a b = true -> teq s a c = teq s b c.
Proof.
  intros E. destruct (teq s a c) eqn:F, (teq s b c) eqn:G; auto.
  - rewrite teq_sym in E. rewrite (teq_trans s b a c) in G; auto.
  - rewrite (teq_trans s a b c) in F; auto.
Qed.

(** ** ren *)

Lemma ren_kind k new n t : tkind (ren k new n t) = tkind t. Proof. destruct t; reflexivity. Qed.
Lemma ren_type k new n t : i_type (ti (ren k new n t)) = i_type (ti t). Proof. destruct t; reflexivity. Qed.
Lemma ren_height k new n t : theight (ren k new n t) = theight t. Proof. destruct t; reflexivity. Qed.
Lemma ren_depth k new n t : i_depth (ti (ren k new n t)) = i_depth (ti t). Proof. destruct t; reflexivity. Qed.
Lemma ren_root k new n t : i_root (ti (ren k new n t)) = i_root (ti t). Proof. destruct t; reflexivity. Qed.
Definition ren_entry (k : nat) (new : string) (n : nat) (e : key * nat * tree) : key * nat * tree :=
  (ekey e, emult e, ren (k * emult e) new n (etree e)).
Lemma ren_cs k new n t : tcs (ren k new n t) = map (ren_entry k new n) (tcs t).
Proof. destruct t as [i cs]. simpl. apply map_ext. intros [[]]. reflexivity. Qed.

Lemma thash_ren s t : forall k new n, thash s (ren k new n t) = thash s t.
Proof.
  induction t as [i cs IH] using tree_ind'. intros k new n. rewrite Forall_forall in IH.
  assert (E : forall (f : key -> hk -> hk),
    map (fun e => f (fst (fst e)) (thash s (snd e)))
      (map (fun e => match e with (key, m, c) => (key, m, ren (k * m) new n c) end) cs)
    = map (fun e => f (fst (fst e)) (thash s (snd e))) cs).
  { intros f. rewrite map_map. apply map_ext_in. intros [[key m] c] He. simpl. rewrite (IH _ He). reflexivity. }
  cbn [ren thash with_name i_kind i_type]. destruct (i_kind i); try reflexivity.
  - rewrite (E (fun _ h => h)). reflexivity.
  - rewrite (E (fun k h => HMap (ty_id (key_type k)) h)). reflexivity.
  - rewrite (E (fun k h => HMap (ty_id (key_type k)) h)), (E HTd). reflexivity.
Qed.
Lemma teq_ren_l s a b k new n : teq s (ren k new n a) b = teq s a b.
Proof. unfold teq. now rewrite thash_ren, ren_kind. Qed.
Lemma teq_rename s a new : teq s (rename new a) a = true.
Proof. unfold rename. rewrite teq_ren_l. apply teq_refl. Qed.

Lemma iterate_S {A} n (f : A -> A) a : iterate (S n) f a = f (iterate n f a).
Proof. revert a. induction n; intros; simpl in *; auto. Qed.

(** A property of names is kept by renaming if the new names satisfy it. *)
Fixpoint all_names (P : string -> Prop) (t : tree) : Prop :=
  match t with
  | Node i cs => P (i_name i) /\ (fix go (cs : list (key * nat * tree)) : Prop :=
                                    match cs with [] => True | e :: r => all_names P (snd e) /\ go r end) cs
  end.
Lemma all_names_node P i cs : all_names P (Node i cs) <-> P (i_name i) /\ Forall (fun e => all_names P (etree e)) cs.
Proof.
  simpl. split; intros [A B]; split; auto.
  - induction cs; constructor; [apply B | apply IHcs, B].
  - induction B; auto.
Qed.

Lemma ren_names (P : string -> Prop) new n t k :
  (forall x, P x -> P (new ++ drop n x)) -> P new -> all_names P t -> all_names P (ren k new n t).
Proof.
  intros H Hn. revert k. induction t as [i cs IH] using tree_ind'. intros k. rewrite all_names_node. intros [A B].
  cbn [ren]. rewrite all_names_node. split.
  - simpl. clear - A H Hn. revert A. generalize (i_name i). induction k; intros x A; simpl; auto. apply IHk. destruct (i_root i); auto.
  - rewrite Forall_forall in *. intros e He. apply in_map_iff in He as ([[key m] c] & <- & He). simpl.
    apply (IH _ He). apply (B _ He).
Qed.

Lemma dget_In {A} k (d : list (key * A)) a : dget k d = Some a -> In (k, a) d.
Proof.
  induction d as [|[k' b] d IH]; simpl; [discriminate|]. destruct (key_eqb k k') eqn:E; auto.
  apply key_eqb_spec in E. intros F. injection F as <-. subst. auto.
Qed.
Lemma dmem_spec {A} k (d : list (key * A)) : dmem k d = true <-> In k (map fst d).
Proof.
  unfold dmem. rewrite existsb_exists, in_map_iff. split.
  - intros ([k' a] & H1 & H2). apply key_eqb_spec in H2. simpl in H2. subst. exists (k', a). auto.
  - intros ([k' a] & <- & H). exists (k', a). split; auto. apply key_eqb_refl.
Qed.
Lemma dget_None {A} k (d : list (key * A)) : dget k d = None <-> ~ In k (map fst d).
Proof.
  induction d as [|[k' b] d IH]; simpl; [tauto|]. destruct (key_eqb k k') eqn:E.
  - apply key_eqb_spec in E. subst. split; [discriminate | tauto].
  - rewrite IH. assert (k' <> k) by (intros ->; rewrite key_eqb_refl in E; discriminate). tauto.
Qed.
Lemma NoDup_dget {A} k (d : list (key * A)) a : NoDup (map fst d) -> In (k, a) d -> dget k d = Some a.
Proof.
  induction d as [|[k' b] d IH]; simpl; [tauto|]. intros N H. inversion N; subst. destruct H as [E|H].
  - injection E as -> ->. now rewrite key_eqb_refl.
  - destruct (key_eqb k k') eqn:E; auto. apply key_eqb_spec in E. subst. exfalso. apply H2. apply in_map_iff. exists (k', a). auto.
Qed.
Lemma dget_dset {A} k k' (a : A) d : dget k (dset k' a d) = if key_eqb k k' then Some a else dget k d.
Proof.
  induction d as [|[k2 b] d IH]; simpl.
  - reflexivity.
  - destruct (key_eqb k' k2) eqn:E.
    + apply key_eqb_spec in E. subst. simpl. destruct (key_eqb k k2) eqn:F; auto.
    + simpl. rewrite IH. destruct (key_eqb k k2) eqn:F; auto. apply key_eqb_spec in F. subst.
      rewrite key_eqb_sym, E. reflexivity.
Qed.
Lemma dset_keys {A} k (a : A) d : map fst (dset k a d) = if dmem k d then map fst d else (map fst d ++ [k])%list.
Proof.
  induction d as [|[k2 b] d IH]; simpl; auto. destruct (key_eqb k k2) eqn:E.
  - reflexivity.
  - simpl. rewrite IH. unfold dmem. simpl. destruct (existsb _ d); reflexivity.
Qed.
Lemma dset_In {A} k (a : A) d x : In x (map fst (dset k a d)) <-> x = k \/ In x (map fst d).
Proof.
  rewrite dset_keys. destruct (dmem k d) eqn:E.
  - apply dmem_spec in E. split; [tauto | intros [->|]; auto].
  - rewrite in_app_iff. simpl. intuition.
Qed.
Lemma dset_NoDup {A} k (a : A) d : NoDup (map fst d) -> NoDup (map fst (dset k a d)).
Proof.
  intros N. rewrite dset_keys. destruct (dmem k d) eqn:E; auto.
  assert (~ In k (map fst d)) by (intros F; apply dmem_spec in F; congruence).
  clear E. induction (map fst d); simpl; [constructor; auto; constructor|]. inversion N; subst. simpl in H. constructor.
  - rewrite in_app_iff. simpl. intuition congruence.
  - apply IHl; auto.
Qed.
Lemma dupdate_In {A} (d e : list (key * A)) k : In k (map fst (dupdate d e)) <-> In k (map fst d) \/ In k (map fst e).
Proof.
  unfold dupdate. revert d. induction e as [|[k' a] e IH]; intros d; simpl; [tauto|]. rewrite IH, dset_In. simpl. intuition.
Qed.
Lemma dupdate_NoDup {A} (d e : list (key * A)) : NoDup (map fst d) -> NoDup (map fst (dupdate d e)).
Proof.
  unfold dupdate. revert d. induction e as [|[k' a] e IH]; intros d N; simpl; auto. apply IH. now apply dset_NoDup.
Qed.
Lemma dget_dupdate {A} k (d e : list (key * A)) : NoDup (map fst e) ->
  dget k (dupdate d e) = match dget k e with Some a => Some a | None => dget k d end.
Proof.
  unfold dupdate. revert d. induction e as [|[k' a] e IH]; intros d N; simpl; auto. inversion N; subst.
  rewrite IH by auto. simpl. rewrite dget_dset. destruct (key_eqb k k') eqn:E; auto.
  apply key_eqb_spec in E. subst. replace (dget k' e) with (@None A); auto. symmetry. now apply dget_None.
Qed.

Lemma before_none_In {A} (f : A -> key) l x : In x (before_none f l) -> In x l.
Proof. induction l; simpl; auto. destruct (f a); simpl; intuition. Qed.
Lemma before_none_all {A} (f : A -> key) l : (forall x, In x l -> f x <> KNone) -> before_none f l = l.
Proof. induction l; simpl; intros; auto. rewrite IHl by auto. specialize (H a (or_introl eq_refl)). destruct (f a); auto. congruence. Qed.
Lemma before_none_map {A B} (f : B -> key) (g : A -> B) l : before_none f (map g l) = map g (before_none (fun x => f (g x)) l).
Proof. induction l; simpl; auto. destruct (f (g a)); simpl; congruence. Qed.
Lemma before_none_ext {A} (f g : A -> key) l : (forall x, In x l -> f x = g x) -> before_none f l = before_none g l.
Proof. induction l; simpl; intros; auto. rewrite <- (H a) by auto. rewrite IHl by auto. reflexivity. Qed.
