(** Decision procedure for data whose names cannot clash, used in examples. *)
From Coq Require Import Ascii String List Bool Arith Lia.
From Verif Require Import PyStr PyStrFacts Utils Strategies Dispatch Values Tree Build Emit TreeFacts SpecNames SpecData BuildFacts SpecMerge MergeFacts GroupFacts SpecSound SpecCamel CamelFacts SpecUnique SampleUnique SampleEmit SampleSound SpecClear SoundHash.
Import ListNotations.
Local Open Scope string_scope.
Local Open Scope nat_scope.

Definition differb (x y : pyval) : bool := negb (Nat.eqb (ty_id (type_of x)) (ty_id (type_of y))).
Definition mapb (x : pyval) : bool := match x with VMap _ _ _ => true | _ => false end.
Definition fieldsb (s : strategies) (ap : pyval -> pyval -> bool) (mk : mapkind) (d d' : dict) : bool :=
  existsb (fun e => forallb (fun e' => (typed_mapb s mk d && negb (key_eqb (fst e') (fst e))) || ap (snd e) (snd e')) d') d.
Definition elementsb (s : strategies) (ap : pyval -> pyval -> bool) (l l' : list pyval) : bool :=
  existsb (fun x => negb (is_td_strategy s && mapb x) && forallb (ap x) l') l ||
  existsb (fun x => forallb (differb x) l') l ||
  (is_td_strategy s && existsb (fun d => existsb (fun e => forallb (fun d' => negb (dmem (fst e) d')) (string_dicts l')) d) (string_dicts l)).
Fixpoint apartb (s : strategies) (n : nat) (x y : pyval) : bool :=
  match n with
  | 0 => false
  | S n => differb x y ||
      match x, y with
      | VFun f, VFun g => negb (same_functionb f g)
      | VMap mk _ d, VMap mk' _ d' => fieldsb s (apartb s n) mk d d' || fieldsb s (apartb s n) mk' d' d
      | VSeq _ _ l, VSeq _ _ l' => elementsb s (apartb s n) l l' || elementsb s (apartb s n) l' l
      | _, _ => false
      end
  end.
Lemma differb_spec x y : differb x y = true -> ty_id (type_of x) <> ty_id (type_of y).
Proof. unfold differb. intros H E. rewrite E, Nat.eqb_refl in H. discriminate. Qed.
Lemma fieldsb_spec s ap mk mk' d d' t t' : (forall x y, ap x y = true -> apart s x y) -> fieldsb s ap mk d d' = true -> apart s (VMap mk t d) (VMap mk' t' d').
Proof.
  intros A H. apply existsb_exists in H as ([k x] & Hx & H). rewrite forallb_forall in H. apply (apart_value s mk t d mk' t' d' k x Hx). intros k' y Hy T. specialize (H _ Hy). cbn [fst snd] in H.
  apply orb_true_iff in H as [H|H]; auto. apply andb_true_iff in H as [H1 H2]. exfalso. rewrite T, key_eqb_refl in H2; [discriminate|]. now apply typed_mapb_spec.
Qed.
Lemma elementsb_spec s ap k k' l l' t t' : (forall x y, ap x y = true -> apart s x y) -> elementsb s ap l l' = true -> apart s (VSeq k t l) (VSeq k' t' l').
Proof.
  intros A H. unfold elementsb in H. apply orb_true_iff in H as [H|H]; [apply orb_true_iff in H as [H|H]|].
  - apply existsb_exists in H as (x & Hx & H). apply andb_true_iff in H as [H1 H2]. rewrite forallb_forall in H2. apply (apart_element s k t l k' t' l' x Hx); [|intros y Hy; apply A; auto].
    intros T. apply td_strategy_iff in T. rewrite T in H1. destruct x; try exact I. discriminate.
  - apply existsb_exists in H as (x & Hx & H). rewrite forallb_forall in H. apply (apart_classes s k t l k' t' l' x Hx). intros y Hy. apply differb_spec. auto.
  - apply andb_true_iff in H as [T H]. apply existsb_exists in H as (d & Hd & H). apply existsb_exists in H as ([key x] & Hx & H). rewrite forallb_forall in H.
    apply (apart_rows s k t l k' t' l' d key); auto; [now apply td_strategy_iff|apply (in_map fst) in Hx; exact Hx|]. intros d' Hd' F. specialize (H d' Hd'). cbn [fst] in H. apply dmem_spec in F. rewrite F in H. discriminate.
Qed.
Lemma apartb_spec s n : forall x y, apartb s n x y = true -> apart s x y.
Proof.
  induction n as [|n IH]; intros x y H; [discriminate|]. cbn [apartb] in H. apply orb_true_iff in H as [H|H]; [apply apart_class; now apply differb_spec|].
  destruct x as [| |f| | | | |k t l|mk t d], y as [| |g| | | | |k' t' l'|mk' t' d']; try discriminate; [|apply orb_true_iff in H as [H|H]|apply orb_true_iff in H as [H|H]].
  - apply apart_function. rewrite <- same_functionb_spec. apply negb_true_iff in H. congruence.
  - eapply elementsb_spec; eauto.
  - apply apart_sym. eapply elementsb_spec; eauto.
  - eapply fieldsb_spec; eauto.
  - apply apart_sym. eapply fieldsb_spec; eauto.
Qed.

(** The entries that meet in one node. *)
Definition meetings (s : strategies) (v : pyval) : list dict :=
  flat_map (fun x => match x with VMap _ _ d => [d] | VSeq _ _ l => if is_td_strategy s then [flat_map (fun d => d) (string_dicts l)] else [] | _ => [] end) (subs v).
Lemma together_meetings s v e e' : together s v e e' -> exists g, In g (meetings s v) /\ In e g /\ In e' g.
Proof.
  intros [k t d Hs He He'|k t l d d' T Hs Hd Hd' He He'].
  - exists d. split; auto. apply in_flat_map. exists (VMap k t d). split; [now apply sub_subs|now left].
  - exists (flat_map (fun d => d) (string_dicts l)). split; [|split; apply in_flat_map; eauto]. apply in_flat_map. exists (VSeq k t l). split; [now apply sub_subs|]. apply td_strategy_iff in T. rewrite T. now left.
Qed.
Definition plain_leafb (v : pyval) : bool := match v with VFun _ | VSeq _ _ _ | VMap _ _ _ => false | _ => true end.
Definition has_sourceb (f : pyfun) : bool :=
  match f_sig f with
  | None => true
  | Some (p, _) => f_lambda f || contains "->" p || match f_return f with None => false | _ => true end
  end.
Lemma has_sourceb_spec f : has_sourceb f = true <-> has_source f.
Proof.
  unfold has_sourceb, has_source. destruct (f_sig f) as [[p n]|]; [|tauto]. rewrite !orb_true_iff. rewrite contains_spec.
  destruct (f_return f); split; intros; (tauto || (intuition (try discriminate; try congruence))).
Qed.
Definition clear_datab (s : strategies) (v : pyval) : bool :=
  forallb (fun x => match x with VFun f => has_sourceb f | VMap _ _ d => forallb (fun e => plain_leafb (snd e) || match fst e with KStr n => begins_letterb n | _ => false end) d | VSeq k _ _ => negb (fixedb s k) | _ => true end) (subs v) &&
  forallb (fun g => forallb (fun e => forallb (fun e' => plain_leafb (snd e) || plain_leafb (snd e') || key_eqb (fst e) (fst e') ||
    (match fst e, fst e' with KStr n, KStr n' => negb (extendsb (to_camel_case n) (to_camel_case n')) | _, _ => true end && apartb s (S (vdepth v)) (snd e) (snd e'))) g) g) (meetings s v).
Lemma leafb_iff x : plain_leafb x = true <-> plain_leaf x.
Proof. destruct x; cbn; split; auto; try discriminate; contradiction. Qed.
Lemma clear_datab_spec s v : clear_datab s v = true -> clear_data s v.
Proof.
  unfold clear_datab. intros H. apply andb_true_iff in H as [A B]. rewrite forallb_forall in A, B.
  assert (G : forall n n' x x', together s v (KStr n, x) (KStr n', x') -> ~ plain_leaf x -> ~ plain_leaf x' -> n <> n' -> extendsb (to_camel_case n) (to_camel_case n') = false /\ apartb s (S (vdepth v)) x x' = true).
  { intros n n' x x' T L L' N. destruct (together_meetings _ _ _ _ T) as (g & Hg & He & He'). specialize (B g Hg). rewrite forallb_forall in B. specialize (B _ He). rewrite forallb_forall in B. specialize (B _ He'). cbn [fst snd] in B.
    destruct (plain_leafb x) eqn:Lx; [apply leafb_iff in Lx; contradiction|]. destruct (plain_leafb x') eqn:Lx'; [apply leafb_iff in Lx'; contradiction|]. cbn [orb] in B.
    destruct (key_eqb (KStr n) (KStr n')) eqn:K; [apply key_eqb_spec in K; congruence|]. cbn [orb] in B. apply andb_true_iff in B as [B1 B2]. split; auto. now apply negb_true_iff. }
  split.
  - intros k t d key x Hs Hx L. specialize (A _ (sub_subs _ _ Hs)). cbn beta iota in A. rewrite forallb_forall in A. specialize (A _ Hx). cbn [fst snd] in A.
    destruct (plain_leafb x) eqn:Lx; [apply leafb_iff in Lx; contradiction|]. cbn [orb] in A. destruct key; try discriminate. eexists. split; [reflexivity|]. now apply begins_letterb_spec.
  - intros n n' x x' w w' T L L' N W W' E. apply camel_iff in W, W'. subst. apply extendsb_spec in E. destruct (G n n' x x' T L L' N). congruence.
  - intros n n' x x' T L L' N. eapply apartb_spec. apply (G n n' x x' T L L' N).
  - intros k t l Hs F. specialize (A _ (sub_subs _ _ Hs)). cbn beta iota in A. apply fixedb_spec in F. now rewrite F in A.
  - intros f Hs. specialize (A _ (sub_subs _ _ Hs)). now apply has_sourceb_spec.
Qed.
