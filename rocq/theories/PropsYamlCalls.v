(** C41 for all calls: what [from_yaml_file] answers in every case. *)
From Coq Require Import Ascii String List Bool Arith Lia.
From Verif Require Import PyStr Exc Yaml YamlMore YamlLoad YamlLoadFacts.
Import ListNotations.
Local Open Scope string_scope.

Definition usable (p : path) (a : positions_arg) : Prop := ~ (In Above (positions_of a) /\ In Below (positions_of a)) /\ yaml_name (snd p).
(** The hints of the rewritten text. *)
Definition from_copy {V H} (loader : string -> exc V) (from_data : V -> exc H) (p : path) (a : positions_arg) (text : string) (h : H) : Prop :=
  exists copy v, temporary_string (Yaml (snd p) (splitlines text) (positions_of a)) = Val copy /\ loader copy = Val v /\ from_data v = Val h.
Inductive Answer {V H} (loader : string -> exc V) (from_data : V -> exc H) (fs : files) (p : path) : option positions_arg -> exc H -> Prop :=
  | answer_refused : forall a, ~ usable p a -> Answer loader from_data fs p (Some a) (Raise YamlError)
  | answer_missing : forall o, (forall a, o = Some a -> usable p a) -> fs p = None -> Answer loader from_data fs p o (Raise FileNotFound)
  | answer_unreadable : forall o text e, (forall a, o = Some a -> usable p a) -> fs p = Some text -> loader text = Raise e -> Answer loader from_data fs p o (Raise e)
  | answer_plain : forall text v, fs p = Some text -> loader text = Val v -> Answer loader from_data fs p None (from_data v)
  | answer_copy : forall a text v h, usable p a -> fs p = Some text -> loader text = Val v -> from_copy loader from_data p a text h -> Answer loader from_data fs p (Some a) (Val h)
  | answer_fallback : forall a text v, usable p a -> fs p = Some text -> loader text = Val v -> (forall h, ~ from_copy loader from_data p a text h) -> Answer loader from_data fs p (Some a) (from_data v).

Lemma usable_dec p a : {usable p a} + {~ usable p a}.
Proof.
  unfold usable. destruct (pos_mem Above (positions_of a) && pos_mem Below (positions_of a)) eqn:E1; [right|].
  - apply andb_true_iff in E1 as [X Y]. apply pos_mem_spec in X, Y. tauto.
  - destruct (endswith ".yaml" (path_suffix (snd p)) || endswith ".yml" (path_suffix (snd p))) eqn:E2; [left|right].
    + split; [|now apply path_suffix_yaml]. rewrite <- !pos_mem_spec. intros [X Y]. rewrite X, Y in E1. discriminate.
    + intros [_ N]. apply path_suffix_yaml in N. congruence.
Qed.
Lemma opens {fs p a} : usable p a -> open_yaml fs p a = match fs p with None => Raise FileNotFound | Some text => Val (Yaml (snd p) (splitlines text) (positions_of a)) end.
Proof. intros [A B]. unfold open_yaml. rewrite (proj2 (yaml_init_spec (snd p) a "") A B). destruct (fs p); auto. now rewrite (proj2 (yaml_init_spec (snd p) a s) A B). Qed.
Lemma refused {fs p a} : ~ usable p a -> open_yaml fs p a = Raise YamlError.
Proof.
  intros N. unfold open_yaml. rewrite (proj1 (yaml_init_spec (snd p) a "")); auto. unfold usable in N.
  destruct (pos_mem Above (positions_of a) && pos_mem Below (positions_of a)) eqn:E1; [left|right].
  - apply andb_true_iff in E1 as [X Y]. apply pos_mem_spec in X, Y. auto.
  - intros Y. apply N. split; auto. rewrite <- !pos_mem_spec. intros [X Z]. rewrite X, Z in E1. discriminate.
Qed.

(** Nothing is assumed about the loader, the generator and the files except that the two return or raise. *)
Theorem C41_all_calls : forall (V H : Type) (loader : string -> exc V) (from_data : V -> exc H) tempdir fs p o,
  (forall t, loader t <> NoFuel) -> (forall w, from_data w <> NoFuel) ->
  Answer loader from_data fs p o (from_yaml loader from_data tempdir fs p o).
Proof.
  intros V H loader from_data tempdir fs p o F1 F2. unfold from_yaml. destruct o as [a|].
  - destruct (usable_dec p a) as [U|U]; [|rewrite (refused U); now apply answer_refused]. rewrite (opens U). unfold load at 1.
    destruct (fs p) as [text|] eqn:E; cbn [andthen]; [|apply answer_missing; auto; intros b Hb; injection Hb as <-; auto].
    destruct (loader text) as [v|e|] eqn:L; cbn [andthen]; [|apply (answer_unreadable _ _ _ _ (Some a) text); auto; intros b Hb; injection Hb as <-; auto|exfalso; eapply F1; eauto].
    set (y := Yaml (snd p) (splitlines text) (positions_of a)). pose proof (temporary_string_fuel y) as T. destruct (temporary_string y) as [copy|e|] eqn:ET; cbn [andthen]; [| |congruence].
    + unfold load. rewrite write_same. destruct (loader copy) as [v'|e|] eqn:L'; cbn [andthen try_else]; [| |exfalso; eapply F1; eauto].
      * destruct (from_data v') as [h|e|] eqn:D; cbn [try_else]; [| |exfalso; eapply F2; eauto].
        -- apply (answer_copy _ _ _ _ a text v h); auto. exists copy, v'. auto.
        -- apply (answer_fallback _ _ _ _ a text v); auto. intros h (c & w & X1 & X2 & X3). unfold y in ET. congruence.
      * apply (answer_fallback _ _ _ _ a text v); auto. intros h (c & w & X1 & X2 & X3). unfold y in ET. congruence.
    + cbn [try_else]. apply (answer_fallback _ _ _ _ a text v); auto. intros h (c & w & X1 & X2 & X3). unfold y in ET. congruence.
  - unfold load. destruct (fs p) as [text|] eqn:E; cbn [andthen]; [|apply answer_missing; auto; discriminate].
    destruct (loader text) as [v|e|] eqn:L; cbn [andthen]; [|apply (answer_unreadable _ _ _ _ None text); auto; discriminate|exfalso; eapply F1; eauto]. now apply (answer_plain _ _ _ _ text).
Qed.
Print Assumptions C41_all_calls.
Theorem C41_determined : forall (V H : Type) (loader : string -> exc V) (from_data : V -> exc H) fs p o a b,
  Answer loader from_data fs p o a -> Answer loader from_data fs p o b -> a = b.
Proof.
  intros V H loader from_data fs p o a b A B.
  inversion A; subst; inversion B; subst; auto; try congruence;
    try (exfalso; match goal with X : ~ usable _ _ |- _ => apply X; auto end);
    try match goal with X : fs p = Some ?t, Y : fs p = Some ?u |- _ => assert (t = u) by congruence; subst end; try congruence;
    try match goal with X : from_copy _ _ _ _ _ ?h, Y : from_copy _ _ _ _ _ ?k |- _ => destruct X as (? & ? & ? & ? & ?), Y as (? & ? & ? & ? & ?); congruence end;
    try (exfalso; match goal with X : from_copy _ _ _ _ _ ?h, Y : forall h, ~ _ |- _ => exact (Y h X) end).
Qed.
Print Assumptions C41_determined.
(** The hints of the copy are used although the original cannot be hinted, and the failure of the original is shown
    when the copy fails as well. *)
Example C41_all_example :
  let from_data t := if contains "___docstring" t then Val t else Raise ValueError in
  from_yaml (@Val string) from_data "/tmp" (fun _ => Some "a: 1 # x") ("dir", "a.yaml") (Some (One Side)) = Val ("___docstring_hidden_key_a: |" ++ nl ++ " x." ++ nl ++ "a: 1 # x") /\
  from_yaml (@Val string) from_data "/tmp" (fun _ => Some "a: 1") ("dir", "a.yaml") (Some (One Side)) = Raise ValueError /\
  from_yaml (@Val string) from_data "/tmp" (fun _ => None) ("dir", "a.yaml") None = Raise FileNotFound.
Proof. repeat split; vm_compute; reflexivity. Qed.
