(** Facts about loading YAML files with comments. *)
From Coq Require Import Ascii String List Bool Arith ZArith Lia.
From Verif Require Import PyStr PyStrFacts Exc Yaml SpecYaml YamlFacts YamlLines YamlComments YamlMore YamlLoad.
Import ListNotations.
Local Open Scope string_scope.
Local Open Scope nat_scope.

(** ** The model never runs out of fuel *)
Lemma andthen_fuel {A B} (r : exc A) (f : A -> exc B) : r <> NoFuel -> (forall a, f a <> NoFuel) -> andthen r f <> NoFuel.
Proof. destruct r; simpl; auto. congruence. Qed.
Lemma comment_at_Val lines idx line p : exists s, comment_at lines idx line p = Val s.
Proof.
  destruct p; unfold comment_at; [| |eauto].
  - destruct (block_comment_total lines idx true) as (s & ->). simpl. eauto.
  - destruct (block_comment_total lines idx false) as (s & ->). simpl. eauto.
Qed.
Lemma line_comments_Val lines ind idx line key n dash ps : exists cs, line_comments lines ind idx line key n dash ps = Val cs.
Proof.
  induction ps as [|p ps (cs & IH)]; cbn [line_comments]; [eauto|].
  destruct (comment_at_Val lines idx line p) as (s & ->). cbn [andthen]. rewrite IH. simpl. eauto.
Qed.
Lemma key_of_line_fuel line : key_of_line line <> NoFuel.
Proof.
  unfold key_of_line. destruct (remove_spacing line); [discriminate|]. destruct (strip _); [discriminate|].
  cbv zeta. destruct (truthy_index _); [|discriminate].
  destruct (_ && _); [discriminate|]. destruct (_ && _); discriminate.
Qed.
Lemma exc_map_fuel {A B} (f : A -> exc B) l : (forall a, f a <> NoFuel) -> exc_map f l <> NoFuel.
Proof. intros H. induction l; simpl; [discriminate|]. apply andthen_fuel; auto. intros b. apply andthen_fuel; auto. discriminate. Qed.

Lemma temporary_string_fuel y : temporary_string y <> NoFuel.
Proof.
  unfold temporary_string, rewritten_lines. apply andthen_fuel; [|discriminate]. apply andthen_fuel.
  - unfold extract_comments.
    assert (G : forall ind, andthen (comments_from y ind 0 (y_lines y)) merge_comments <> NoFuel).
    { intros ind. apply andthen_fuel.
      - generalize 0. induction (y_lines y) as [|l ls IH] in |- *; intros i; cbn [comments_from]; [discriminate|].
        apply andthen_fuel.
        + unfold comments_of_line. destruct (remove_spacing l); [discriminate|]. destruct (_ || _); [|discriminate].
          destruct (count_indent l ind); [|discriminate]. apply andthen_fuel; [apply key_of_line_fuel|].
          intros k. destruct (is_empty k); [discriminate|].
          match goal with |- ?e <> _ => assert (X : exists cs, e = Val cs) by apply line_comments_Val end.
          destruct X as (cs & ->). discriminate.
        + intros cs. apply andthen_fuel; [apply IH|]. discriminate.
      - intros cs. apply exc_map_fuel. intros [k [|c l]]; discriminate. }
    destruct (detect_indentation (y_lines y)); auto. discriminate.
  - intros cs. generalize (y_lines y). induction (sort_desc cs) as [|c l IH]; simpl; intros ls; [discriminate|].
    apply andthen_fuel; auto. unfold insert_comment. apply andthen_fuel.
    + unfold doc_entry. apply andthen_fuel; [|discriminate]. unfold spacing. destruct (replaces_dash c); [|discriminate].
      destruct (Nat.ltb _ _); discriminate.
    + intros e. apply andthen_fuel; [|discriminate]. destruct (replaces_dash c); [|discriminate].
      apply andthen_fuel; [|discriminate]. destruct (nth_error ls (key_line c)); discriminate.
Qed.

(** ** Paths *)
Lemma path_eqb_spec p q : path_eqb p q = true <-> p = q.
Proof.
  unfold path_eqb. rewrite andb_true_iff, !String.eqb_eq. destruct p, q; simpl. split; [intros [-> ->]; auto|].
  intros E. injection E as -> ->. auto.
Qed.
Lemma write_same p text fs : write p text fs p = Some text.
Proof. unfold write. replace (path_eqb p p) with true; [auto|]. symmetry. now apply path_eqb_spec. Qed.
Lemma write_other p q text fs : q <> p -> write p text fs q = fs q.
Proof. intros N. unfold write. destruct (path_eqb q p) eqn:E; [|auto]. apply path_eqb_spec in E. contradiction. Qed.
Lemma temp_not_self d p : temp_path d p <> p.
Proof.
  destruct p as [a n]. unfold temp_path. simpl. intros E. injection E as _ E.
  assert (L : String.length (String "_" n) = String.length n) by (now rewrite E). simpl in L. lia.
Qed.

Section Facts.
  Context {V H : Type}.
  Variable loader : string -> exc V.
  Variable from_data : V -> exc H.
  Variable tempdir : string.

  Lemma open_yaml_spec fs p a : (fs p <> None) ->
    ~ (In Above (positions_of a) /\ In Below (positions_of a)) -> yaml_name (snd p) ->
    exists y text, open_yaml fs p a = Val y /\ fs p = Some text /\ y = Yaml (snd p) (splitlines text) (positions_of a).
  Proof.
    intros F NP NM. unfold open_yaml. destruct (yaml_init_spec (snd p) a "") as [_ E]. rewrite (E NP NM).
    destruct (fs p) as [text|]; [|congruence]. destruct (yaml_init_spec (snd p) a text) as [_ E2]. rewrite (E2 NP NM). eauto.
  Qed.

  (** ** The fallback *)
  Lemma from_yaml_falls_back fs p arg text v h :
    fs p = Some text -> loader text = Val v -> from_data v = Val h ->
    (forall a, arg = Some a -> ~ (In Above (positions_of a) /\ In Below (positions_of a)) /\ yaml_name (snd p)) ->
    (forall t, loader t <> NoFuel) -> (forall w, from_data w <> NoFuel) ->
    exists h', from_yaml loader from_data tempdir fs p arg = Val h' /\
      (h' = h \/ exists a text' v', arg = Some a /\
         temporary_string (Yaml (snd p) (splitlines text) (positions_of a)) = Val text' /\
         loader text' = Val v' /\ from_data v' = Val h').
  Proof.
    intros Hf Hl Hd HA F1 F2. unfold from_yaml, load. destruct arg as [a|].
    - destruct (HA a eq_refl) as [NP NM]. destruct (open_yaml_spec fs p a) as (y & t & Ey & Et & Dy); auto; [congruence|].
      rewrite Ey. cbn [andthen]. rewrite Hf, Hl. cbn [andthen].
      assert (t = text) by congruence. subst t.
      pose proof (temporary_string_fuel y) as T.
      destruct (temporary_string y) as [text'|e|] eqn:ET; cbn [andthen try_else]; [|eauto|congruence].
      rewrite write_same. destruct (loader text') as [v'|e|] eqn:EL; cbn [andthen try_else]; [|eauto|exfalso; eapply F1; eauto].
      destruct (from_data v') as [h'|e|] eqn:ED; cbn [try_else]; [|eauto|exfalso; eapply F2; eauto].
      exists h'. split; [auto|]. right. exists a, text', v'. rewrite <- Dy. auto.
    - rewrite Hf, Hl. cbn [andthen]. eauto.
  Qed.

  (** ** Steps *)
  (** All steps of one caller, without interference. *)
  Fixpoint steps (n : nat) (p : path) (a : positions_arg) (s : pstate) (fs : files) : pstate * files :=
    match n with
    | O => (s, fs)
    | S m => let (s', fs') := step loader from_data tempdir p a s fs in steps m p a s' fs'
    end.

  Lemma steps_from_yaml fs p a : (forall t, loader t <> NoFuel) -> (forall w, from_data w <> NoFuel) ->
    fst (steps 5 p a Start fs) = Done (from_yaml loader from_data tempdir fs p (Some a)).
  Proof.
    intros F1 F2. unfold from_yaml, steps, step.
    destruct (open_yaml fs p a) as [y|e|] eqn:E1; cbn [andthen fst]; auto.
    destruct (load loader fs p) as [v|e|] eqn:E2; cbn [andthen fst]; auto.
    pose proof (temporary_string_fuel y) as T.
    destruct (temporary_string y) as [t|e|] eqn:E3; cbn [andthen fst try_else]; auto.
    unfold load. rewrite !write_same. reflexivity.
  Qed.

  (** A step depends only on, and changes only, the caller's own files. *)
  Definition agree (p : path) (fs fs' : files) : Prop := fs p = fs' p /\ fs (temp_path tempdir p) = fs' (temp_path tempdir p).

  Lemma step_agree p a s fs fs' : agree p fs fs' ->
    fst (step loader from_data tempdir p a s fs) = fst (step loader from_data tempdir p a s fs') /\
    agree p (snd (step loader from_data tempdir p a s fs)) (snd (step loader from_data tempdir p a s fs')).
  Proof.
    intros [A1 A2].
    assert (W : forall t, agree p (write (temp_path tempdir p) t fs) (write (temp_path tempdir p) t fs')).
    { intros t. split; [|now rewrite !write_same]. rewrite !write_other by (intros E; symmetry in E; exact (temp_not_self _ _ E)). auto. }
    destruct s; cbn [step]; unfold open_yaml, load; rewrite <- ?A1, <- ?A2; cbn [fst snd];
      try solve [split; [reflexivity|split; auto]].
    - destruct (temporary_string y) as [t|e|]; cbn [fst snd]; split; auto; split; auto.
    - split; auto.
  Qed.
  Lemma step_frame p a s fs q : q <> temp_path tempdir p -> snd (step loader from_data tempdir p a s fs) q = fs q.
  Proof.
    intros N. destruct s; cbn [step snd]; auto.
    - destruct (temporary_string y); cbn [snd]; auto. now apply write_other.
    - now apply write_other.
  Qed.

  Lemma steps_agree n p a : forall s fs fs', agree p fs fs' -> fst (steps n p a s fs) = fst (steps n p a s fs').
  Proof.
    induction n as [|n IH]; intros s fs fs' A; cbn [steps]; [auto|].
    destruct (step_agree p a s fs fs' A) as [E1 E2].
    destruct (step loader from_data tempdir p a s fs) as [s1 f1], (step loader from_data tempdir p a s fs') as [s2 f2].
    cbn [fst snd] in E1, E2. subst s2. now apply IH.
  Qed.
  Lemma steps_done n p a r fs : fst (steps n p a (Done r) fs) = Done r.
  Proof. induction n; cbn [steps step]; auto. Qed.
  Lemma steps_add n m p a : forall s fs, steps (n + m) p a s fs = (let (s', fs') := steps n p a s fs in steps m p a s' fs').
  Proof.
    induction n as [|n IH]; intros s fs; [auto|]. cbn [Nat.add steps].
    destruct (step loader from_data tempdir p a s fs). apply IH.
  Qed.

  Definition count (b : bool) (l : list bool) : nat := count_occ bool_dec l b.

  (** Two callers with separate files: each does what it would do alone. *)
  Lemma run2_separate p1 p2 a1 a2 :
    temp_path tempdir p1 <> temp_path tempdir p2 -> temp_path tempdir p1 <> p2 -> temp_path tempdir p2 <> p1 ->
    forall sched s1 s2 fs f1 f2, agree p1 fs f1 -> agree p2 fs f2 ->
    let r := run2 loader from_data tempdir p1 p2 a1 a2 sched s1 s2 fs in
    fst (fst r) = fst (steps (count true sched) p1 a1 s1 f1) /\
    snd (fst r) = fst (steps (count false sched) p2 a2 s2 f2).
  Proof.
    intros N1 N2 N3. induction sched as [|b sched IH]; intros s1 s2 fs f1 f2 A1 A2; [cbn; auto|].
    destruct b; cbn [run2].
    - replace (count true (true :: sched)) with (S (count true sched)) by reflexivity.
      replace (count false (true :: sched)) with (count false sched) by reflexivity. cbn [steps].
      destruct (step_agree p1 a1 s1 fs f1 A1) as [E1 E2].
      pose proof (step_frame p1 a1 s1 fs) as Fr.
      destruct (step loader from_data tempdir p1 a1 s1 fs) as [s1' fs'], (step loader from_data tempdir p1 a1 s1 f1) as [s1'' f1'].
      cbn [fst snd] in *. subst s1''. apply IH; [auto|]. destruct A2 as [B1 B2]. split; rewrite Fr; auto.
    - replace (count true (false :: sched)) with (count true sched) by reflexivity.
      replace (count false (false :: sched)) with (S (count false sched)) by reflexivity. cbn [steps].
      destruct (step_agree p2 a2 s2 fs f2 A2) as [E1 E2].
      pose proof (step_frame p2 a2 s2 fs) as Fr.
      destruct (step loader from_data tempdir p2 a2 s2 fs) as [s2' fs'], (step loader from_data tempdir p2 a2 s2 f2) as [s2'' f2'].
      cbn [fst snd] in *. subst s2''. apply IH; [|auto]. destruct A1 as [B1 B2]. split; rewrite Fr; auto.
  Qed.

  Lemma steps_result n p a fs r : (forall t, loader t <> NoFuel) -> (forall w, from_data w <> NoFuel) ->
    fst (steps n p a Start fs) = Done r -> r = from_yaml loader from_data tempdir fs p (Some a).
  Proof.
    intros F1 F2 E. pose proof (steps_from_yaml fs p a F1 F2) as Q.
    destruct (Nat.le_ge_cases n 5) as [L|L].
    - replace 5 with (n + (5 - n)) in Q by lia. rewrite steps_add in Q. destruct (steps n p a Start fs) as [s f]. cbn [fst] in E.
      subst s. rewrite steps_done in Q. congruence.
    - replace n with (5 + (n - 5)) in E by lia. rewrite steps_add in E. destruct (steps 5 p a Start fs) as [s f]. cbn [fst] in Q.
      subst s. rewrite steps_done in E. congruence.
  Qed.

  Lemma concurrent_loads p1 p2 a1 a2 sched fs s1 s2 fs' :
    (forall t, loader t <> NoFuel) -> (forall w, from_data w <> NoFuel) ->
    temp_path tempdir p1 <> temp_path tempdir p2 -> temp_path tempdir p1 <> p2 -> temp_path tempdir p2 <> p1 ->
    run2 loader from_data tempdir p1 p2 a1 a2 sched Start Start fs = (s1, s2, fs') ->
    (forall r, s1 = Done r -> r = from_yaml loader from_data tempdir fs p1 (Some a1)) /\
    (forall r, s2 = Done r -> r = from_yaml loader from_data tempdir fs p2 (Some a2)) /\
    (5 <= count true sched -> exists r, s1 = Done r) /\ (5 <= count false sched -> exists r, s2 = Done r).
  Proof.
    intros F1 F2 N1 N2 N3 E.
    destruct (run2_separate p1 p2 a1 a2 N1 N2 N3 sched Start Start fs fs fs) as [E1 E2]; [split; auto|split; auto|].
    rewrite E in E1, E2. cbn [fst snd] in E1, E2.
    assert (P : forall n p a, 5 <= n -> exists r, fst (steps n p a Start fs) = Done r).
    { intros n p a L. pose proof (steps_from_yaml fs p a F1 F2) as Q. replace n with (5 + (n - 5)) by lia. rewrite steps_add.
      destruct (steps 5 p a Start fs) as [s f]. cbn [fst] in Q. subst s. rewrite steps_done. eauto. }
    split; [|split; [|split]].
    - intros r Hr. rewrite Hr in E1. symmetry in E1. eapply steps_result; eauto.
    - intros r Hr. rewrite Hr in E2. symmetry in E2. eapply steps_result; eauto.
    - intros L. destruct (P _ p1 a1 L) as (r & Hr). exists r. congruence.
    - intros L. destruct (P _ p2 a2 L) as (r & Hr). exists r. congruence.
  Qed.
End Facts.
