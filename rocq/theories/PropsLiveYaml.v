(** Properties of [LazyTypeHintLive.from_yaml_file], for every loader, every generator of class texts and every
    well-formed template of the stub. *)
From Coq Require Import Ascii String List Bool Arith ZArith Lia Permutation.
From Verif Require Import PyStr PyStrFacts Utils NamesFacts Exc SpecNames SpecText
  Strategies Dispatch Values Tree Build Emit Samples
  Yaml SpecYaml YamlFacts YamlMore YamlLoad YamlLoadFacts
  PyFile PyFileFacts Live SpecLive LiveText LiveHistory LiveSample PropsLive LiveYaml.
Import ListNotations.
Local Open Scope string_scope.
Local Open Scope nat_scope.

(** ** Specification *)
(** The arguments are accepted by [YamlFileModifier]. *)
Definition accepted (p : path) (arg : option positions_arg) : Prop :=
  forall a, arg = Some a -> ~ (In Above (positions_of a) /\ In Below (positions_of a)) /\ yaml_name (snd p).
(** The loader gives [v] for the text in which the comments are keys. *)
Definition from_comments {D} (loader : string -> exc D) (text : string) (p : path) (arg : option positions_arg) (v : D) : Prop :=
  exists a text', arg = Some a /\ temporary_string (Yaml (snd p) (splitlines text) (positions_of a)) = Val text' /\ loader text' = Val v.

(** A history of both methods and the history of [from_data] alone that it amounts to: a call of [from_yaml_file]
    that returns a value is a call of [from_data] with that value, which the loader gave for the file or for the file with
    comments as keys; one that does not return is nothing. *)
Inductive Replaced {D} (loader : string -> exc D) :
  list yop -> list (option (exc D)) -> list (@op D) -> list (option (exc D)) -> Prop :=
  | Nothing : Replaced loader [] [] [] []
  | Same : forall o r os rs os' rs', Replaced loader os rs os' rs' ->
      Replaced loader (Plain o :: os) (r :: rs) (o :: os') (r :: rs')
  | Returned : forall k fs p arg c v os rs os' rs',
      (exists text, fs p = Some text /\ (loader text = Val v \/ from_comments loader text p arg v)) ->
      Replaced loader os rs os' rs' ->
      Replaced loader (UseYaml k fs p arg c :: os) (Some (Val v) :: rs) (Use k v c :: os') (Some (Val v) :: rs')
  | Dropped : forall k fs p arg c r os rs os' rs', (forall v, r <> Some (Val v)) ->
      Replaced loader os rs os' rs' ->
      Replaced loader (UseYaml k fs p arg c :: os) (r :: rs) os' rs'.

(** ** Proofs *)
Lemma set_nth_same {A} k (x : A) l : nth_error l k = Some x -> set_nth k x l = l.
Proof. revert l. induction k as [|k IH]; intros [|y l] E; try discriminate; cbn in *; [congruence|]. f_equal. auto. Qed.

Section Proofs.
  Context {D : Type}.
  Variable loader : string -> exc D.
  Variable unparsed : list string.
  Variable generate : D -> string -> exc string.
  Variable tempdir : string.
  Variable t : template.
  Hypothesis Ht : well_formed t = true.
  Hypothesis Hinit : initial_lines unparsed = Val (template_lines t).
  Hypothesis F1 : forall text, loader text <> NoFuel.
  Hypothesis F2 : forall d c, generate d c <> NoFuel.
  Notation step := (step unparsed generate).
  Notation steps := (steps unparsed generate).
  Notation ystep := (ystep loader unparsed generate tempdir).
  Notation ysteps := (ysteps loader unparsed generate tempdir).

  (** A call of [from_data] on lines with some shape returns its argument or changes nothing. *)
  Lemma from_data_cases validate data c s : Shaped t (s_lines s) ->
    (exists s', from_data generate validate data c s = (Val data, s')) \/
    (exists e, from_data generate validate data c s = (Raise e, s)).
  Proof.
    intros (i & cs & ys & ds & H). pose proof (from_data_outcome generate t Ht validate data c i cs ys ds s H) as R.
    assert (NF : fst (from_data generate validate data c s) = NoFuel -> False).
    { intros N. destruct (is_compatible c) eqn:Hc; [|unfold from_data in N; rewrite Hc in N; discriminate].
      destruct (forallb (present (d_build (s_disk s))) cs) eqn:HP.
      2:{ unfold from_data in N. rewrite Hc in N. cbn [negb] in N. unfold mbind at 1 in N.
          rewrite (classes_added t Ht _ _ _ _ _ H), HP in N. discriminate. }
      destruct (generate data c) as [text|e|] eqn:G.
      - destruct (from_data_returns generate t Ht validate data c i cs ys ds s text H Hc HP G) as [_ X].
        rewrite N in X. rewrite X in N by discriminate. discriminate.
      - unfold from_data in N. rewrite Hc in N. cbn [negb] in N. unfold mbind at 1 in N.
        rewrite (classes_added t Ht _ _ _ _ _ H), HP in N. unfold mbind at 1, query in N. rewrite G in N. discriminate.
      - exact (F2 _ _ G). }
    destruct (from_data generate validate data c s) as [r s']. cbn [fst] in NF.
    inversion R; subst; [|left; eauto|left; eauto].
    destruct r as [d|e|]; [exfalso; eapply H1; reflexivity | right; eauto | now exfalso; apply NF].
  Qed.

  Lemma use_cases w k data c ob : World_ok t w -> nth_error (w_objects w) k = Some ob ->
    fst (step w (Use k data c)) = Some (Val data) \/
    exists e, step w (Use k data c) = (Some (Raise e), w).
  Proof.
    intros [Hd Ho] E. cbn [Live.step]. rewrite E. rewrite Forall_forall in Ho.
    destruct (from_data_cases (o_validate ob) data c (State (o_lines ob) (w_disk w) []) (Ho ob (nth_error_In _ _ E))) as [(s' & ->) | (e & ->)]; [now left|].
    right. exists e. cbn [s_disk s_lines]. rewrite set_nth_same by (destruct ob; exact E). now destruct w.
  Qed.

  (** One call in any state that can arise. *)
  Lemma yaml_choice w k fs p arg c ob : World_ok t w -> nth_error (w_objects w) k = Some ob ->
    (forall text v, accepted p arg -> fs p = Some text -> loader text = Val v ->
       (forall v', from_comments loader text p arg v' -> fst (step w (Use k v' c)) = Some (Val v') ->
          ystep w (UseYaml k fs p arg c) = step w (Use k v' c)) /\
       ((forall v', from_comments loader text p arg v' -> fst (step w (Use k v' c)) <> Some (Val v')) ->
          ystep w (UseYaml k fs p arg c) = step w (Use k v c))) /\
    ((exists a, arg = Some a /\ (In Above (positions_of a) /\ In Below (positions_of a) \/ ~ yaml_name (snd p))) \/ fs p = None \/ (exists text e, fs p = Some text /\ loader text = Raise e) ->
       exists e, ystep w (UseYaml k fs p arg c) = (Some (Raise e), w)).
  Proof.
    intros HW E. assert (Same : World (w_disk w) (set_nth k (Object (o_lines ob) (o_validate ob)) (w_objects w)) = w).
    { rewrite set_nth_same by (destruct ob; exact E). now destruct w. }
    cbn [LiveYaml.ystep Live.step]. rewrite E. split.
    - intros text v HA Hf Hl. unfold from_yaml_live, load. destruct arg as [a|].
      + destruct (HA a eq_refl) as [NP NM]. destruct (open_yaml_spec fs p a) as (y & tx & Ey & Et & Dy); auto; [congruence|].
        assert (tx = text) by congruence. subst tx. unfold mbind at 1 4, query. rewrite Ey.
        unfold mbind at 1 3. rewrite Hf, Hl. unfold mtry.
        pose proof (temporary_string_fuel y) as TF. destruct (temporary_string y) as [text'|e|] eqn:ET; [| |congruence].
        * unfold mbind at 1 3. unfold mbind at 1 2. rewrite write_same.
          destruct (loader text') as [v'|e|] eqn:EL; [| |exfalso; eapply F1; eauto].
          -- assert (FC : from_comments loader text p (Some a) v') by (exists a, text'; rewrite <- Dy; auto).
             destruct HW as [Hd Ho]. rewrite Forall_forall in Ho.
             destruct (from_data_cases (o_validate ob) v' c (State (o_lines ob) (w_disk w) []) (Ho ob (nth_error_In _ _ E))) as [(s' & Q) | (e & Q)]; rewrite Q.
             ++ split.
                ** intros v'' (a' & t' & Ea & Et' & El) _. injection Ea as <-. rewrite <- Dy, ET in Et'. injection Et' as <-. rewrite EL in El. injection El as <-.
                   now rewrite Q.
                ** intros X. exfalso. apply (X v' FC). rewrite Q. reflexivity.
             ++ split; [|reflexivity].
                intros v'' (a' & t' & Ea & Et' & El) X. injection Ea as <-. rewrite <- Dy, ET in Et'. injection Et' as <-. rewrite EL in El. injection El as <-.
                rewrite Q in X. discriminate.
          -- split; [|reflexivity]. intros v'' (a' & t' & Ea & Et' & El). injection Ea as <-. rewrite <- Dy, ET in Et'. injection Et' as <-. congruence.
        * unfold mbind at 1 3. split; [|reflexivity]. intros v'' (a' & t' & Ea & Et' & El). injection Ea as <-. rewrite <- Dy in Et'. congruence.
      + unfold mbind, query. rewrite Hf, Hl. split; [intros v' (a & _ & X & _); discriminate | reflexivity].
    - intros HN. unfold from_yaml_live, load, mbind, query. destruct arg as [a|].
      + destruct (yaml_init_spec (snd p) a "") as [Y1 _]. unfold open_yaml.
        assert (NF : forall x, yaml_init (snd p) a x <> NoFuel) by (intros x; unfold yaml_init; destruct (_ && _); [discriminate|]; destruct (negb _); discriminate).
        destruct HN as [(a' & Ea & HN) | [HN | (text & e & Hf & Hl)]].
        * injection Ea as <-. rewrite (Y1 HN); cbn [s_disk s_lines]; cbn [s_disk s_lines]. rewrite Same. eauto.
        * rewrite HN. specialize (NF ""). destruct (yaml_init (snd p) a ""); [| |congruence]; cbn [s_disk s_lines]; rewrite Same; eauto.
        * rewrite Hf, Hl. specialize (NF "") as N1. specialize (NF text) as N2.
          destruct (yaml_init (snd p) a ""); [|cbn [s_disk s_lines]; rewrite Same; eauto|congruence].
          destruct (yaml_init (snd p) a text); [| |congruence]; cbn [s_disk s_lines]; rewrite Same; eauto.
      + destruct HN as [HN | [HN | (text & e & Hf & Hl)]]; [destruct HN as (a & Ea & _); discriminate| |].
        * rewrite HN. cbn [s_disk s_lines]. rewrite Same. eauto.
        * rewrite Hf, Hl. cbn [s_disk s_lines]. rewrite Same. eauto.
  Qed.

  (** A call of [from_yaml_file] is a call of [from_data] or nothing. *)
  Lemma yaml_as_use w k fs p arg c : World_ok t w ->
    (exists v, fst (ystep w (UseYaml k fs p arg c)) = Some (Val v) /\ ystep w (UseYaml k fs p arg c) = step w (Use k v c) /\
       exists text, fs p = Some text /\ (loader text = Val v \/ from_comments loader text p arg v)) \/
    ((forall v, fst (ystep w (UseYaml k fs p arg c)) <> Some (Val v)) /\ snd (ystep w (UseYaml k fs p arg c)) = w).
  Proof.
    intros HW. destruct (nth_error (w_objects w) k) as [ob|] eqn:E; [|right; cbn [LiveYaml.ystep]; rewrite E; split; [discriminate | reflexivity]].
    destruct (yaml_choice w k fs p arg c ob HW E) as [A B].
    assert (R : forall e, ystep w (UseYaml k fs p arg c) = (Some (Raise e), w) ->
      (forall v, fst (ystep w (UseYaml k fs p arg c)) <> Some (Val v)) /\ snd (ystep w (UseYaml k fs p arg c)) = w) by (intros e ->; split; [discriminate | reflexivity]).
    assert (DA : accepted p arg \/ exists a, arg = Some a /\ (In Above (positions_of a) /\ In Below (positions_of a) \/ ~ yaml_name (snd p))).
    { destruct arg as [a|]; [|left; intros a; discriminate].
      destruct (yaml_init (snd p) a "") as [y|e|] eqn:Y.
      - left. intros a' Ea. injection Ea as <-. unfold yaml_init in Y. rewrite <- !pos_mem_spec, <- path_suffix_yaml.
        destruct (pos_mem Above _ && pos_mem Below _) eqn:Q1; [discriminate|]. destruct (_ || _) eqn:Q2; [|discriminate].
        split; [intros [X1 X2]; rewrite X1, X2 in Q1; discriminate | reflexivity].
      - right. exists a. split; [reflexivity|]. unfold yaml_init in Y. rewrite <- !pos_mem_spec, <- path_suffix_yaml.
        destruct (pos_mem Above _ && pos_mem Below _) eqn:Q1; [left; now apply andb_true_iff in Q1|]. right. destruct (_ || _); [discriminate Y | discriminate].
      - unfold yaml_init in Y. destruct (_ && _); [discriminate|]. destruct (negb _); discriminate. }
    destruct DA as [HA|HA]; [|destruct (B (or_introl HA)) as (e & X); right; eauto].
    destruct (fs p) as [text|] eqn:Hf; [|destruct (B (or_intror (or_introl eq_refl))) as (e & X); right; eauto].
    destruct (loader text) as [v|e|] eqn:Hl; [|destruct (B (or_intror (or_intror (ex_intro _ text (ex_intro _ e (conj eq_refl Hl)))))) as (e' & X); right; eauto | exfalso; eapply F1; eauto].
    destruct (A text v HA eq_refl Hl) as [A1 A2].
    assert (DC : (exists v', from_comments loader text p arg v' /\ fst (step w (Use k v' c)) = Some (Val v')) \/
                 (forall v', from_comments loader text p arg v' -> fst (step w (Use k v' c)) <> Some (Val v'))).
    { destruct arg as [a|]; [|right; intros v' (a & _ & X & _); discriminate].
      destruct (temporary_string (Yaml (snd p) (splitlines text) (positions_of a))) as [text'|e|] eqn:ET.
      - destruct (loader text') as [v'|e|] eqn:EL.
        + destruct (use_cases w k v' c ob HW E) as [Q | (e & Q)]; [left; exists v'; split; [exists a, text'; auto | exact Q]|].
          right. intros v'' (a' & t' & Ea & Et' & El). injection Ea as <-. rewrite ET in Et'. injection Et' as <-. rewrite EL in El. injection El as <-. rewrite Q. discriminate.
        + right. intros v'' (a' & t' & Ea & Et' & El). injection Ea as <-. congruence.
        + right. intros v'' (a' & t' & Ea & Et' & El). injection Ea as <-. congruence.
      - right. intros v'' (a' & t' & Ea & Et' & El). injection Ea as <-. congruence.
      - right. intros v'' (a' & t' & Ea & Et' & El). injection Ea as <-. congruence. }
    destruct DC as [(v' & FC & Q) | N].
    - left. exists v'. rewrite (A1 v' FC Q). split; [exact Q|]. split; [reflexivity|]. eauto.
    - rewrite (A2 N). destruct (use_cases w k v c ob HW E) as [Q | (e & Q)]; [left; exists v; split; [exact Q|]; split; [reflexivity | eauto]|].
      right. rewrite Q. split; [discriminate | reflexivity].
  Qed.

  Lemma ystep_ok w o : World_ok t w -> World_ok t (snd (ystep w o)).
  Proof.
    intros HW. destruct o as [o | k fs p arg c]; [now apply (step_ok unparsed generate t Ht Hinit)|].
    destruct (yaml_as_use w k fs p arg c HW) as [(v & _ & -> & _) | [_ ->]]; [|exact HW]. now apply (step_ok unparsed generate t Ht Hinit).
  Qed.

  Lemma ysteps_cons w o os : ysteps w (o :: os) =
    (fst (ystep w o) :: fst (ysteps (snd (ystep w o)) os), snd (ysteps (snd (ystep w o)) os)).
  Proof. cbn [LiveYaml.ysteps]. destruct (ystep w o) as [x w1]. cbn [fst snd]. now destruct (ysteps w1 os). Qed.

  Lemma ysteps_ok os : forall w, World_ok t w -> World_ok t (snd (ysteps w os)).
  Proof. induction os as [|o os IH]; intros w HW; [exact HW|]. rewrite ysteps_cons. cbn [snd]. now apply IH, ystep_ok. Qed.

  Lemma histories os : forall w, World_ok t w -> exists os',
    Replaced loader os (fst (ysteps w os)) os' (fst (steps w os')) /\ snd (ysteps w os) = snd (steps w os').
  Proof.
    induction os as [|o os IH]; intros w HW; [exists []; split; [constructor | reflexivity]|].
    rewrite ysteps_cons. cbn [fst snd]. destruct (IH _ (ystep_ok w o HW)) as (os' & R & E).
    destruct o as [o | k fs p arg c].
    - exists (o :: os'). rewrite steps_cons. cbn [fst snd LiveYaml.ystep] in *. split; [now constructor | exact E].
    - destruct (yaml_as_use w k fs p arg c HW) as [(v & Q & S1 & X) | [Q S1]].
      + exists (Use k v c :: os'). rewrite steps_cons. cbn [fst snd]. rewrite <- S1, Q. split; [now constructor | exact E].
      + exists os'. rewrite S1 in *. split; [|exact E]. now constructor.
  Qed.
End Proofs.

(** ** C70: from_yaml_file acts as from_data *)
Theorem C70_histories : forall D (loader : string -> exc D) unparsed (generate : D -> string -> exc string) tempdir t os,
  well_formed t = true -> initial_lines unparsed = Val (template_lines t) ->
  (forall text, loader text <> NoFuel) -> (forall d c, generate d c <> NoFuel) ->
  exists os', Replaced loader os (fst (ysteps loader unparsed generate tempdir clean os)) os' (fst (steps unparsed generate clean os')) /\
    snd (ysteps loader unparsed generate tempdir clean os) = snd (steps unparsed generate clean os').
Proof. intros D loader unparsed generate tempdir t os Ht Hi F1 F2. apply (histories loader unparsed generate tempdir t Ht Hi F1 F2). apply clean_ok. Qed.
Print Assumptions C70_histories.

(** Which data are used, in every state a history can lead to: those with comments as keys if the call with them returns,
    else those of the file itself. *)
Theorem C70_data : forall D (loader : string -> exc D) unparsed (generate : D -> string -> exc string) tempdir t os k fs p arg c text v,
  well_formed t = true -> initial_lines unparsed = Val (template_lines t) ->
  (forall text, loader text <> NoFuel) -> (forall d c, generate d c <> NoFuel) ->
  let w := snd (ysteps loader unparsed generate tempdir clean os) in
  let out := ystep loader unparsed generate tempdir w (UseYaml k fs p arg c) in
  k < List.length (w_objects w) -> accepted p arg -> fs p = Some text -> loader text = Val v ->
  (forall v', from_comments loader text p arg v' -> fst (step unparsed generate w (Use k v' c)) = Some (Val v') ->
     out = step unparsed generate w (Use k v' c)) /\
  ((forall v', from_comments loader text p arg v' -> fst (step unparsed generate w (Use k v' c)) <> Some (Val v')) ->
     out = step unparsed generate w (Use k v c)).
Proof.
  intros D loader unparsed generate tempdir t os k fs p arg c text v Ht Hi F1 F2 w out L HA Hf Hl.
  destruct (nth_error (w_objects w) k) as [ob|] eqn:E; [|apply nth_error_None in E; lia].
  assert (HW : World_ok t w) by (apply (ysteps_ok loader unparsed generate tempdir t Ht Hi F1 F2), clean_ok).
  exact (proj1 (yaml_choice loader unparsed generate tempdir t Ht F1 F2 w k fs p arg c ob HW E) text v HA Hf Hl).
Qed.
Print Assumptions C70_data.

(** Files that cannot be loaded and arguments that are not accepted: an exception, and nothing has changed. *)
Theorem C70_errors : forall D (loader : string -> exc D) unparsed (generate : D -> string -> exc string) tempdir t os k fs p arg c,
  well_formed t = true -> initial_lines unparsed = Val (template_lines t) ->
  (forall text, loader text <> NoFuel) -> (forall d c, generate d c <> NoFuel) ->
  let w := snd (ysteps loader unparsed generate tempdir clean os) in
  k < List.length (w_objects w) ->
  (exists a, arg = Some a /\ (In Above (positions_of a) /\ In Below (positions_of a) \/ ~ yaml_name (snd p))) \/
  fs p = None \/ (exists text e, fs p = Some text /\ loader text = Raise e) ->
  exists e, ystep loader unparsed generate tempdir w (UseYaml k fs p arg c) = (Some (Raise e), w).
Proof.
  intros D loader unparsed generate tempdir t os k fs p arg c Ht Hi F1 F2 w L HN.
  destruct (nth_error (w_objects w) k) as [ob|] eqn:E; [|apply nth_error_None in E; lia].
  assert (HW : World_ok t w) by (apply (ysteps_ok loader unparsed generate tempdir t Ht Hi F1 F2), clean_ok).
  exact (proj2 (yaml_choice loader unparsed generate tempdir t Ht F1 F2 w k fs p arg c ob HW E) HN).
Qed.
Print Assumptions C70_errors.

(** ** C71: the value returned *)
Theorem C71_value_partial : forall D (loader : string -> exc D) unparsed (generate : D -> string -> exc string) tempdir t os k fs p arg c text v,
  well_formed t = true -> initial_lines unparsed = Val (template_lines t) ->
  (forall text, loader text <> NoFuel) -> (forall d c, generate d c <> NoFuel) ->
  let w := snd (ysteps loader unparsed generate tempdir clean os) in
  k < List.length (w_objects w) -> accepted p arg -> fs p = Some text -> loader text = Val v ->
  (forall v', from_comments loader text p arg v' -> v' = v) ->
  ystep loader unparsed generate tempdir w (UseYaml k fs p arg c) = step unparsed generate w (Use k v c).
Proof.
  intros D loader unparsed generate tempdir t os k fs p arg c text v Ht Hi F1 F2 w L HA Hf Hl U.
  destruct (C70_data D loader unparsed generate tempdir t os k fs p arg c text v Ht Hi F1 F2 L HA Hf Hl) as [A B]. fold w in A, B.
  destruct (nth_error (w_objects w) k) as [ob|] eqn:E; [|apply nth_error_None in E; lia].
  assert (HW : World_ok t w) by (apply (ysteps_ok loader unparsed generate tempdir t Ht Hi F1 F2), clean_ok).
  destruct (use_cases unparsed generate t Ht F2 w k v c ob HW E) as [Q | (e & Q)].
  - destruct (yaml_as_use loader unparsed generate tempdir t Ht F1 F2 w k fs p arg c HW) as [(v' & Q' & S1 & (text' & Hf' & [X|X])) | [N _]].
    + rewrite S1. congruence.
    + assert (text' = text) by congruence. subst. now rewrite S1, (U v' X).
    + apply B. intros v' FC _. pose proof (U v' FC) as X. subst v'. apply (N v). now rewrite (A v FC Q).
  - apply B. intros v' FC. rewrite (U v' FC), Q. discriminate.
Qed.
Print Assumptions C71_value_partial.

(** What PyYAML's safe_load gives for the two texts of the witness. *)
Definition c71_original : string := "a: 1  # x".
Definition c71_rewritten : string := "___docstring_hidden_key_a: |" ++ nl ++ " x." ++ nl ++ "a: 1  # x".
Definition c71_data : pyval := vdict [("a", vint)].
Definition c71_hidden : pyval := vdict [(hidden_prefix ++ "a", VStr ("x." ++ nl)); ("a", vint)].
Definition c71_loader (text : string) : exc pyval :=
  if String.eqb text c71_original then Val c71_data
  else if String.eqb text c71_rewritten then Val c71_hidden else Raise ValueError.
Definition c71_files : files := fun p => if path_eqb p ("d", "c.yaml") then Some c71_original else None.

Theorem C71_value_refuted :
  c71_loader c71_original = Val c71_data /\ c71_files ("d", "c.yaml") = Some c71_original /\
  fst (ysteps c71_loader live_unparsed live_text "/tmp" clean [Plain (New false); UseYaml 0 c71_files ("d", "c.yaml") (Some (One Side)) "A"])
    = [None; Some (Val c71_hidden)] /\
  c71_hidden <> c71_data.
Proof. split; [reflexivity|]. split; [reflexivity|]. split; [vm_compute; reflexivity|]. discriminate. Qed.
Print Assumptions C71_value_refuted.

Example C70_example : exists t, well_formed t = true /\ initial_lines live_unparsed = Val (template_lines t) /\
  (forall text, c71_loader text <> NoFuel) /\
  let w := snd (ysteps c71_loader live_unparsed live_text "/tmp" clean [Plain (New false)]) in
  0 < List.length (w_objects w) /\ accepted ("d", "c.yaml") (Some (One Side)) /\
  from_comments c71_loader c71_original ("d", "c.yaml") (Some (One Side)) c71_hidden /\
  (forall v, from_comments c71_loader c71_original ("d", "c.yaml") None v -> v = c71_data) /\
  fst (ystep c71_loader live_unparsed live_text "/tmp" w (UseYaml 0 c71_files ("d", "c.yaml") None "A")) = Some (Val c71_data) /\
  fst (ystep c71_loader live_unparsed live_text "/tmp" w (UseYaml 0 c71_files ("d", "c.yaml") (Some (Many [Above; Below])) "A")) = Some (Raise YamlError) /\
  fst (ystep c71_loader live_unparsed live_text "/tmp" w (UseYaml 0 c71_files ("d", "other.yaml") (Some (One Side)) "A")) = Some (Raise FileNotFound).
Proof.
  exists live_template. split; [vm_compute; reflexivity|]. split; [vm_compute; reflexivity|].
  split; [intros text; unfold c71_loader; destruct (String.eqb _ _); [discriminate|]; destruct (String.eqb _ _); discriminate|].
  cbv zeta. split; [vm_compute; lia|]. split.
  - intros a Ea. injection Ea as <-. split; [intros [[X|[]] _]; discriminate|]. apply path_suffix_yaml. reflexivity.
  - split; [exists (One Side), c71_rewritten; split; [reflexivity|]; split; [vm_compute; reflexivity | reflexivity]|].
    split; [intros v (a & _ & X & _); discriminate|].
    split; [vm_compute; reflexivity|]. split; [vm_compute; reflexivity|vm_compute; reflexivity].
Qed.
