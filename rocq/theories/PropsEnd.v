(** C96: the class files that the live object writes describe the data they were written for. *)
From Coq Require Import Ascii String List Bool Arith Lia Permutation.
From Verif Require Import Exc PyStr PyStrFacts Utils Strategies Dispatch Values Tree Build Emit Imports ImportsFacts TreeFacts SpecNames NamesFacts SpecData SpecTypes SpecEmit SpecImports SpecModules SpecMerge SpecExact Elab BuildFacts TotalFacts
  TreeProofs EmitFacts EmitTop TextFacts SpecSound SoundTop SoundRead SpecCamel SpecUnique SpecClear Samples SampleUnique SampleEmit SampleSound SampleClear PyFile PyFileFacts Live SpecLive LiveFacts LiveHistory LiveSample SoundJson
  PropsBase PropsEmit SoundHash PropsUnique PropsClear PropsOutput PropsLive PropsExact SpecMachine PropsMachine SpecEnd PropsRead.
Import ListNotations.
Local Open Scope string_scope.
Local Open Scope nat_scope.

(** ** The text of one class *)
Lemma block_describes s t block : format_imports 90 (recorded_imports s t) = Some block ->
  exists stmts, import_block stmts block /\ forall x, imported (recorded_imports s t) x -> brought stmts x.
Proof.
  intros H. set (ks := flat_map (fun n => snd (top s n)) (collect s t)).
  assert (Pm : Permutation (imp_adds ks []) (recorded_imports s t)) by apply Permutation_refl.
  destruct (C28_import_block_content 90 ks _ ltac:(lia) Pm) as [_ C]. destruct (C block H) as (stmts & _ & F & Sy & J). exists stmts. split; [split|].
  - rewrite Forall_forall in *. intros [[p ns] st] Hx. destruct (F _ Hx) as [St _]. unfold importable, s_module, s_names, s_text. cbn [fst snd] in *. split; [exact St|].
    assert (B : forallb (fun e => mem (fst (snd e)) ["pandas"; "npt"; "numpy"] || mem (snd (snd e)) (offers (fst (snd e)))) PACKAGE = true) by (vm_compute; reflexivity).
    rewrite forallb_forall in B.
    assert (O : ~ whole_module p -> incl ns (offers p)).
    { intros W x Hxn. destruct (proj1 (Sy p x)) as (k & _ & Hk); [eauto|]. specialize (B _ Hk). cbn [fst snd] in B. apply orb_true_iff in B as [B|B].
      - exfalso. apply W. apply mem_spec in B. cbn in B. unfold whole_module. intuition.
      - now apply mem_spec in B. }
    destruct St as [| | |p ns s0 W Ne Jn|p ns s0 W Ne Jn]; try (left; unfold module_import; cbn; tauto); right; repeat split; auto.
  - exact J.
  - intros x (kw & K & Pr). unfold recorded_imports in K. fold ks in K. apply ImportsFacts.imp_adds_In in K as [K|[]].
    destruct Pr as [(p & Pk)|[-> ->]].
    + destruct (proj2 (Sy p x)) as (st & ss & A & B); [eauto|]. exists (p, ss, st), x. auto.
    + destruct (proj2 (Sy "pandas" "pandas")) as (st & ss & A & B); [exists "pandas"; split; auto; cbn; tauto|]. exists ("pandas", ss, st), "pandas". unfold s_names, s_module. cbn [fst snd]. auto.
Qed.
Theorem C96_text : forall s ord v c, valid s -> set_like ord -> describable s c v ->
  exists text, class_text s ord v c = Val text /\ Describes text c v.
Proof.
  intros s ord v c Hs Ho [T C N L A P I Hl]. destruct (C09_data_partial s ord v c Hs Ho T C N L A P I Hl) as (t & ds & H & D & R & U & Nd & Acc).
  destruct (fits_accepts_decls s ord Hs Ho v c t _ T N H D) as (E & R' & _). assert (ds = decls s t) as -> by (symmetry; now apply U). clear E R'.
  pose proof N as (O & W & K & Cm). destruct (resolved s t (map print_decl (decls s t)) (from_data_eq_free s ord v c t Hs Ho O (named_plain v W) H) (from_data_keys_builtin s ord v c t Ho K H)) as [_ Res]; [ | |exact D|].
  { intros n Hn. eapply from_data_wordy; eauto. }
  { intros Td n Hn. apply td_strategy_iff in Td. destruct (Cm Td) as (? & ? & ?). eapply from_data_camel; eauto. }
  unfold class_text. rewrite H. destruct (formatted s t) as (block & F). destruct (to_string s t true) as [text|] eqn:X.
  - exists text. split; [reflexivity|]. destruct (C66_layout s t true text X) as (texts & D' & _ & block' & F' & Lay). rewrite D in D'. injection D' as <-. rewrite F in F'. injection F' as <-.
    destruct (block_describes s t block F) as (stmts & B & Br). exists stmts, (decls s t). split; [exists block; auto|]. split; [exact Nd|]. split; [|exact Acc].
    intros a d b E x Hx. destruct (Res a d b E x Hx) as [Y|[Y|Y]]; auto.
  - exfalso. destruct (root_perm s ord v c t H) as (_ & Ct & _). unfold to_string in X. destruct (get_strs s t true) eqn:G; [discriminate|]. apply get_strs_none in G as (m & Hm & Fm); [|intros Z; rewrite Z in Ct; destruct Ct].
    unfold declarations in D. assert (existsb function_fails (collect s t) = true) by (apply existsb_exists; eauto). rewrite H0 in D. discriminate.
Qed.
Print Assumptions C96_text.

(** ** Histories *)
Lemma class_text_fuel s ord v c : class_text s ord v c <> NoFuel.
Proof. unfold class_text. destruct (Build.from_data s ord v c); try discriminate. destruct (to_string _ _ _); discriminate. Qed.

Section Files.
  Variable generate : pyval -> string -> exc string.
  Notation runs := (Runs generate SpecExact.accepted agree).
  Definition from_history (os : list (@op pyval)) (fs : list (string * string)) : Prop :=
    forall c text, In (c, text) fs -> exists v, given os c v /\ generate v c = Val text.
  Lemma call_files k v fs data c r es : Call generate SpecExact.accepted agree k v fs data c r es ->
    forall c' text, In (EFile c' text) es -> c' = c /\ generate data c = Val text.
  Proof. intros C c' text H. destruct C; cbn [In] in H; repeat match type of H with _ \/ _ => destruct H as [H|H] end; try contradiction; try discriminate; injection H as <- <-; auto. Qed.
  Lemma afterwards_files es : forall d c text, In (c, text) (snd (fold_left after es d)) -> In (c, text) (snd d) \/ In (EFile c text) es.
  Proof.
    induction es as [|e es IH]; intros d c text H; cbn [fold_left] in H; auto. apply IH in H as [H|H]; [|right; now right]. destruct e as [c' x|k]; cbn [after snd In] in H; auto. destruct H as [H|H]; auto. injection H as -> ->. right. now left.
  Qed.
  Lemma firstn_In {A} n (l : list A) x : In x (firstn n l) -> In x l.
  Proof. rewrite <- (firstn_skipn n l) at 2. rewrite in_app_iff. auto. Qed.
  Lemma acts_files m o x m' : Acts generate SpecExact.accepted agree m o x m' -> forall c text, In (c, text) (m_files m') -> In (c, text) (m_files m) \/ exists v, gives o c v /\ generate v c = Val text.
  Proof.
    intros A c text H. destruct A as [v| |a k v b data c' r es E C|a k v b data c' r es n E C| |]; cbn [m_files] in H; auto.
    - destruct H.
    - apply afterwards_files in H as [H|H]; auto. destruct (call_files _ _ _ _ _ _ _ C _ _ H) as [-> G]. right. exists data. split; [split; auto|exact G].
    - apply afterwards_files in H as [H|H]; auto. apply firstn_In in H. destruct (call_files _ _ _ _ _ _ _ C _ _ H) as [-> G]. right. exists data. split; [split; auto|exact G].
  Qed.
  Lemma runs_files os : forall m xs m', runs m os xs m' -> forall c text, In (c, text) (m_files m') -> In (c, text) (m_files m) \/ exists v, given os c v /\ generate v c = Val text.
  Proof.
    induction os as [|o os IH]; intros m xs m' R c text H; inversion R as [|? ? x m1 ? ys ? A R1]; subst; auto. destruct (IH _ _ _ R1 c text H) as [H1|(v & (o' & I & Gv) & G)].
    - destruct (acts_files _ _ _ _ A c text H1) as [H2|(v & Gv & G)]; auto. right. exists v. split; auto. exists o. split; [now left|auto].
    - right. exists v. split; auto. exists o'. split; [now right|auto].
  Qed.
End Files.

(** Whatever objects, calls, resets and crashes there were: a class file describes data that was given for the class (if the data meets the conditions of C09). *)
Theorem C96_files : forall s ord unparsed t os c text, valid s -> set_like ord -> well_formed t = true -> initial_lines unparsed = Val (template_lines t) ->
  lookup c (d_build (w_disk (snd (steps unparsed (class_text s ord) clean os)))) = Some text ->
  exists v, given os c v /\ class_text s ord v c = Val text /\ (describable s c v -> Describes text c v).
Proof.
  intros s ord unparsed t os c text Hs Ho Ht Hi H. destruct (C94_machine pyval unparsed (class_text s ord) t os Ht Hi (class_text_fuel s ord)) as (m & R & (_ & F & _)). destruct (proj1 (F c text) H) as (a & b & E & _).
  destruct (runs_files _ os _ _ _ R c text) as [[]|(v & G & T)]. { rewrite E. apply in_or_app. right. now left. }
  exists v. split; auto. split; auto. intros D. destruct (C96_text s ord v c Hs Ho D) as (x & T' & Q). rewrite T in T'. injection T' as <-. exact Q.
Qed.
Print Assumptions C96_files.

(** A call for such data after any history, of an object that finds the files of its classes and that does not validate or does not know the class:
    it returns the data, and the class file describes it.  If the class is new, the stub then imports and registers it, and both methods have an overload for it. *)
Theorem C96_call : forall s ord unparsed t os m a k v b data c, valid s -> set_like ord -> well_formed t = true -> initial_lines unparsed = Val (template_lines t) ->
  Runs (class_text s ord) SpecExact.accepted agree fresh os (fst (steps unparsed (class_text s ord) clean os)) m -> m_objects m = (a ++ (k, v) :: b)%list ->
  describable s c data -> Forall (present (m_files m)) (k_registry k) -> v = false \/ ~ In c (k_registry k) ->
  let out := step unparsed (class_text s ord) (snd (steps unparsed (class_text s ord) clean os)) (Use (List.length a) data c) in
  fst out = Some (Val data) /\
  (exists text, lookup c (d_build (w_disk (snd out))) = Some text /\ Describes text c data) /\
  (~ In c (k_registry k) -> exists known stub, d_stub (w_disk (snd out)) = Some stub /\ stub_shows t known stub /\
     In c (k_imports known) /\ In c (k_registry known) /\ In c (k_yaml known) /\ In c (k_data known)).
Proof.
  intros s ord unparsed t os m a k v b data c Hs Ho Ht Hi R E De Pr V. cbv zeta.
  destruct (C96_text s ord data c Hs Ho De) as (text & T & Q).
  assert (Ac : SpecExact.accepted c) by (apply is_compatible_accepted, is_compatible_identifier; [exact (de_plain _ _ _ De)|]; split; [exact (de_identifier _ _ _ De)|exact (de_letter _ _ _ De)]).
  destruct (next_call unparsed (class_text s ord) t Ht Hi (class_text_fuel s ord) os m a k v b data c R E) as (r & es & C & Out & R').
  destruct (C94_machine pyval unparsed (class_text s ord) t (os ++ [Use (List.length a) data c]) Ht Hi (class_text_fuel s ord)) as (m' & R2 & (St & F & _)).
  destruct (C94_determined _ _ _ _ _ _ _ _ _ _ R' R2) as [_ <-]. rewrite steps_snoc in F, St. cbn [snd m_files m_stub] in F, St. rewrite Out.
  assert (TOP : forall z fs, Holds ((c, z) :: fs) c z) by (intros z fs; exists [], fs; split; auto).
  destruct C as [Na|x _ X1 X2|e _ _ G|text0 old _ _ G Vt I Hol Na|text0 _ _ G I _|text0 i rg y d _ _ G I Ek].
  - contradiction.
  - exfalso. rewrite Forall_forall in Pr. auto.
  - congruence.
  - exfalso. destruct V; [congruence|contradiction].
  - assert (text0 = text) by congruence. subst text0. split; auto. split; [|contradiction]. exists text. split; auto. apply F, TOP.
  - assert (text0 = text) by congruence. subst text0. split; auto. split; [exists text; split; auto; apply F, TOP|]. intros _. destruct St as (stub & S1 & S2). eexists. exists stub. split; [exact S1|]. split; [exact S2|].
    cbn [k_imports k_registry k_yaml k_data]. rewrite in_app_iff. cbn [In]. auto 10.
Qed.
Print Assumptions C96_call.

(** The order of [C08_data_example] meets the conditions; a history with three objects and a crash after the class file was written. *)
Lemma order_describable : describable default_strategies "Order" order.
Proof.
  assert (Pl : plain "Order") by (apply plain_spec; reflexivity).
  assert (J : json order) by (apply jsonb_spec; vm_compute; reflexivity).
  constructor.
  - apply json_tidy; auto.
    + apply unique_keysb_spec. vm_compute. reflexivity.
    + apply no_doc_keysb_spec. vm_compute. reflexivity.
    + apply within_limitb_spec. vm_compute. reflexivity.
    + apply empties_differb_spec. vm_compute. reflexivity.
    + intros _. split; [apply rows_agreeb_spec; vm_compute; reflexivity|apply optional_keys_agreeb_spec; vm_compute; reflexivity].
  - apply clear_datab_spec. vm_compute. reflexivity.
  - apply json_names; auto. intros _. split; [apply camel_nameb_spec; vm_compute; reflexivity|]. split; [apply keys_quotableb_spec; vm_compute; reflexivity|]. now left.
  - now apply json_letters.
  - apply json_apart; auto. apply name_apartb. reflexivity.
  - exact Pl.
  - exact (proj1 (proj1 (is_compatible_identifier _ Pl) eq_refl)).
  - exact (proj2 (proj1 (is_compatible_identifier _ Pl) eq_refl)).
Qed.
Definition order_text (v : pyval) (c : string) : exc string := class_text default_strategies as_inserted v c.
Definition c96_history : list (@op pyval) := [New false; Use 0 (vlist [vint]) "A"; New true; Crash order "Order" 1 1; New false].
Example C96_example : exists m text,
  valid default_strategies /\ set_like as_inserted /\ well_formed live_template = true /\ initial_lines live_unparsed = Val (template_lines live_template) /\
  Runs order_text SpecExact.accepted agree fresh c96_history (fst (steps live_unparsed order_text clean c96_history)) m /\
  m_objects m = ([] ++ (Known ["A"] ["A"] ["A"] ["A"], false) :: [])%list /\ Forall (present (m_files m)) ["A"] /\ ~ In "Order" ["A"] /\
  describable default_strategies "Order" order /\
  lookup "Order" (d_build (w_disk (snd (steps live_unparsed order_text clean c96_history)))) = Some text /\ given c96_history "Order" order /\ Describes text "Order" order.
Proof.
  assert (VA : SpecExact.accepted "A") by (apply is_compatible_accepted; reflexivity). assert (VO : SpecExact.accepted "Order") by (apply is_compatible_accepted; reflexivity).
  destruct (C96_text default_strategies as_inserted order "Order" default_valid as_inserted_set_like order_describable) as (text & T & D).
  destruct (order_text (vlist [vint]) "A") as [ta| |] eqn:GA; [|vm_compute in GA; discriminate..].
  assert (R : Runs order_text SpecExact.accepted agree fresh c96_history (fst (steps live_unparsed order_text clean c96_history))
    (Machine (Some (Known ["A"] ["A"] ["A"] ["A"])) [("Order", text); ("A", ta)] [(Known ["A"] ["A"] ["A"] ["A"], false)])).
  { replace (fst (steps live_unparsed order_text clean c96_history)) with [None; Some (Val (vlist [vint])); None; None; None] by (vm_compute; reflexivity).
    eapply runs_cons; [apply acts_new|]. cbn.
    eapply runs_cons; [apply (acts_use _ _ _ _ [] nothing false [] _ "A"); [reflexivity|eapply call_first; [exact VA|constructor|exact GA|intros []|reflexivity]]|]. cbn.
    eapply runs_cons; [apply acts_new|]. cbn.
    eapply runs_cons; [eapply (acts_crash _ _ _ _ [_] (Known ["A"] ["A"] ["A"] ["A"]) true [] order "Order" _ _ 1); [reflexivity|eapply call_first; [exact VO| |exact T|intros [X|[]]; discriminate X|reflexivity]]|].
    { constructor; [|constructor]. exists ta, [], []. split; [reflexivity|intros []]. }
    cbn. eapply runs_cons; [apply acts_new|]. cbn. apply runs_nil. }
  destruct (C94_machine pyval live_unparsed order_text live_template c96_history live_well_formed live_initial (class_text_fuel _ _)) as (m & R' & (_ & F & _)).
  destruct (C94_determined _ _ _ _ _ _ _ _ _ _ R R') as [_ E]. subst m. cbn [m_files] in F.
  eexists. exists text. split; [apply default_valid|]. split; [apply as_inserted_set_like|]. split; [exact live_well_formed|]. split; [exact live_initial|]. split; [exact R|].
  split; [reflexivity|]. split; [constructor; [|constructor]; exists ta, [("Order", text)], []; split; [reflexivity|intros [X|[]]; discriminate X]|]. split; [intros [X|[]]; discriminate X|].
  split; [exact order_describable|]. split; [apply F; exists [], [("A", ta)]; split; [reflexivity|intros []]|]. split; [|exact D].
  exists (Crash order "Order" 1 1). split; [cbn; auto 10|split; reflexivity].
Qed.
