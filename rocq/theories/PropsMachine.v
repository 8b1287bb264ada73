(** C94: [LazyTypeHintLive] behaves like the machine of SpecMachine.v in every history. *)
From Coq Require Import Ascii String List Bool Arith ZArith Lia Permutation.
From Verif Require Import PyStr PyStrFacts OrderFacts Utils NamesFacts Exc SpecNames SpecText
  Strategies Dispatch Values Tree Build Emit Samples
  YamlLines YamlEntries PyFile PyFileFacts Live SpecLive LiveText LiveMethods LiveBlocks LiveFacts LiveHistory LiveCounts LiveSample
  PropsLive SpecExact PropsExact LiveYaml PropsLiveYaml SpecMachine.
Import ListNotations.
Local Open Scope string_scope.
Local Open Scope nat_scope.

(** The two texts say the same apart from docstrings, after line ends are read as the file system gives them back. *)
Definition agree (text old : string) : Prop := exists r, Compared text r /\ Compared (universal old) r.
Lemma agree_spec text old : agree text old <-> remove_docstrings text = remove_docstrings (universal old).
Proof.
  unfold agree. split.
  - intros (r & A & B). apply compared_spec in A, B. congruence.
  - intros E. exists (remove_docstrings text). split; apply compared_spec; auto.
Qed.

(** ** Determinism *)
Lemma Holds_one fs c a b : Holds fs c a -> Holds fs c b -> a = b.
Proof.
  intros (x & y & -> & N) (x' & y' & E & N'). revert x' E N'. induction x as [|[n t] x IH]; intros x' E N'.
  - destruct x' as [|[n' t'] x']; cbn [app] in E; [congruence|]. injection E as -> -> _. exfalso. apply N'. now left.
  - destruct x' as [|[n' t'] x']; cbn [app] in E; [injection E as -> -> _; exfalso; apply N; now left|]. injection E as _ _ E. apply (IH (fun H => N (or_intror H)) x' E). intros H. apply N'. now right.
Qed.
Section Determined.
  Context {D : Type}.
  Variable generate : D -> string -> exc string.
  Variable valid : string -> Prop.
  Variable agrees : string -> string -> Prop.
  Lemma call_one k v fs data c r es r' es' : Call generate valid agrees k v fs data c r es -> Call generate valid agrees k v fs data c r' es' -> r = r' /\ es = es'.
  Proof.
    intros A B. destruct A, B; try contradiction; try (split; congruence);
      repeat match goal with
      | F : Forall (present ?fs) ?l, I : In ?x ?l, N : ~ present ?fs ?x |- _ => exfalso; apply N; rewrite Forall_forall in F; auto
      | H : generate ?a ?b = _, H' : generate ?a ?b = _ |- _ => rewrite H in H'; try discriminate; injection H' as ->
      | H : Holds ?fs ?c ?a, N : ~ agrees ?t ?a, Q : ?v = true -> forall old, Holds ?fs ?c old -> agrees ?t old |- _ => exfalso; apply N; auto
      end; try contradiction; try (split; congruence).
  Qed.
  Lemma acts_one m o x m1 x' m2 : Acts generate valid agrees m o x m1 -> Acts generate valid agrees m o x' m2 -> x = x' /\ m1 = m2.
  Proof.
    assert (SP : forall (a b a' b' : list (known * bool)) y y', (a ++ y :: b)%list = (a' ++ y' :: b')%list -> List.length a = List.length a' -> a = a' /\ y = y' /\ b = b').
    { induction a as [|z a IH]; intros b [|z' a'] b' y y' E L; cbn [app List.length] in *; try discriminate; [injection E as -> ->; auto|].
      injection E as -> E. injection L as L. destruct (IH _ _ _ _ _ E L) as (-> & -> & ->). auto. }
    intros A B. destruct A; inversion B; subst; auto;
      repeat match goal with
      | H : m_objects ?m = _, H' : m_objects ?m = _ |- _ => rewrite H in H'; apply SP in H'; [destruct H' as (-> & Hkv & ->); injection Hkv as -> ->|congruence]
      | H : Call _ _ _ ?k ?v ?fs ?d ?c _ _, H' : Call _ _ _ ?k ?v ?fs ?d ?c _ _ |- _ => destruct (call_one _ _ _ _ _ _ _ _ _ H H') as [-> ->]; clear H'
      end; auto;
      match goal with H : m_objects ?m = _, L : List.length (m_objects ?m) <= _ |- _ => rewrite H, app_length in L; cbn [List.length] in L; lia end.
  Qed.
  Theorem runs_one m os xs m1 : Runs generate valid agrees m os xs m1 -> forall xs' m2, Runs generate valid agrees m os xs' m2 -> xs = xs' /\ m1 = m2.
  Proof.
    induction 1 as [m|m o x m1 os xs m2 A R IH]; intros xs' m3 H; inversion H; subst; auto. destruct (acts_one _ _ _ _ _ _ A H3) as [-> ->].
    destruct (IH _ _ H6) as [-> ->]. auto.
  Qed.
End Determined.

(** ** Refinement *)
Section Refinement.
  Context {D : Type}.
  Variable unparsed : list string.
  Variable generate : D -> string -> exc string.
  Variable t : template.
  Hypothesis Ht : well_formed t = true.
  Hypothesis Hinit : initial_lines unparsed = Val (template_lines t).
  Hypothesis Hgen : forall d c, generate d c <> NoFuel.
  Notation step := (step unparsed generate).
  Notation steps := (steps unparsed generate).
  Notation Call := (Call generate SpecExact.accepted agree).
  Notation Acts := (Acts generate SpecExact.accepted agree).
  Notation Runs := (Runs generate SpecExact.accepted agree).

  Definition KShape (k : known) (l : list string) : Prop := Shape t (k_imports k) (k_registry k) (k_yaml k) (k_data k) l.
  Definition Files (fs : list (string * string)) (b : list (string * string)) : Prop := forall c text, lookup c b = Some text <-> Holds fs c text.
  Definition RepDisk (s : option known * list (string * string)) (d : disk) : Prop :=
    match fst s with None => d_stub d = None | Some k => exists l, d_stub d = Some (py_str l) /\ KShape k l end /\ Files (snd s) (d_build d).
  Definition Realised (e : effect) (w : write) : Prop :=
    match e, w with EFile c x, WClass c' x' => c = c' /\ x = x' | EStub k, WStub x => exists l, x = py_str l /\ KShape k l | _, _ => False end.
  Definition Rep (m : machine) (w : world) : Prop :=
    RepDisk (m_stub m, m_files m) (w_disk w) /\ Forall2 (fun x o => KShape (fst x) (o_lines o) /\ snd x = o_validate o) (m_objects m) (w_objects w).

  Lemma Holds_cons c x fs c' y : Holds ((c, x) :: fs) c' y <-> (c' = c /\ y = x) \/ (c' <> c /\ Holds fs c' y).
  Proof.
    split.
    - intros (a & b & E & N). destruct a as [|[n z] a]; cbn [app] in E; [injection E as -> -> _; auto|]. injection E as <- <- E. right. split; [intros ->; apply N; now left|].
      exists a, b. split; auto. intros H. apply N. now right.
    - intros [[-> ->]|[N (a & b & -> & N')]]; [exists [], fs; split; auto; intros []|]. exists ((c, x) :: a), b. split; auto. intros [E|H]; [now apply N|now apply N'].
  Qed.
  Lemma files_store fs b c x : Files fs b -> Files ((c, x) :: fs) (store c x b).
  Proof.
    intros F c' y. rewrite lookup_store, Holds_cons. destruct (String.eqb_spec c' c) as [->|N].
    - split; [intros E; injection E as ->; auto|]. intros [[_ ->]|[N _]]; congruence.
    - split; [intros H; right; split; auto; now apply F|]. intros [[E _]|[_ H]]; [congruence|now apply F].
  Qed.
  Lemma rep_after s d e w : RepDisk s d -> Realised e w -> RepDisk (after s e) (apply_write d w).
  Proof.
    intros [S1 F] R. destruct e as [c x|k], w as [c' x'|x']; cbn [Realised] in R; try contradiction; cbn [after apply_write].
    - destruct R as [<- <-]. split; cbn [fst snd d_stub d_build]; auto. now apply files_store.
    - destruct R as (l & -> & K). split; cbn [fst snd d_stub d_build]; eauto.
  Qed.
  Lemma rep_writes es ws : Forall2 Realised es ws -> forall s d, RepDisk s d -> RepDisk (fold_left after es s) (apply_writes d ws).
  Proof. induction 1 as [|e w es ws R F IH]; intros s d H; [exact H|]. cbn [fold_left apply_writes]. apply IH. now apply rep_after. Qed.
  Lemma Forall2_firstn {A B} (P : A -> B -> Prop) n : forall l l', Forall2 P l l' -> Forall2 P (firstn n l) (firstn n l').
  Proof. induction n; intros l l' H; [constructor|]. destruct H; cbn; constructor; auto. Qed.
  Lemma files_present fs b c : Files fs b -> LiveHistory.present b c = true <-> present fs c.
  Proof.
    intros F. unfold LiveHistory.present, present. destruct (lookup c b) as [x|] eqn:E; split; intros H; auto; try discriminate.
    - exists x. now apply F.
    - destruct H as (x & H). apply F in H. congruence.
  Qed.

  (** Every call. *)
  Lemma call_refines validate data c k fs s : KShape k (s_lines s) -> Files fs (d_build (s_disk s)) -> s_log s = [] ->
    exists r es ws, Call k validate fs data c r es /\ Forall2 Realised es ws /\
      fst (Live.from_data generate validate data c s) = r /\ s_log (snd (Live.from_data generate validate data c s)) = ws /\
      s_disk (snd (Live.from_data generate validate data c s)) = apply_writes (s_disk s) ws /\
      KShape (memory k es) (s_lines (snd (Live.from_data generate validate data c s))).
  Proof.
    intros H F L. destruct k as [i cs ys ds]. unfold KShape in H. cbn [k_imports k_registry k_yaml k_data] in H.
    pose proof (from_data_outcome generate t Ht validate data c i cs ys ds s H) as O.
    destruct (is_compatible c) eqn:Hc.
    2:{ exists (Raise LiveError), [], []. assert (E : Live.from_data generate validate data c s = (Raise LiveError, s)) by (unfold Live.from_data; rewrite Hc; reflexivity).
        rewrite E. cbn [fst snd]. split; [apply call_name; intros A; apply is_compatible_accepted in A; congruence|]. split; [constructor|]. auto. }
    assert (Va : SpecExact.accepted c) by now apply is_compatible_accepted.
    destruct (forallb (LiveHistory.present (d_build (s_disk s))) cs) eqn:HP.
    2:{ exists (Raise LiveError), [], []. assert (E : Live.from_data generate validate data c s = (Raise LiveError, s)).
        { unfold Live.from_data. rewrite Hc. cbn [negb]. unfold mbind at 1. rewrite (classes_added t Ht _ _ _ _ _ H), HP. reflexivity. }
        rewrite E. cbn [fst snd]. assert (X : exists x, In x cs /\ ~ present fs x).
        { clear -HP F. induction cs as [|x cs IH]; [discriminate|]. cbn [forallb] in HP. destruct (LiveHistory.present (d_build (s_disk s)) x) eqn:Ex.
          - destruct (IH HP) as (y & Hy & N). exists y. split; [now right|auto].
          - exists x. split; [now left|]. intros P. apply (files_present fs _ x F) in P. congruence. }
        destruct X as (x & Hx & N). split; [eapply call_lost; eauto|]. split; [constructor|]. auto. }
    assert (Pr : Forall (present fs) cs).
    { apply Forall_forall. intros x Hx. apply (files_present fs (d_build (s_disk s)) x F). rewrite forallb_forall in HP. auto. }
    destruct (generate data c) as [text|e|] eqn:G; [| |now apply Hgen in G].
    2:{ exists (Raise e), [], []. assert (E : Live.from_data generate validate data c s = (Raise e, s)).
        { unfold Live.from_data. rewrite Hc. cbn [negb]. unfold mbind at 1. rewrite (classes_added t Ht _ _ _ _ _ H), HP. unfold mbind at 1, query. rewrite G. reflexivity. }
        rewrite E. cbn [fst snd]. split; [now apply call_text|]. split; [constructor|]. auto. }
    destruct (from_data_returns generate t Ht validate data c i cs ys ds s text H Hc HP G) as [R1 R2].
    destruct (Live.from_data generate validate data c s) as [r s'] eqn:E. cbn [fst snd] in *.
    inversion O as [r0 NV Er | text' G' _ Hin Er | text' l1 l2 l3 l4 G' _ Hin S1 S2 S3 S4 Er].
    - subst r0 s'. assert (Nr : r <> Val data) by apply NV. specialize (R2 Nr). injection R2 as ->.
      assert (X : validate = true /\ In c cs /\ exists old, Holds fs c old /\ ~ agree text old).
      { destruct validate; [|exfalso; apply Nr, R1; discriminate]. destruct (in_dec string_dec c cs) as [Hin|Hin]; [|exfalso; apply Nr, R1; intros _ Hx; contradiction].
        split; auto. split; auto. rewrite Forall_forall in Pr. destruct (Pr c Hin) as (old & Ho). exists old. split; auto. rewrite agree_spec. intros Q. apply Nr, R1.
        intros _ _ old' Ho'. apply F in Ho'. now rewrite (Holds_one _ _ _ _ Ho' Ho). }
      destruct X as (-> & Hin & old & Ho & Na). exists (Raise LiveError), [], []. split; [eapply call_differs; eauto|]. split; [constructor|]. auto.
    - rewrite G in G'. injection G' as <-. subst r s'. exists (Val data), [EFile c text], [WClass c text]. cbn [s_log s_disk s_lines]. rewrite L. cbn [app].
      split; [|split; [repeat constructor|split; [reflexivity|split; [reflexivity|split; [reflexivity|exact H]]]]].
      apply call_again; auto. intros V old Ho. apply agree_spec. apply R1; auto. now apply F.
    - rewrite G in G'. injection G' as <-. subst r s'.
      eexists (Val data), _, _. cbn [s_log s_disk s_lines]. rewrite L. cbn [app].
      split; [eapply call_first; eauto; reflexivity|]. split; [|split; [reflexivity|split; [reflexivity|split; [reflexivity|exact S4]]]].
      repeat apply Forall2_cons; try apply Forall2_nil; cbn [Realised]; auto; eexists; (split; [reflexivity|assumption]).
  Qed.

  Lemma Forall2_len {A B} (P : A -> B -> Prop) l l' : Forall2 P l l' -> List.length l = List.length l'.
  Proof. induction 1; cbn; auto. Qed.
  Lemma Forall2_nth {A B} (P : A -> B -> Prop) l l' k y : Forall2 P l l' -> nth_error l' k = Some y ->
    exists a x b, l = (a ++ x :: b)%list /\ List.length a = k /\ P x y /\ forall y', P x y' -> Forall2 P l (set_nth k y' l').
  Proof.
    intros F. revert k. induction F as [|x z l l' H F IH]; intros [|k] E; cbn in E; try discriminate.
    - injection E as ->. exists [], x, l. split; auto. split; auto. split; auto. intros y' Hy. cbn. constructor; auto.
    - destruct (IH k E) as (a & u & b & -> & L & Pu & U). exists (x :: a), u, b. split; auto. split; [cbn; lia|]. split; auto. intros y' Hy. cbn. constructor; auto.
  Qed.
  Lemma Forall2_set {A B} (P : A -> B -> Prop) a x b l' y x' y' : Forall2 P (a ++ x :: b) l' -> nth_error l' (List.length a) = Some y -> P x' y' ->
    Forall2 P (a ++ x' :: b) (set_nth (List.length a) y' l').
  Proof.
    revert l'. induction a as [|z a IH]; intros l' F E Q; inversion F; subst; cbn in E; try discriminate; cbn [app List.length set_nth]; constructor; auto.
  Qed.

  Lemma step_refines m w o : Rep m w -> exists m', Acts m o (fst (step w o)) m' /\ Rep m' (snd (step w o)).
  Proof.
    intros [Hd Ho]. destruct o as [v | k data c | data c k n |]; cbn [Live.step].
    - assert (O : exists l, open_live unparsed (w_disk w) = Val l /\ KShape (match m_stub m with Some k => k | None => nothing end) l).
      { destruct Hd as [Hs _]. cbn [fst] in Hs. unfold open_live. destruct (m_stub m) as [k|].
        - destruct Hs as (l & -> & K). eexists. split; [reflexivity|]. now apply reread_Shape.
        - rewrite Hs. exists (template_lines t). split; [exact Hinit|]. now apply template_Shape. }
      destruct O as (l & -> & K). cbn [fst snd]. eexists. split; [apply acts_new|]. split; [exact Hd|]. cbn [m_objects w_objects]. apply Forall2_app; auto.
    - destruct (nth_error (w_objects w) k) as [ob|] eqn:E.
      + destruct (Forall2_nth _ _ _ _ _ Ho E) as (a & [kn v] & b & Em & La & [Hk Hv] & _). cbn [fst snd] in Hk, Hv. subst v k.
        destruct (call_refines (o_validate ob) data c kn (m_files m) (State (o_lines ob) (w_disk w) [])) as (r & es & ws & C & F & R1 & R2 & R3 & R4); [exact Hk|apply Hd|reflexivity|].
        destruct (Live.from_data generate (o_validate ob) data c (State (o_lines ob) (w_disk w) [])) as [r' s']. cbn [fst snd s_disk] in *. subst r'.
        eexists. split; [eapply acts_use; eauto|]. split; cbn [m_stub m_files m_objects w_disk w_objects].
        * rewrite R3. rewrite <- surjective_pairing. unfold afterwards. now apply rep_writes.
        * rewrite Em in Ho. eapply Forall2_set; eauto.
      + cbn [fst snd]. exists m. split; [|split; auto]. apply acts_no_use. rewrite (Forall2_len _ _ _ Ho). now apply nth_error_None.
    - destruct (nth_error (w_objects w) k) as [ob|] eqn:E.
      + destruct (Forall2_nth _ _ _ _ _ Ho E) as (a & [kn v] & b & Em & La & [Hk Hv] & _). cbn [fst snd] in Hk, Hv. subst v k.
        destruct (call_refines (o_validate ob) data c kn (m_files m) (State (o_lines ob) (w_disk w) [])) as (r & es & ws & C & F & R1 & R2 & R3 & R4); [exact Hk|apply Hd|reflexivity|].
        destruct (Live.from_data generate (o_validate ob) data c (State (o_lines ob) (w_disk w) [])) as [r' s']. cbn [fst snd s_disk] in *. subst r'.
        eexists. split; [eapply acts_crash; eauto|]. split; cbn [m_stub m_files m_objects w_disk w_objects]; [|constructor].
        rewrite R2, <- surjective_pairing. unfold afterwards. apply rep_writes; auto. now apply Forall2_firstn.
      + cbn [fst snd]. exists m. split; [|split; auto]. apply acts_no_crash. rewrite (Forall2_len _ _ _ Ho). now apply nth_error_None.
    - cbn [fst snd]. eexists. split; [apply acts_reset|]. split; [|exact Ho]. split; [reflexivity|]. intros c text. cbn. split; [discriminate|]. intros (a & b & X & _). destruct a; discriminate.
  Qed.
  Lemma steps_refine os : forall m w, Rep m w -> exists m', Runs m os (fst (steps w os)) m' /\ Rep m' (snd (steps w os)).
  Proof.
    induction os as [|o os IH]; intros m w H; [exists m; split; [constructor|exact H]|]. destruct (step_refines m w o H) as (m1 & A & H1). destruct (IH m1 _ H1) as (m2 & R & H2).
    exists m2. rewrite steps_cons. cbn [fst snd]. split; [econstructor; eauto|exact H2].
  Qed.
  Lemma rep_clean : Rep fresh clean.
  Proof. split; [|constructor]. split; [reflexivity|]. intros c text. cbn. split; [discriminate|]. intros (a & b & X & _). destruct a; discriminate. Qed.
End Refinement.

(** What the disk and the objects look like when the machine is in state [m]. *)
Definition stub_shows (t : template) (k : known) (text : string) : Prop :=
  Stub t (k_imports k) (k_registry k) (k_yaml k) (k_data k) (splitlines (universal text)).
Definition shows (t : template) (m : machine) (w : world) : Prop :=
  match m_stub m with None => d_stub (w_disk w) = None | Some k => exists text, d_stub (w_disk w) = Some text /\ stub_shows t k text end /\
  (forall c text, lookup c (d_build (w_disk w)) = Some text <-> Holds (m_files m) c text) /\
  Forall2 (fun x o => stub_shows t (fst x) (py_str (o_lines o)) /\ snd x = o_validate o) (m_objects m) (w_objects w).

Theorem C94_machine : forall D unparsed (generate : D -> string -> exc string) t os,
  well_formed t = true -> initial_lines unparsed = Val (template_lines t) -> (forall d c, generate d c <> NoFuel) ->
  exists m, Runs generate SpecExact.accepted agree fresh os (fst (steps unparsed generate clean os)) m /\ shows t m (snd (steps unparsed generate clean os)).
Proof.
  intros D unparsed generate t os Ht Hi Hg. destruct (steps_refine unparsed generate t Ht Hi Hg os fresh clean (rep_clean t)) as (m & R & [Hs Hf] & Ho).
  exists m. split; auto. cbn [fst snd] in *. split; [|split; [exact Hf|]].
  - destruct (m_stub m) as [k|]; auto. destruct Hs as (l & -> & K). exists (py_str l). split; auto. apply (Shape_reread t Ht _ _ _ _ _ K).
  - eapply Forall2_imp; [|exact Ho]. intros x o [K E]. split; auto. apply (Shape_reread t Ht _ _ _ _ _ K).
Qed.
Print Assumptions C94_machine.
Theorem C94_determined : forall D (generate : D -> string -> exc string) valid agrees m os xs m1 xs' m2,
  Runs generate valid agrees m os xs m1 -> Runs generate valid agrees m os xs' m2 -> xs = xs' /\ m1 = m2.
Proof. intros. eapply runs_one; eauto. Qed.
Print Assumptions C94_determined.

(** The same with calls of [from_yaml_file] anywhere: they are the calls of [from_data] that [Replaced] gives. *)
Theorem C94_yaml : forall D (loader : string -> exc D) unparsed (generate : D -> string -> exc string) tempdir t os,
  well_formed t = true -> initial_lines unparsed = Val (template_lines t) -> (forall text, loader text <> NoFuel) -> (forall d c, generate d c <> NoFuel) ->
  exists os' xs m, Replaced loader os (fst (ysteps loader unparsed generate tempdir clean os)) os' xs /\ Runs generate SpecExact.accepted agree fresh os' xs m /\ shows t m (snd (ysteps loader unparsed generate tempdir clean os)).
Proof.
  intros D loader unparsed generate tempdir t os Ht Hi F1 F2. destruct (C70_histories D loader unparsed generate tempdir t os Ht Hi F1 F2) as (os' & R & E).
  destruct (C94_machine D unparsed generate t os' Ht Hi F2) as (m & A & B). exists os', (fst (steps unparsed generate clean os')), m. rewrite E. auto.
Qed.
Print Assumptions C94_yaml.

(** Two objects made from the same stub: the second one to write a new class forgets that of the first one. *)
Definition c94_history : list (@op pyval) := [New false; New false; Use 0 (vlist [vint]) "A"; Use 1 (vlist [vint]) "B"; Use 0 (vlist [vstr]) "A"].
Example C94_example : exists m, well_formed live_template = true /\ initial_lines live_unparsed = Val (template_lines live_template) /\ (forall d c, live_text d c <> NoFuel) /\ Runs live_text SpecExact.accepted agree fresh c94_history (fst (steps live_unparsed live_text clean c94_history)) m /\ m_stub m = Some (Known ["B"] ["B"] ["B"] ["B"]) /\ m_objects m = [(Known ["A"] ["A"] ["A"] ["A"], false); (Known ["B"] ["B"] ["B"] ["B"], false)] /\ map fst (m_files m) = ["A"; "B"; "A"].
Proof.
  assert (NF : forall d c, live_text d c <> NoFuel).
  { intros d c. unfold live_text. destruct (Build.from_data _ _ d c); try discriminate. destruct (to_string _ _ _); discriminate. }
  assert (VA : SpecExact.accepted "A") by (apply is_compatible_accepted; reflexivity). assert (VB : SpecExact.accepted "B") by (apply is_compatible_accepted; reflexivity).
  destruct (live_text (vlist [vint]) "A") as [ta| |] eqn:GA; [|vm_compute in GA; discriminate..].
  destruct (live_text (vlist [vint]) "B") as [tb| |] eqn:GB; [|vm_compute in GB; discriminate..].
  destruct (live_text (vlist [vstr]) "A") as [tc| |] eqn:GC; [|vm_compute in GC; discriminate..].
  eexists. split; [exact live_well_formed|]. split; [exact live_initial|]. split; [exact NF|].
  replace (fst (steps live_unparsed live_text clean c94_history)) with [None; None; Some (Val (vlist [vint])); Some (Val (vlist [vint])); Some (Val (vlist [vstr]))] by (vm_compute; reflexivity).
  split.
  - eapply runs_cons; [apply acts_new|]. eapply runs_cons; [apply acts_new|]. cbn.
    eapply runs_cons; [apply (acts_use _ _ _ _ [] nothing false [(nothing, false)] _ "A"); [reflexivity|eapply call_first; [exact VA|constructor|exact GA|intros []|reflexivity]]|]. cbn.
    eapply runs_cons; [eapply (acts_use _ _ _ _ [_] nothing false [] _ "B"); [reflexivity|eapply call_first; [exact VB|constructor|exact GB|intros []|reflexivity]]|]. cbn.
    eapply runs_cons; [eapply (acts_use _ _ _ _ [] _ false [_] _ "A"); [reflexivity|eapply call_again; [exact VA| |exact GC|now left|discriminate]]|].
    { constructor; [|constructor]. exists ta, [("B", tb)], []. split; [reflexivity|]. intros [X|[]]. discriminate. }
    cbn. apply runs_nil.
  - cbn. auto.
Qed.

(** ** Single calls after any history *)
Lemma runs_length {D} (generate : D -> string -> exc string) valid agrees m os xs m' : Runs generate valid agrees m os xs m' -> List.length os = List.length xs.
Proof. induction 1; cbn; auto. Qed.
Lemma runs_app {D} (generate : D -> string -> exc string) valid agrees os : forall m xs m1 o x m2, Runs generate valid agrees m os xs m1 -> Acts generate valid agrees m1 o x m2 ->
  Runs generate valid agrees m (os ++ [o]) (xs ++ [x])%list m2.
Proof.
  induction os as [|o' os IH]; intros m xs m1 o x m2 R A; inversion R; subst; cbn [app]; [econstructor; [exact A|constructor]|]. econstructor; eauto.
Qed.
Lemma steps_snoc {D} unparsed (generate : D -> string -> exc string) os o : forall w,
  steps unparsed generate w (os ++ [o]) = ((fst (steps unparsed generate w os) ++ [fst (step unparsed generate (snd (steps unparsed generate w os)) o)])%list,
    snd (step unparsed generate (snd (steps unparsed generate w os)) o)).
Proof.
  induction os as [|o' os IH]; intros w.
  - cbn [app]. rewrite steps_cons. cbn [Live.steps fst snd app]. reflexivity.
  - cbn [app]. rewrite !steps_cons, IH. reflexivity.
Qed.
Lemma runs_snoc {D} (generate : D -> string -> exc string) valid agrees os : forall m xs o x m2, Runs generate valid agrees m (os ++ [o]) (xs ++ [x])%list m2 ->
  exists m1, Runs generate valid agrees m os xs m1 /\ Acts generate valid agrees m1 o x m2.
Proof.
  induction os as [|o' os IH]; intros m xs o x m2 R; cbn [app] in R; remember (xs ++ [x])%list as ys eqn:Ey; inversion R as [|? ? y m1 ? ys' ? A R1]; subst.
  - assert (ys' = []) by (inversion R1; reflexivity). subst ys'. assert (m1 = m2) by (inversion R1; reflexivity). subst m1.
    destruct xs as [|z [|]]; cbn [app] in *; [|discriminate..]. match goal with H : [_] = [_] |- _ => injection H as -> end. exists m. split; [constructor|auto].
  - destruct xs as [|z xs]; cbn [app] in *; match goal with H : _ :: _ = _ :: _ |- _ => injection H as -> -> end.
    + apply runs_length in R1. rewrite app_length in R1. cbn in R1. lia.
    + destruct (IH _ _ _ _ _ R1) as (m3 & A3 & B). exists m3. split; [econstructor; eauto|auto].
Qed.

Section Calls.
  Context {D : Type}.
  Variable unparsed : list string.
  Variable generate : D -> string -> exc string.
  Variable t : template.
  Hypothesis Ht : well_formed t = true.
  Hypothesis Hinit : initial_lines unparsed = Val (template_lines t).
  Hypothesis Hgen : forall d c, generate d c <> NoFuel.
  Notation world_of os := (snd (steps unparsed generate clean os)).
  Notation results_of os := (fst (steps unparsed generate clean os)).
  Notation Leads os m := (Runs generate SpecExact.accepted agree fresh os (results_of os) m).

  Lemma next_acts os m o : Leads os m -> exists m', Acts generate SpecExact.accepted agree m o (fst (step unparsed generate (world_of os) o)) m' /\ Leads (os ++ [o]) m'.
  Proof.
    intros R. destruct (C94_machine D unparsed generate t (os ++ [o]) Ht Hinit Hgen) as (m' & R' & _). exists m'. split; [|exact R'].
    rewrite steps_snoc in R'. cbn [fst] in R'. apply runs_snoc in R' as (m1 & R1 & A). destruct (C94_determined _ _ _ _ _ _ _ _ _ _ R R1) as [_ ->]. exact A.
  Qed.
  Lemma next_call os m a k v b data c : Leads os m -> m_objects m = (a ++ (k, v) :: b)%list ->
    exists r es, Call generate SpecExact.accepted agree k v (m_files m) data c r es /\ fst (step unparsed generate (world_of os) (Use (List.length a) data c)) = Some r /\
      Leads (os ++ [Use (List.length a) data c]) (Machine (fst (afterwards m es)) (snd (afterwards m es)) (a ++ (memory k es, v) :: b)).
  Proof.
    intros R E. destruct (next_acts os m (Use (List.length a) data c) R) as (m' & A & R').
    inversion A as [| |a' k' v' b' d' c' r es E' C X Y Z| |k' d' c' L X Y Z|]; subst.
    - assert (Q : a' = a /\ (k', v') = (k, v) /\ b' = b).
      { rewrite E in E'. clear - E' X. revert a X E'. induction a' as [|z a' IH]; intros [|z' a] X E'; cbn [app List.length] in *; try discriminate; [injection E' as -> -> ->; auto|].
        injection E' as -> E'. injection X as X. destruct (IH a X E') as (-> & -> & ->). auto. }
      destruct Q as (-> & Q & ->). injection Q as -> ->. exists r, es. auto.
    - rewrite E, app_length in L. cbn in L. lia.
  Qed.
End Calls.

(** C49 for every history: when a call returns.  [m] is the state of the machine after [os]. *)
Theorem C49_all_calls : forall D unparsed (generate : D -> string -> exc string) t os m a k v b data c,
  well_formed t = true -> initial_lines unparsed = Val (template_lines t) -> (forall d c, generate d c <> NoFuel) ->
  Runs generate SpecExact.accepted agree fresh os (fst (steps unparsed generate clean os)) m -> m_objects m = (a ++ (k, v) :: b)%list ->
  let out := step unparsed generate (snd (steps unparsed generate clean os)) (Use (List.length a) data c) in
  (fst out = Some (Val data) <->
    SpecExact.accepted c /\ Forall (present (m_files m)) (k_registry k) /\
    exists text, generate data c = Val text /\ (v = true -> In c (k_registry k) -> forall old, Holds (m_files m) c old -> agree text old)) /\
  (forall e, fst out = Some (Raise e) -> Runs generate SpecExact.accepted agree fresh (os ++ [Use (List.length a) data c]) (fst (steps unparsed generate clean (os ++ [Use (List.length a) data c]))) m).
Proof.
  intros D unparsed generate t os m a k v b data c Ht Hi Hg R E. cbv zeta.
  destruct (next_call unparsed generate t Ht Hi Hg os m a k v b data c R E) as (r & es & C & -> & R'). split; [split|].
  - intros X. injection X as ->. inversion C; subst; (split; [auto|split; [auto|]]).
    + exists text. split; auto.
    + exists text. split; auto. intros _ I. cbn in *. contradiction.
  - intros (A & P & text & G & H). f_equal. inversion C; subst; auto; try contradiction.
    + exfalso. rewrite Forall_forall in P. auto.
    + congruence.
    + exfalso. assert (text0 = text) by congruence. subst. auto.
  - intros e X. injection X as ->. assert (es = []) by (inversion C; reflexivity). subst es. cbn [memory fold_left afterwards fst snd] in R'. rewrite <- E in R'. destruct m. exact R'.
Qed.
Print Assumptions C49_all_calls.

(** C51 for every history: which registered classes a call loses. *)
Theorem C51_all_calls : forall D unparsed (generate : D -> string -> exc string) t os m a k v b data c known_before x,
  well_formed t = true -> initial_lines unparsed = Val (template_lines t) -> (forall d c, generate d c <> NoFuel) ->
  Runs generate SpecExact.accepted agree fresh os (fst (steps unparsed generate clean os)) m -> m_objects m = (a ++ (k, v) :: b)%list ->
  m_stub m = Some known_before -> In x (k_registry known_before) ->
  exists m' known_after,
    Runs generate SpecExact.accepted agree fresh (os ++ [Use (List.length a) data c]) (fst (steps unparsed generate clean (os ++ [Use (List.length a) data c]))) m' /\
    m_stub m' = Some known_after /\
    (~ In x (k_registry known_after) <->
      fst (step unparsed generate (snd (steps unparsed generate clean os)) (Use (List.length a) data c)) = Some (Val data) /\
      ~ In c (k_registry k) /\ x <> c /\ ~ In x (k_registry k)).
Proof.
  intros D unparsed generate t os m a k v b data c kb x Ht Hi Hg R E Hs Hx.
  destruct (next_call unparsed generate t Ht Hi Hg os m a k v b data c R E) as (r & es & C & -> & R').
  destruct C; unfold afterwards in R'; rewrite Hs in R'; cbn [fold_left after fst snd] in R'; eexists; eexists; (split; [exact R'|]); (split; [reflexivity|]);
    try (split; [intros N; contradiction|intros (X & Y & _)]; try discriminate; contradiction).
  subst k. cbn [k_registry] in *. rewrite in_app_iff. cbn [In]. split; [intros N; split; [reflexivity|]; split; [assumption|]; split; intros X; apply N; auto|].
  intros (_ & _ & N1 & N2) [X|[X|[]]]; auto.
Qed.
Print Assumptions C51_all_calls.

(** C60 for every history: a call replaces the text of a class by one that does not agree exactly if the object does not validate or does not know the class. *)
Theorem C60_all_calls : forall D unparsed (generate : D -> string -> exc string) t os m a k v b data c old text,
  well_formed t = true -> initial_lines unparsed = Val (template_lines t) -> (forall d c, generate d c <> NoFuel) ->
  Runs generate SpecExact.accepted agree fresh os (fst (steps unparsed generate clean os)) m -> m_objects m = (a ++ (k, v) :: b)%list ->
  SpecExact.accepted c -> Forall (present (m_files m)) (k_registry k) -> Holds (m_files m) c old -> generate data c = Val text -> ~ agree text old ->
  lookup c (d_build (w_disk (snd (step unparsed generate (snd (steps unparsed generate clean os)) (Use (List.length a) data c))))) =
    Some (if v && existsb (String.eqb c) (k_registry k) then old else text).
Proof.
  intros D unparsed generate t os m a k v b data c old text Ht Hi Hg R E A P Ho G N.
  destruct (next_call unparsed generate t Ht Hi Hg os m a k v b data c R E) as (r & es & C & _ & R').
  destruct (C94_machine D unparsed generate t (os ++ [Use (List.length a) data c]) Ht Hi Hg) as (m' & R2 & (_ & F & _)).
  destruct (C94_determined _ _ _ _ _ _ _ _ _ _ R' R2) as [_ <-]. rewrite steps_snoc in F. cbn [snd m_files] in F. apply F.
  assert (IN : In c (k_registry k) -> existsb (String.eqb c) (k_registry k) = true) by (intros I; apply existsb_exists; exists c; split; auto; apply String.eqb_refl).
  assert (NI : ~ In c (k_registry k) -> existsb (String.eqb c) (k_registry k) = false).
  { intros I. apply not_true_is_false. intros X. apply existsb_exists in X as (y & Hy & X). apply String.eqb_eq in X. subst. contradiction. }
  assert (TOP : forall z fs, Holds ((c, z) :: fs) c z) by (intros z fs; exists [], fs; split; auto).
  destruct C; try contradiction; try congruence.
  - exfalso. rewrite Forall_forall in P. auto.
  - subst v. rewrite IN by auto. exact Ho.
  - assert (text0 = text) by congruence. subst text0. rewrite IN by auto. destruct v; [exfalso; auto|]. apply TOP.
  - assert (text0 = text) by congruence. subst text0. rewrite NI, andb_false_r by auto. apply TOP.
Qed.
Print Assumptions C60_all_calls.
(** The hypotheses of the three theorems: the state reached in [C94_example], where the object 0 does not know "B". *)
Example C51_all_example : exists m a k v b ks, Runs live_text SpecExact.accepted agree fresh c94_history (fst (steps live_unparsed live_text clean c94_history)) m /\
  m_objects m = (a ++ (k, v) :: b)%list /\ List.length a = 0 /\ m_stub m = Some ks /\ In "B" (k_registry ks) /\ ~ In "B" (k_registry k) /\ Forall (present (m_files m)) (k_registry k).
Proof.
  destruct C94_example as (m & _ & _ & _ & R & S1 & O & F). exists m, [], (Known ["A"] ["A"] ["A"] ["A"]), false, [(Known ["B"] ["B"] ["B"] ["B"], false)], (Known ["B"] ["B"] ["B"] ["B"]).
  split; [exact R|]. split; [exact O|]. split; [reflexivity|]. split; [exact S1|]. split; [now left|]. split; [intros [X|[]]; discriminate|].
  constructor; [|constructor]. destruct (m_files m) as [|[c x] fs]; [discriminate|]. injection F as -> _. exists x, [], fs. split; auto.
Qed.
