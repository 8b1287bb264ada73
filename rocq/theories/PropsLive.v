(** Properties of [LazyTypeHintLive]: the registry, the class files, validation, reset, several instances, crashes.

    The theorems hold for every function that generates the text of a class, every template of the stub that
    satisfies [well_formed], and every module whose stub is that template; LiveSample.v shows that the module
    in the repository is one. *)
From Coq Require Import Ascii String List Bool Arith ZArith Lia Permutation.
From Verif Require Import PyStr PyStrFacts Utils NamesFacts Exc SpecNames SpecText
  Strategies Dispatch Values Tree Build Emit Samples
  YamlLines YamlEntries PyFile PyFileFacts Live SpecLive LiveText LiveMethods LiveBlocks LiveFacts LiveHistory LiveCounts LiveSample.
Import ListNotations.
Local Open Scope string_scope.
Local Open Scope nat_scope.

(** ** C47: the registry *)

(** The classes for which a call returned, in the order of their first such call. *)
Definition add_name (cs : list string) (c : string) : list string := if in_dec string_dec c cs then cs else (cs ++ [c])%list.
Fixpoint first_uses {D} (seen : list string) (os : list (@op D)) (rs : list (option (exc D))) : list string :=
  match os, rs with
  | Use _ _ c :: os', Some (Val _) :: rs' => first_uses (add_name seen c) os' rs'
  | _ :: os', _ :: rs' => first_uses seen os' rs'
  | _, _ => seen
  end.

Section Registry.
  Context {D : Type}.
  Variable unparsed : list string.
  Variable generate : D -> string -> exc string.
  Variable t : template.
  Hypothesis Ht : well_formed t = true.
  Hypothesis Hinit : initial_lines unparsed = Val (template_lines t).
  Notation step := (step unparsed generate).
  Notation steps := (steps unparsed generate).

  Lemma seq_history os : forall w n cs, sequential n os -> Seq t w n (rev cs) cs (rev cs) (rev cs) -> NoDup cs ->
    exists n' cs', cs' = first_uses cs os (fst (steps w os)) /\ Seq t (snd (steps w os)) n' (rev cs') cs' (rev cs') (rev cs') /\ NoDup cs'.
  Proof.
    induction os as [|o os IH]; intros w n cs HS H HN; [exists n, cs; auto|].
    rewrite steps_cons. cbn [fst snd]. destruct o as [v | k data c | data c k m |]; cbn [sequential] in HS; try contradiction.
    - cbn [first_uses]. apply (IH _ (S n) cs HS); [|exact HN]. now apply Seq_new.
    - destruct HS as [<- HS]. destruct (Seq_use unparsed generate t Ht w k _ _ _ _ data c H) as [(r & E & NV & H') | [(E & Hc & Hin & H') | (E & Hc & Hin & H')]]; rewrite E; cbn [first_uses].
      + destruct r as [d|e|]; [exfalso; now apply (NV d) | |]; apply (IH _ (S k) cs HS H' HN).
      + unfold add_name. destruct (in_dec string_dec c cs); [|contradiction]. apply (IH _ (S k) cs HS H' HN).
      + unfold add_name. destruct (in_dec string_dec c cs); [contradiction|].
        apply (IH _ (S k) (cs ++ [c])%list HS); [rewrite rev_app_distr; exact H'|].
        apply (Permutation_NoDup (l := c :: cs)); [apply Permutation_cons_append | now constructor].
  Qed.
End Registry.

(** For every history in which one object is used at a time: the stub does not exist if no class was used;
    otherwise its lines are those of the template with the registry of the classes in the order of their
    first use, one import line for each, and one overload of each method for each. *)
Theorem C47_registry : forall D unparsed (generate : D -> string -> exc string) t os,
  well_formed t = true -> initial_lines unparsed = Val (template_lines t) -> sequential 0 os ->
  let rs := fst (steps unparsed generate clean os) in
  let w := snd (steps unparsed generate clean os) in
  let names := first_uses [] os rs in
  NoDup names /\
  (names = [] -> d_stub (w_disk w) = None) /\
  (names <> [] -> exists text, d_stub (w_disk w) = Some text /\
     let lines := splitlines (universal text) in
     Stub t (rev names) names names names lines /\
     In (registry t names) lines /\
     forall c, is_compatible c = true ->
       count lines (import_line c) = (if in_dec string_dec c names then 1 else 0) /\
       count lines (overload_def "from_data" (t_data t) c) = (if in_dec string_dec c names then 1 else 0) /\
       count lines (overload_def "from_yaml_file" (t_yaml t) c) = (if in_dec string_dec c names then 1 else 0)).
Proof.
  intros D unparsed generate t os Ht Hi HS rs w names.
  destruct (seq_history unparsed generate t Ht Hi os clean 0 [] HS (Seq_clean t) (NoDup_nil _)) as (n & cs & E & H & HN).
  fold rs w names in E, H. rewrite E in *. clear cs E. split; [exact HN|].
  assert (PP : forall n m a b ls, Permutation a b -> MethodPart n m a ls -> MethodPart n m b ls).
  { intros n0 m a b ls P (cs' & over & k & A & B & C & X). exists cs', over, k. split; [etransitivity; [apply Permutation_sym; exact P | exact A]|].
    split; [exact B|]. split; [|exact X]. destruct C as [-> | C]; [left; now apply Permutation_nil | now right]. }
  destruct H as (_ & HD & _). split.
  - intros E. rewrite E in HD. destruct HD as [(E0 & _) | (l & E0 & HSh & NE)]; [exact E0 | contradiction].
  - intros NE. destruct HD as [(_ & _ & E & _) | (l & E0 & HSh & _)]; [contradiction|].
    exists (py_str l). split; [exact E0|]. destruct (Shape_reread t Ht _ _ _ _ _ HSh) as (ST & HI & HC & HY & HDs).
    unfold py_read in ST. cbv zeta. split; [|split].
    + destruct ST as (py & pd & tail & A & B & C & X). exists py, pd, tail.
      split; [eapply PP; [apply Permutation_sym, Permutation_rev | exact A]|]. split; [eapply PP; [apply Permutation_sym, Permutation_rev | exact B]|]. auto.
    + destruct (exists_last NE) as (pre & c & Ec). assert (Hc : is_compatible c = true).
      { rewrite Forall_forall in HC. apply HC. rewrite Ec. apply in_or_app. right. now left. }
      exact (proj1 (Stub_counts t Ht _ _ _ _ _ c ST HI HC HY HDs Hc)).
    + intros c Hc. destruct (Stub_counts t Ht _ _ _ _ _ c ST HI HC HY HDs Hc) as (_ & A & B & C). rewrite A, B, C.
      rewrite !(count_perm (rev names) names c) by (apply Permutation_sym, Permutation_rev).
      destruct (in_dec string_dec c names) as [I|I]; [now rewrite (count_nodup names c HN I)|].
      now rewrite (proj1 (count_occ_not_In string_dec names c) I).
Qed.
Print Assumptions C47_registry.

(** A call with a valid name and data that can be described returns its argument (in the mode "overwrite"). *)
Definition overwrites {D} (o : @op D) : Prop := match o with New v => v = false | _ => True end.

Section Returns.
  Context {D : Type}.
  Variable unparsed : list string.
  Variable generate : D -> string -> exc string.
  Notation step := (step unparsed generate).
  Notation steps := (steps unparsed generate).

  Lemma modes os : forall w, Forall overwrites os -> Forall (fun o => o_validate o = false) (w_objects w) ->
    Forall (fun o => o_validate o = false) (w_objects (snd (steps w os))).
  Proof.
    induction os as [|o os IH]; intros w HO H; [exact H|]. inversion HO; subst. rewrite steps_cons. cbn [snd]. apply IH; [assumption|].
    destruct o as [v | k data c | data c k n |]; cbn [Live.step].
    - cbn in H2. subst v. destruct (open_live unparsed (w_disk w)); [|exact H|exact H]. cbn [snd w_objects]. apply Forall_app. split; [exact H | now repeat constructor].
    - destruct (nth_error (w_objects w) k) as [ob|] eqn:E; [|exact H].
      destruct (Live.from_data generate (o_validate ob) data c (State (o_lines ob) (w_disk w) [])) as [r s]. cbn [snd w_objects].
      apply Forall_set_nth; [|exact H]. cbn. apply nth_error_In in E. rewrite Forall_forall in H. auto.
    - destruct (nth_error (w_objects w) k) as [ob|] eqn:E; [|exact H].
      destruct (Live.from_data generate (o_validate ob) data c (State (o_lines ob) (w_disk w) [])) as [r s]. constructor.
    - exact H.
  Qed.

  Fixpoint created (n : nat) (os : list (@op D)) : nat :=
    match os with [] => n | New _ :: r => created (S n) r | _ :: r => created n r end.
  Variable t : template.
  Hypothesis Ht : well_formed t = true.
  Hypothesis Hinit : initial_lines unparsed = Val (template_lines t).
  Lemma seq_state os : forall w n i cs ys ds, sequential n os -> Seq t w n i cs ys ds ->
    exists i' cs' ys' ds', Seq t (snd (steps w os)) (created n os) i' cs' ys' ds' /\ incl cs cs' /\
      (forall c, In c cs -> ~ In c ys -> In c cs' /\ ~ In c ys').
  Proof.
    induction os as [|o os IH]; intros w n i cs ys ds HS H; [exists i, cs, ys, ds; split; [exact H | split; [apply incl_refl | auto]]|].
    rewrite steps_cons. cbn [snd]. destruct o as [v | k data c | data c k m |]; cbn [sequential] in HS; try contradiction; cbn [created].
    - apply (IH _ (S n) i cs ys ds HS). now apply Seq_new.
    - destruct HS as [<- HS]. destruct (Seq_use unparsed generate t Ht w k _ _ _ _ data c H) as [(r & E & NV & H') | [(E & Hc & Hin & H') | (E & Hc & Hin & H')]].
      + apply (IH _ _ _ _ _ _ HS H').
      + apply (IH _ _ _ _ _ _ HS H').
      + destruct (IH _ _ _ _ _ _ HS H') as (i' & cs' & ys' & ds' & A & B & C). exists i', cs', ys', ds'. split; [exact A|]. split.
        * intros x Hx. apply B. apply in_or_app. now left.
        * intros x Hx Hy. apply C; [apply in_or_app; now left|]. intros [-> | Hz]; contradiction.
  Qed.
End Returns.

Theorem C47_calls_return : forall D unparsed (generate : D -> string -> exc string) t os k data c text,
  well_formed t = true -> initial_lines unparsed = Val (template_lines t) ->
  sequential 0 (os ++ [Use k data c]) -> Forall overwrites os ->
  is_compatible c = true -> generate data c = Val text ->
  fst (step unparsed generate (snd (steps unparsed generate clean os)) (Use k data c)) = Some (Val data).
Proof.
  intros D unparsed generate t os k data c text Ht Hi HS HO Hc HG.
  assert (X : sequential 0 os /\ created 0 os = S k).
  { clear -HS. revert HS. generalize 0. induction os as [|o os IH]; intros n H; [cbn in *; split; [exact I | symmetry; apply H]|].
    destruct o as [v | j d x | d x j m |]; cbn [app sequential created] in *; try contradiction; [now apply IH|]. destruct H as [E H]. split; [split; [exact E|]|]; now apply IH. }
  destruct X as [HS' EC].
  destruct (seq_state unparsed generate t Ht Hi os clean 0 _ _ _ _ HS' (Seq_clean t)) as (i & cs & ys & ds & H & _). rewrite EC in H.
  pose proof (modes unparsed generate os clean HO (Forall_nil _)) as HV.
  destruct H as (_ & _ & Hobj & HP). destruct (Hobj k eq_refl) as (ob & E & Hsh). cbn [Live.step]. rewrite E.
  assert (V : o_validate ob = false) by (apply nth_error_In in E; rewrite Forall_forall in HV; auto).
  destruct (from_data_returns generate t Ht (o_validate ob) data c _ _ _ _ (State (o_lines ob) (w_disk (snd (steps unparsed generate clean os))) []) text Hsh Hc HP HG) as [[_ R] _].
  assert (NV : o_validate ob <> true) by congruence. specialize (R (fun E1 => False_ind _ (NV E1))).
  destruct (Live.from_data generate (o_validate ob) data c _) as [r s]. cbn [fst] in *. now rewrite R.
Qed.
Print Assumptions C47_calls_return.

(** The text generated for data, by the model of the generator. *)
Definition live_text (data : pyval) (c : string) : exc string :=
  match Build.from_data default_strategies as_inserted data c with
  | Ok tr => match to_string default_strategies tr true with Some x => Val x | None => Raise ValueError end
  | _ => Raise ValueError
  end.

Definition c47_history : list (@op pyval) :=
  [New false; Use 0 (vlist [vint]) "A"; Use 0 (vdict [("x", vint)]) "B"; Use 0 vint "not valid"; Use 0 (vlist [vstr]) "A";
   New true; Use 1 (vdict [("y", vint)]) "C"].
Example C47_example :
  well_formed live_template = true /\ initial_lines live_unparsed = Val (template_lines live_template) /\ sequential 0 c47_history /\
  first_uses [] c47_history (fst (steps live_unparsed live_text clean c47_history)) = ["A"; "B"; "C"].
Proof. split; [exact live_well_formed|]. split; [exact live_initial|]. split; [cbn; auto 10|]. vm_compute. reflexivity. Qed.
Example C47_calls_return_example :
  sequential 0 ([New false; Use 0 (vlist [vint]) "A"] ++ [Use 0 (vdict [("x", vint)]) "B"]) /\
  Forall overwrites [New false; Use 0 (vlist [vint]) "A"] /\ is_compatible "B" = true /\ exists text, live_text (vdict [("x", vint)]) "B" = Val text.
Proof. split; [cbn; auto|]. split; [repeat constructor|]. split; [reflexivity|]. eexists. vm_compute. reflexivity. Qed.

(** ** C48: the class files *)
Fixpoint last_text {D} (generate : D -> string -> exc string) (c : string) (known : option string)
  (os : list (@op D)) (rs : list (option (exc D))) : option string :=
  match os, rs with
  | Use _ data c' :: os', Some (Val _) :: rs' =>
      last_text generate c (if String.eqb c c' then match generate data c with Val x => Some x | _ => None end else known) os' rs'
  | Reset :: os', _ :: rs' => last_text generate c None os' rs'
  | _ :: os', _ :: rs' => last_text generate c known os' rs'
  | _, _ => known
  end.

(** Any number of objects, in any interleaving, with resets: the file of a class holds the text generated by the
    last call for it that returned, and there is none before the first such call or after a reset. *)
Theorem C48_class_files : forall D unparsed (generate : D -> string -> exc string) t os c,
  well_formed t = true -> initial_lines unparsed = Val (template_lines t) -> forallb no_crash os = true ->
  lookup c (d_build (w_disk (snd (steps unparsed generate clean os)))) =
  last_text generate c None os (fst (steps unparsed generate clean os)).
Proof.
  intros D unparsed generate t os c Ht Hi HN. change (@None string) with (lookup c (d_build (w_disk (@clean)))).
  generalize (clean_ok t). generalize clean. revert HN. induction os as [|o os IH]; intros HN w H; [reflexivity|].
  cbn [forallb] in HN. apply andb_true_iff in HN as [HO HN]. rewrite steps_cons. cbn [fst snd].
  rewrite IH; [|exact HN | now apply step_ok].
  rewrite (step_files unparsed generate t Ht w o H HO c).
  destruct o as [v | k data c' | data c' k n |]; [| |discriminate|]; cbn [last_text]; try reflexivity.
  destruct (fst (step unparsed generate w (Use k data c'))) as [[d|e|]|]; reflexivity.
Qed.
Print Assumptions C48_class_files.

Definition c48_history : list (@op pyval) :=
  [New false; New true; Use 0 (vlist [vint]) "A"; Use 1 (vlist [vstr]) "A"; Use 0 (vlist [vfloat]) "B"; Use 0 vint "not valid"].
Example C48_example : forallb no_crash c48_history = true /\
  last_text live_text "A" None c48_history (fst (steps live_unparsed live_text clean c48_history)) =
    Some ("from typing import List" ++ nl ++ "from typing_extensions import TypeAlias" ++ nl ++ nl ++ nl ++ "A: TypeAlias = List[str]").
Proof. vm_compute. split; reflexivity. Qed.

(** A process that dies leaves the text of the call that did not return. *)
Theorem C48_crash_refuted : exists (os : list (@op pyval)) c,
  last_text live_text c None os (fst (steps live_unparsed live_text clean os)) = None /\
  lookup c (d_build (w_disk (snd (steps live_unparsed live_text clean os)))) <> None.
Proof. exists [New false; Crash (vlist [vint]) "A" 0 1], "A". split; [vm_compute; reflexivity|]. vm_compute. discriminate. Qed.
Print Assumptions C48_crash_refuted.

(** ** C49: validation *)
Definition doc_line (l : string) : Prop := exists a b, l = a ++ """""""" ++ b.
Definition doc_lineb (l : string) : bool := contains """""""" l.

(** Text without its lines with docstrings. *)
Definition code_of (text : string) : list string := filter (fun l => negb (doc_lineb l)) (splitlines text).

(** Two texts that differ by a docstring only: the call is refused. *)
Theorem C49_docstring_refuted : exists d1 d2 x1 x2,
  live_text d1 "A" = Val x1 /\ live_text d2 "A" = Val x2 /\ code_of x1 = code_of x2 /\
  fst (steps live_unparsed live_text clean [New true; Use 0 d1 "A"; Use 0 d2 "A"]) = [None; Some (Val d1); Some (Raise LiveError)].
Proof.
  exists (vdict [("a", vint)]), (vdict [("a", vint); (hidden_prefix ++ "a", VStr "doc")]).
  eexists. eexists. split; [vm_compute; reflexivity|]. split; [vm_compute; reflexivity|]. split; vm_compute; reflexivity.
Qed.
Print Assumptions C49_docstring_refuted.

(** Two texts that declare different types, none of them with a docstring: the call is accepted. *)
Theorem C49_types_refuted : exists d1 d2,
  live_text d1 "A" <> live_text d2 "A" /\
  d1 = vdict [("a""""""", vint)] /\ d2 = vdict [("a""""""", vstr)] /\
  fst (steps live_unparsed live_text clean [New true; Use 0 d1 "A"; Use 0 d2 "A"]) = [None; Some (Val d1); Some (Val d2)].
Proof.
  eexists. eexists. split; [|split; [reflexivity | split; [reflexivity | vm_compute; reflexivity]]]. vm_compute. discriminate.
Qed.
Print Assumptions C49_types_refuted.

(** What is compared: the text itself if it has no docstring; otherwise its lines, those with a docstring emptied. *)
Definition Compared (text r : string) : Prop :=
  (~ doc_line text /\ r = text) \/
  (doc_line text /\ exists ls, Forall2 (fun a b => (doc_line a /\ b = "") \/ (~ doc_line a /\ b = a)) (splitlines text) ls /\ r = join nl ls).

Lemma doc_line_spec l : doc_line l <-> contains triple_quote l = true.
Proof. symmetry. exact (contains_spec triple_quote l). Qed.
Lemma compared_spec text r : Compared text r <-> remove_docstrings text = r.
Proof.
  unfold Compared, remove_docstrings. rewrite doc_line_spec. destruct (contains triple_quote text) eqn:E.
  - set (f := fun l => if contains triple_quote l then "" else l). split.
    + intros [[H _] | (_ & ls & F & ->)]; [congruence|]. f_equal. induction F as [|a b x y H F IH]; [reflexivity|]. cbn [map]. f_equal; [|exact IH].
      unfold f. rewrite doc_line_spec in H. destruct (contains triple_quote a); destruct H as [[A ->] | [A ->]]; congruence.
    + intros <-. right. split; [reflexivity|]. exists (map f (splitlines text)). split; [|reflexivity].
      induction (splitlines text) as [|a l IH]; [constructor|]. constructor; [|exact IH]. unfold f. rewrite doc_line_spec.
      destruct (contains triple_quote a); [left; auto | right; split; [discriminate | reflexivity]].
  - split; [intros [[_ ->] | [H _]]; congruence | intros <-; left; split; [congruence | reflexivity]].
Qed.

Lemma splitlines_lines n : forall s acc, String.length s <= n -> one_line acc = true -> Forall (fun l => one_line l = true) (splitlines_aux s acc).
Proof.
  induction n as [|n IH]; intros [|c s] acc HL HA; cbn [splitlines_aux String.length] in *; try lia; try (destruct acc; repeat constructor; exact HA).
  destruct (is_linebreak c) eqn:E.
  - destruct s as [|d s]; [repeat constructor; exact HA|]. cbn [String.length] in HL.
    destruct (Nat.eqb (ord c) 13 && Nat.eqb (ord d) 10); constructor; auto; apply IH; auto; cbn [String.length]; lia.
  - apply IH; [lia|]. rewrite one_line_app, HA. unfold one_line. cbn [str_forall]. now rewrite E.
Qed.
Lemma splitlines_one_line s : Forall (fun l => one_line l = true) (splitlines s).
Proof. apply (splitlines_lines (String.length s)); [lia | reflexivity]. Qed.
Lemma splitlines_some c s : splitlines (String c s) <> [].
Proof.
  assert (G : forall n s acc, String.length s <= n -> acc <> "" -> splitlines_aux s acc <> []).
  { clear. induction n as [|n IH]; intros [|c s] acc HL HA; cbn [splitlines_aux String.length] in *; try lia; try (destruct acc; congruence).
    destruct (is_linebreak c); [destruct s as [|d s]; [discriminate|]; destruct (_ && _); discriminate|]. apply IH; [lia|]. destruct acc; discriminate. }
  unfold splitlines. cbn [splitlines_aux]. destruct (is_linebreak c).
  - destruct s as [|d s]; [discriminate|]. destruct (_ && _); discriminate.
  - apply (G (String.length s)); [lia | discriminate].
Qed.

(** In the mode "validate", a call for a class of the registry returns exactly when what is compared is equal. *)
Theorem C49_validate_partial : forall D unparsed (generate : D -> string -> exc string) t os k ob data c text old,
  well_formed t = true -> initial_lines unparsed = Val (template_lines t) -> sequential 0 os -> created 0 os = S k ->
  let w := snd (steps unparsed generate clean os) in
  nth_error (w_objects w) k = Some ob -> o_validate ob = true ->
  In c (first_uses [] os (fst (steps unparsed generate clean os))) ->
  lookup c (d_build (w_disk w)) = Some old -> generate data c = Val text ->
  (fst (step unparsed generate w (Use k data c)) = Some (Val data) <-> exists r, Compared text r /\ Compared (universal old) r) /\
  (fst (step unparsed generate w (Use k data c)) <> Some (Val data) ->
     fst (step unparsed generate w (Use k data c)) = Some (Raise LiveError) /\
     w_disk (snd (step unparsed generate w (Use k data c))) = w_disk w).
Proof.
  intros D unparsed generate t os k ob data c text old Ht Hi HS HC w Eob HV Hin Hold HG.
  destruct (seq_history unparsed generate t Ht Hi os clean 0 [] HS (Seq_clean t) (NoDup_nil _)) as (n & cs & E & H & _). fold w in H.
  rewrite <- E in Hin. clear E.
  assert (EN : n = S k).
  { destruct (seq_state unparsed generate t Ht Hi os clean 0 _ _ _ _ HS (Seq_clean t)) as (i & cs2 & ys & ds & H2 & _).
    destruct H as [<- _]. destruct H2 as [H2 _]. fold w in H2. now rewrite H2. }
  destruct H as (_ & _ & Hobj & HP). destruct (Hobj k EN) as (ob' & E' & Hsh). rewrite Eob in E'. injection E' as <-.
  assert (Hc : is_compatible c = true) by (apply (Shape_names t) in Hsh; rewrite Forall_forall in Hsh; auto).
  destruct (from_data_returns generate t Ht (o_validate ob) data c _ _ _ _ (State (o_lines ob) (w_disk w) []) text Hsh Hc HP HG) as [R1 R2].
  cbn [Live.step]. rewrite Eob.
  destruct (Live.from_data generate (o_validate ob) data c (State (o_lines ob) (w_disk w) [])) as [r s]. cbn [fst snd s_disk w_disk] in *.
  assert (EQ : (exists r0, Compared text r0 /\ Compared (universal old) r0) <-> remove_docstrings text = remove_docstrings (universal old)).
  { split; [intros (x & A & B); apply compared_spec in A, B; congruence|]. intros A. exists (remove_docstrings text). split; apply compared_spec; congruence. }
  rewrite EQ. split.
  - split.
    + intros X. injection X as X. apply R1; auto.
    + intros X. f_equal. apply R1. intros _ _ o Eo. congruence.
  - intros X. assert (Y : r <> Val data) by congruence. specialize (R2 Y). injection R2 as -> ->. auto.
Qed.
Print Assumptions C49_validate_partial.

(** When both texts have a docstring, they are compared line by line. *)
Theorem C49_lines_partial : forall x y,
  doc_line x -> doc_line y ->
  ((exists r, Compared x r /\ Compared y r) <->
   Forall2 (fun a b => a = b \/ ((doc_line a \/ a = "") /\ (doc_line b \/ b = ""))) (splitlines x) (splitlines y)).
Proof.
  intros x y Hx Hy. pose proof Hx as Hx'. pose proof Hy as Hy'. apply doc_line_spec in Hx', Hy'.
  set (f := fun l => if contains triple_quote l then "" else l).
  assert (ER : forall z, contains triple_quote z = true -> remove_docstrings z = join nl (map f (splitlines z))) by (intros z Hz; unfold remove_docstrings; now rewrite Hz).
  assert (NE : forall z, contains triple_quote z = true -> map f (splitlines z) <> []).
  { intros z Hz X. apply map_eq_nil in X. destruct z; [discriminate|]. now apply splitlines_some in X. }
  assert (NC : forall z, Forall (no_char (chr 10)) (map f (splitlines z))).
  { intros z. apply Forall_map. eapply Forall_impl; [|apply splitlines_one_line]. intros l Hl. unfold f. destruct (contains triple_quote l); [reflexivity | now apply one_line_no_nl]. }
  transitivity (map f (splitlines x) = map f (splitlines y)).
  - split.
    + intros (r & A & B). apply compared_spec in A, B. rewrite ER in A, B by assumption.
      rewrite <- (split_join (chr 10) (map f (splitlines x))), <- (split_join (chr 10) (map f (splitlines y))) by auto.
      change (String (chr 10) "") with nl. congruence.
    + intros E. exists (join nl (map f (splitlines x))). split; apply compared_spec; rewrite ER by assumption; congruence.
  - generalize (splitlines x) (splitlines y). intros a. induction a as [|l a IH]; intros [|l' b]; cbn [map]; split; intros H; try discriminate; try (now inversion H); try constructor.
    + injection H as E _. unfold f in E. rewrite !doc_line_spec. destruct (contains triple_quote l), (contains triple_quote l'); auto.
    + injection H as _ E. now apply IH.
    + inversion H as [|? ? ? ? E F]; subst. apply IH in F. rewrite F. f_equal. unfold f. rewrite !doc_line_spec in E.
      destruct E as [-> | [[A | A] [B | B]]]; [reflexivity| | | |]; rewrite ?A, ?B; try reflexivity;
      try (destruct (contains triple_quote l); congruence); try (destruct (contains triple_quote l'); congruence).
Qed.
Print Assumptions C49_lines_partial.

(** A call that does not return leaves the disk as it was: all histories, interleavings and modes. *)
Theorem C49_failure : forall D unparsed (generate : D -> string -> exc string) t os k data c,
  well_formed t = true -> initial_lines unparsed = Val (template_lines t) ->
  let w := snd (steps unparsed generate clean os) in
  (forall d, fst (step unparsed generate w (Use k data c)) <> Some (Val d)) ->
  w_disk (snd (step unparsed generate w (Use k data c))) = w_disk w.
Proof.
  intros D unparsed generate t os k data c Ht Hi w. destruct (steps_ok unparsed generate t Ht Hi os clean (clean_ok t)) as [_ HO]. fold w in HO.
  cbn [Live.step]. destruct (nth_error (w_objects w) k) as [ob|] eqn:E; [|reflexivity]. apply nth_error_In in E as Hin.
  rewrite Forall_forall in HO. destruct (HO ob Hin) as (i & cs & ys & ds & H).
  pose proof (from_data_outcome generate t Ht (o_validate ob) data c i cs ys ds (State (o_lines ob) (w_disk w) []) H) as R.
  destruct (Live.from_data generate (o_validate ob) data c (State (o_lines ob) (w_disk w) [])) as [r s]. cbn [fst snd w_disk].
  inversion R; subst; intros NV; [reflexivity | exfalso; now apply (NV data) | exfalso; now apply (NV data)].
Qed.
Print Assumptions C49_failure.

Definition c49_history : list (@op pyval) := [New true; Use 0 (vdict [("a", vint); (hidden_prefix ++ "a", VStr "doc")]) "A"].
Example C49_example :
  sequential 0 c49_history /\ created 0 c49_history = 1 /\
  In "A" (first_uses [] c49_history (fst (steps live_unparsed live_text clean c49_history))) /\
  (exists ob, nth_error (w_objects (snd (steps live_unparsed live_text clean c49_history))) 0 = Some ob /\ o_validate ob = true) /\
  fst (step live_unparsed live_text (snd (steps live_unparsed live_text clean c49_history))
    (Use 0 (vdict [("a", vint); (hidden_prefix ++ "a", VStr "other")]) "A")) = Some (Val (vdict [("a", vint); (hidden_prefix ++ "a", VStr "other")])) /\
  fst (step live_unparsed live_text (snd (steps live_unparsed live_text clean c49_history)) (Use 0 (vdict [("a", vstr)]) "A")) = Some (Raise LiveError).
Proof.
  split; [cbn; auto|]. split; [reflexivity|]. split; [vm_compute; auto|]. split; [eexists; split; [vm_compute; reflexivity | reflexivity]|].
  split; vm_compute; reflexivity.
Qed.

(** ** C50: reset *)
Definition shift {D} (n : nat) (o : @op D) : @op D := match o with Use k data c => Use (n + k) data c | o => o end.

Lemma reset_simulation {D} unparsed (generate : D -> string -> exc string) old os : forall w1 w2,
  forallb no_crash os = true -> w_disk w1 = w_disk w2 -> w_objects w1 = (old ++ w_objects w2)%list ->
  fst (steps unparsed generate w1 (map (shift (List.length old)) os)) = fst (steps unparsed generate w2 os) /\
  w_disk (snd (steps unparsed generate w1 (map (shift (List.length old)) os))) = w_disk (snd (steps unparsed generate w2 os)).
Proof.
  induction os as [|o os IH]; intros w1 w2 HN HD HO; [split; [reflexivity | exact HD]|].
  cbn [forallb] in HN. apply andb_true_iff in HN as [Hn HN]. cbn [map]. rewrite !steps_cons. cbn [fst snd].
  assert (X : fst (step unparsed generate w1 (shift (List.length old) o)) = fst (step unparsed generate w2 o) /\
    w_disk (snd (step unparsed generate w1 (shift (List.length old) o))) = w_disk (snd (step unparsed generate w2 o)) /\
    w_objects (snd (step unparsed generate w1 (shift (List.length old) o))) = (old ++ w_objects (snd (step unparsed generate w2 o)))%list).
  { destruct o as [v | k data c | data c k n |]; [| |discriminate|]; cbn [shift Live.step].
    - rewrite HD. destruct (open_live unparsed (w_disk w2)); cbn [fst snd w_disk w_objects]; rewrite ?HO, <- ?app_assoc; auto.
    - rewrite HO, nth_error_app2 by lia. replace (List.length old + k - List.length old) with k by lia.
      destruct (nth_error (w_objects w2) k) as [ob|] eqn:E; [|cbn [fst snd]; auto]. rewrite HD.
      destruct (Live.from_data generate (o_validate ob) data c (State (o_lines ob) (w_disk w2) [])) as [r s]. cbn [fst snd w_disk w_objects].
      split; [reflexivity|]. split; [reflexivity|]. clear. induction old as [|x old IH]; [reflexivity|]. cbn [List.length Nat.add app set_nth]. now rewrite IH.
    - cbn [fst snd w_disk w_objects]. auto. }
  destruct X as (A & B & C). destruct (IH _ _ HN B C) as [P Q]. split; [now rewrite A, P | exact Q].
Qed.

(** Whatever happened before, and even if objects from before the reset are still there: nothing that was generated
    remains on disk, and objects created after the reset behave as on a clean installation. *)
Theorem C50_new_objects_partial : forall D unparsed (generate : D -> string -> exc string) w os,
  let w' := snd (step unparsed generate w Reset) in
  w_disk w' = Disk None [] /\
  (forallb no_crash os = true ->
   fst (steps unparsed generate w' (map (shift (List.length (w_objects w))) os)) = fst (steps unparsed generate clean os) /\
   w_disk (snd (steps unparsed generate w' (map (shift (List.length (w_objects w))) os))) = w_disk (snd (steps unparsed generate clean os))).
Proof.
  intros D unparsed generate w os w'. split; [reflexivity|]. intros HN. apply reset_simulation; [exact HN | reflexivity|].
  cbn. now rewrite app_nil_r.
Qed.
Print Assumptions C50_new_objects_partial.
Example C50_example : let w := snd (steps live_unparsed live_text clean c47_history) in
  List.length (w_objects w) = 2 /\ d_stub (w_disk w) <> None /\
  fst (steps live_unparsed live_text (snd (step live_unparsed live_text w Reset)) (map (shift 2) [New false; Use 0 (vlist [vint]) "A"])) =
    [None; Some (Val (vlist [vint]))].
Proof. vm_compute. split; [reflexivity|]. split; [discriminate | reflexivity]. Qed.

(** An object from before the reset fails on data that a clean installation accepts. *)
Theorem C50_old_objects_refuted : exists data c,
  fst (steps live_unparsed live_text clean [New false; Use 0 data "A"; Reset; Use 0 data c]) =
    [None; Some (Val data); None; Some (Raise LiveError)] /\
  fst (steps live_unparsed live_text clean [New false; Use 0 data c]) = [None; Some (Val data)].
Proof. exists (vlist [vint]), "B". split; vm_compute; reflexivity. Qed.
Print Assumptions C50_old_objects_refuted.

(** ** C51: several objects *)
Definition stub_of (w : world) : string := match d_stub (w_disk w) with Some text => text | None => "" end.

(** Two objects register one class each: the first class is not in the stub any more. *)
Theorem C51_refuted : exists (os : list (@op pyval)),
  os = [New false; New false; Use 0 (vlist [vint]) "A"; Use 1 (vlist [vint]) "B"] /\
  fst (steps live_unparsed live_text clean os) = [None; None; Some (Val (vlist [vint])); Some (Val (vlist [vint]))] /\
  contains (quoted "A") (stub_of (snd (steps live_unparsed live_text clean (firstn 3 os)))) = true /\
  contains (quoted "A") (stub_of (snd (steps live_unparsed live_text clean os))) = false /\
  contains (import_line "A") (stub_of (snd (steps live_unparsed live_text clean os))) = false.
Proof. eexists. split; [reflexivity|]. repeat split; vm_compute; reflexivity. Qed.
Print Assumptions C51_refuted.

Lemma first_uses_incl {D} (os : list (@op D)) : forall rs seen, incl seen (first_uses seen os rs).
Proof.
  induction os as [|o os IH]; intros rs seen; [apply incl_refl|]. destruct rs as [|r rs]; [destruct o; apply incl_refl|].
  destruct o as [v | k data c | data c k n |]; cbn [first_uses]; try apply IH.
  destruct r as [[d|e|]|]; try apply IH. eapply incl_tran; [|apply IH]. unfold add_name. destruct (in_dec string_dec c seen); [apply incl_refl | apply incl_appl, incl_refl].
Qed.
Lemma first_uses_app {D} (a b : list (@op D)) : forall ra rb seen, List.length ra = List.length a ->
  first_uses seen (a ++ b) (ra ++ rb) = first_uses (first_uses seen a ra) b rb.
Proof.
  induction a as [|o a IH]; intros [|r ra] rb seen HL; cbn [List.length app] in *; try discriminate; [reflexivity|]. injection HL as HL.
  destruct o as [v | k data c | data c k n |]; cbn [first_uses]; try (now apply IH). destruct r as [[d|e|]|]; now apply IH.
Qed.
Lemma steps_app {D} unparsed (generate : D -> string -> exc string) a b : forall w,
  fst (steps unparsed generate w (a ++ b)) = (fst (steps unparsed generate w a) ++ fst (steps unparsed generate (snd (steps unparsed generate w a)) b))%list /\
  snd (steps unparsed generate w (a ++ b)) = snd (steps unparsed generate (snd (steps unparsed generate w a)) b) /\
  List.length (fst (steps unparsed generate w a)) = List.length a.
Proof.
  induction a as [|o a IH]; intros w; [auto|]. cbn [app]. rewrite !steps_cons. cbn [fst snd]. destruct (IH (snd (step unparsed generate w o))) as (A & B & C).
  rewrite A, B. cbn [app List.length]. rewrite C. auto.
Qed.

(** When an object is not used any more after another one was created, nothing is lost: the classes in the stub
    after a part of the history are in the stub after all of it, with all their lines. *)
Theorem C51_sequential_partial : forall D unparsed (generate : D -> string -> exc string) t os1 os2 c,
  well_formed t = true -> initial_lines unparsed = Val (template_lines t) -> sequential 0 (os1 ++ os2) ->
  In c (first_uses [] os1 (fst (steps unparsed generate clean os1))) ->
  exists text names, d_stub (w_disk (snd (steps unparsed generate clean (os1 ++ os2)))) = Some text /\ In c names /\
    Stub t (rev names) names names names (splitlines (universal text)).
Proof.
  intros D unparsed generate t os1 os2 c Ht Hi HS Hin.
  pose proof (C47_registry D unparsed generate t (os1 ++ os2) Ht Hi HS) as (_ & _ & H). cbv zeta in H.
  set (names := first_uses [] (os1 ++ os2) (fst (steps unparsed generate clean (os1 ++ os2)))) in *.
  assert (I : In c names).
  { unfold names. destruct (steps_app unparsed generate os1 os2 clean) as (A & _ & C). rewrite A, first_uses_app by exact C. now apply first_uses_incl. }
  destruct H as (text & E & ST & _); [intros X; rewrite X in I; contradiction|]. exists text, names. auto.
Qed.
Print Assumptions C51_sequential_partial.
Example C51_example :
  sequential 0 (firstn 3 c47_history ++ skipn 3 c47_history) /\
  In "A" (first_uses [] (firstn 3 c47_history) (fst (steps live_unparsed live_text clean (firstn 3 c47_history)))).
Proof. split; [cbn; auto 10|]. vm_compute. auto. Qed.

(** ** C52: crashes *)

(** Number of overloads of [c] in the stub on disk, for a method of the template. *)
Definition overloads_of (name : string) (m : method) (c : string) (w : world) : nat :=
  count (splitlines (universal (stub_of w))) (overload_def name m c).

(** A call for a new class that would have returned died after writing the registry and before its last write.
    Whatever is done afterwards (without a reset), one object at a time, the overload of [from_yaml_file] is missing. *)
Theorem C52_never_repaired : forall D unparsed (generate : D -> string -> exc string) t os k data c n later,
  well_formed t = true -> initial_lines unparsed = Val (template_lines t) ->
  sequential 0 os -> created 0 os = S k ->
  let w := snd (steps unparsed generate clean os) in
  fst (step unparsed generate w (Use k data c)) = Some (Val data) ->
  ~ In c (first_uses [] os (fst (steps unparsed generate clean os))) ->
  2 <= n <= 4 -> sequential 0 later ->
  let w' := snd (steps unparsed generate (snd (step unparsed generate w (Crash data c k n))) later) in
  overloads_of "from_yaml_file" (t_yaml t) c w' = 0 /\ d_stub (w_disk w') <> None.
Proof.
  intros D unparsed generate t os k data c n later Ht Hi HS HC w HR HN Hn HL w'.
  destruct (seq_history unparsed generate t Ht Hi os clean 0 [] HS (Seq_clean t) (NoDup_nil _)) as (n0 & cs & E & H & _). fold w in H.
  rewrite <- E in HN. clear E.
  assert (EN : n0 = S k).
  { destruct (seq_state unparsed generate t Ht Hi os clean 0 _ _ _ _ HS (Seq_clean t)) as (i & cs2 & ys & ds & H2 & _).
    destruct H as [<- _]. destruct H2 as [H2 _]. fold w in H2. now rewrite H2. }
  subst n0.
  assert (X : exists i cs' ys ds, Seq t (snd (step unparsed generate w (Crash data c k n))) 0 i cs' ys ds /\ In c cs' /\ ~ In c ys /\ is_compatible c = true).
  { pose proof H as (_ & _ & HO & HP). destruct (HO k eq_refl) as (ob & Eob & Hsh).
    assert (NR : ~ In c (rev cs)) by (rewrite <- in_rev; exact HN).
    destruct (Seq_crash unparsed generate t Ht w k _ _ _ _ data c n H) as [_ | ((Hc & _ & _) & _ & A2 & A3 & A4 & _)].
    - cbn [Live.step] in HR |- *. rewrite Eob in HR |- *.
      pose proof (from_data_outcome generate t Ht (o_validate ob) data c _ _ _ _ (State (o_lines ob) (w_disk w) []) Hsh) as R.
      destruct (Live.from_data generate (o_validate ob) data c (State (o_lines ob) (w_disk w) [])) as [r s]. cbn [fst snd] in *.
      inversion R as [r' NV | | text l1 l2 l3 l4 G Hc _ S1 S2 S3 S4]; subst; [injection HR as ->; exfalso; now apply (NV data) | contradiction|].
      cbn [s_log app]. assert (I : In c (cs ++ [c])) by (apply in_or_app; right; now left).
      assert (P : forallb (present (store c text (d_build (w_disk w)))) (cs ++ [c]) = true) by (now apply present_added).
      do 2 (destruct n as [|n]; [lia|]). destruct n as [|[|[|n]]]; [| | |lia].
      + exists (rev cs), (cs ++ [c])%list, (rev cs), (rev cs). split; [|auto]. split; [reflexivity|]. split; [|split; [discriminate | exact P]].
        right. exists l1. split; [reflexivity|]. split; [exact S1 | apply snoc_ne].
      + exists (c :: rev cs), (cs ++ [c])%list, (rev cs), (rev cs). split; [|auto]. split; [reflexivity|]. split; [|split; [discriminate | exact P]].
        right. exists l2. split; [reflexivity|]. split; [exact S2 | apply snoc_ne].
      + exists (c :: rev cs), (cs ++ [c])%list, (rev cs), (c :: rev cs). split; [|auto]. split; [reflexivity|]. split; [|split; [discriminate | exact P]].
        right. exists l3. split; [reflexivity|]. split; [exact S3 | apply snoc_ne].
    - assert (I : In c (cs ++ [c])) by (apply in_or_app; right; now left).
      do 2 (destruct n as [|n]; [lia|]). destruct n as [|[|[|n]]]; [| | |lia].
      + eexists _, _, _, _. split; [exact (A2 eq_refl) | auto].
      + eexists _, _, _, _. split; [exact (A3 eq_refl) | auto].
      + eexists _, _, _, _. split; [exact (A4 eq_refl) | auto]. }
  destruct X as (i & cs' & ys & ds & HQ & I & NI & Hc).
  destruct (seq_state unparsed generate t Ht Hi later _ 0 _ _ _ _ HL HQ) as (i2 & cs2 & ys2 & ds2 & H2 & _ & K). fold w' in H2.
  destruct (K c I NI) as [I2 NI2]. destruct H2 as (_ & [(_ & _ & E & _) | (l & E & Hsh & _)] & _); [rewrite E in I2; contradiction|].
  destruct (Shape_reread t Ht _ _ _ _ _ Hsh) as (ST & HI & HCs & HY & HDs).
  split; [|rewrite E; discriminate]. unfold overloads_of, stub_of. rewrite E.
  destruct (Stub_counts t Ht _ _ _ _ _ c ST HI HCs HY HDs Hc) as (_ & _ & B & _). unfold py_read in B. rewrite B. now apply count_occ_not_In.
Qed.
Print Assumptions C52_never_repaired.

(** The hypotheses are met by a crash after the second write, followed by a call that returns. *)
Theorem C52_refuted : exists (later : list (@op pyval)),
  later = [New false; Use 0 (vlist [vint]) "A"] /\
  fst (steps live_unparsed live_text clean ([New false; Crash (vlist [vint]) "A" 0 2] ++ later)) = [None; None; None; Some (Val (vlist [vint]))] /\
  overloads_of "from_yaml_file" (t_yaml live_template) "A" (snd (steps live_unparsed live_text clean ([New false; Crash (vlist [vint]) "A" 0 2] ++ later))) = 0.
Proof. eexists. split; [reflexivity|]. split; vm_compute; reflexivity. Qed.
Print Assumptions C52_refuted.
Example C52_never_repaired_example :
  sequential 0 c47_history /\ created 0 c47_history = 2 /\
  fst (step live_unparsed live_text (snd (steps live_unparsed live_text clean c47_history)) (Use 1 (vlist [vint]) "E")) = Some (Val (vlist [vint])) /\
  ~ In "E" (first_uses [] c47_history (fst (steps live_unparsed live_text clean c47_history))) /\
  sequential 0 [New false; Use 0 (vlist [vint]) "E"].
Proof.
  split; [cbn; auto 10|]. split; [reflexivity|]. split; [vm_compute; reflexivity|]. split; [|cbn; auto].
  vm_compute. intros [H | [H | [H | H]]]; try discriminate; exact H.
Qed.

(** A crash before the registry was written, or after the last write, is repaired: after a new object was created and a
    call for the class returned, the stub is that of the history without the crash. *)
Theorem C52_repaired_partial : forall D unparsed (generate : D -> string -> exc string) t os k data c n v data',
  well_formed t = true -> initial_lines unparsed = Val (template_lines t) ->
  sequential 0 os -> created 0 os = S k -> n <= 1 \/ 5 <= n ->
  let names := first_uses [] os (fst (steps unparsed generate clean os)) in
  let w := snd (step unparsed generate (snd (steps unparsed generate clean os)) (Crash data c k n)) in
  let w' := snd (steps unparsed generate w [New v; Use 0 data' c]) in
  fst (steps unparsed generate w [New v; Use 0 data' c]) = [None; Some (Val data')] ->
  exists text, d_stub (w_disk w') = Some text /\
    let names' := add_name names c in
    Stub t (rev names') names' names' names' (splitlines (universal text)).
Proof.
  intros D unparsed generate t os k data c n v data' Ht Hi HS HC Hn names w w' HR.
  destruct (seq_history unparsed generate t Ht Hi os clean 0 [] HS (Seq_clean t) (NoDup_nil _)) as (n0 & cs & E & H & HND).
  fold names in E. subst cs.
  assert (EN : n0 = S k).
  { destruct (seq_state unparsed generate t Ht Hi os clean 0 _ _ _ _ HS (Seq_clean t)) as (i & cs2 & ys & ds & H2 & _).
    destruct H as [<- _]. destruct H2 as [H2 _]. now rewrite H2. }
  subst n0.
  assert (X : exists cs, (cs = names \/ cs = (names ++ [c])%list /\ ~ In c names) /\ Seq t w 0 (rev cs) cs (rev cs) (rev cs) /\ NoDup cs).
  { destruct (Seq_crash unparsed generate t Ht _ k _ _ _ _ data c n H) as [A | ((Hc & NI & _) & A1 & _ & _ & _ & A5)].
    - exists names. auto.
    - destruct Hn as [Hn | Hn]; [exists names; auto|]. exists (names ++ [c])%list. split; [now right|]. rewrite rev_app_distr. split; [exact (A5 Hn)|].
      apply (Permutation_NoDup (l := c :: names)); [apply Permutation_cons_append | now constructor]. }
  destruct X as (cs & HCS & HQ & HNC).
  destruct (seq_history unparsed generate t Ht Hi [New v; Use 0 data' c] w 0 cs ltac:(cbn; auto) HQ HNC) as (n1 & cs' & E' & H' & _).
  rewrite HR in E'. cbn [first_uses] in E'. fold w' in H'.
  assert (EC : cs' = add_name names c).
  { subst cs'. destruct HCS as [-> | [-> NI]]; [reflexivity|]. unfold add_name at 1. destruct (in_dec string_dec c (names ++ [c])) as [_|F]; [|exfalso; apply F, in_or_app; right; now left].
    unfold add_name. destruct (in_dec string_dec c names); [contradiction | reflexivity]. }
  rewrite EC in H'. destruct H' as (_ & [(_ & _ & Z & _) | (l & E & Hsh & _)] & _).
  { exfalso. unfold add_name in Z. destruct (in_dec string_dec c names) as [I|I]; [rewrite Z in I; contradiction | destruct names; discriminate]. }
  exists (py_str l). split; [exact E|]. cbv zeta. destruct (Shape_reread t Ht _ _ _ _ _ Hsh) as ((py & pd & tail & A & B & CC & XX) & _).
  exists py, pd, tail.
  assert (PP : forall n m a b ls, Permutation a b -> MethodPart n m a ls -> MethodPart n m b ls).
  { intros n2 m a b ls P (cs2 & over & k2 & A2 & B2 & C2 & X2). exists cs2, over, k2. split; [etransitivity; [apply Permutation_sym; exact P | exact A2]|].
    split; [exact B2|]. split; [|exact X2]. destruct C2 as [-> | C2]; [left; now apply Permutation_nil | now right]. }
  split; [eapply PP; [apply Permutation_sym, Permutation_rev | exact A]|]. split; [eapply PP; [apply Permutation_sym, Permutation_rev | exact B]|]. auto.
Qed.
Print Assumptions C52_repaired_partial.
Example C52_repaired_example :
  let w := snd (step live_unparsed live_text (snd (steps live_unparsed live_text clean c47_history)) (Crash (vlist [vint]) "E" 1 1)) in
  fst (steps live_unparsed live_text w [New true; Use 0 (vlist [vint]) "E"]) = [None; Some (Val (vlist [vint]))].
Proof. vm_compute. reflexivity. Qed.

(** ** C59: decorators of the stub *)

(** Each overload carries "@overload" once: refuted by two classes. *)
Fixpoint decorated_twice (ls : list string) : bool :=
  match ls with
  | a :: (b :: _) as r => (String.eqb a overload_line && String.eqb b overload_line) || decorated_twice r
  | _ => false
  end.
Theorem C59_decorators_refuted : exists (os : list (@op pyval)),
  os = [New false; Use 0 (vlist [vint]) "A"; Use 0 (vlist [vint]) "B"] /\
  fst (steps live_unparsed live_text clean os) = [None; Some (Val (vlist [vint])); Some (Val (vlist [vint]))] /\
  decorated_twice (splitlines (stub_of (snd (steps live_unparsed live_text clean os)))) = true.
Proof. eexists. split; [reflexivity|]. split; vm_compute; reflexivity. Qed.
Print Assumptions C59_decorators_refuted.

Lemma Overloads_decorated name m : forall cs ls c, Overloads name m cs ls -> In c cs ->
  exists a b, ls = (a ++ [overload_line; override_line; overload_def name m c] ++ b)%list.
Proof.
  intros cs ls c H. induction H as [|k c' cs ls H IH]; intros HI; [destruct HI|].
  destruct HI as [-> | HI].
  - exists (repeat overload_line k), ls. change (S k) with (1 + k). rewrite Nat.add_comm, repeat_app. cbn [repeat]. now rewrite <- app_assoc.
  - destruct (IH HI) as (a & b & ->). exists (repeat overload_line (S k) ++ override_line :: overload_def name m c' :: a)%list, b.
    now rewrite <- app_assoc.
Qed.
Lemma MethodPart_decorated name m cs ls c : MethodPart name m cs ls -> In c cs ->
  exists a b, ls = (a ++ [overload_line; override_line; overload_def name m c] ++ b)%list.
Proof.
  intros (cs' & over & k & P & O & _ & ->) HI. destruct (Overloads_decorated name m cs' over c O (Permutation_in _ P HI)) as (a & b & ->).
  exists a, (b ++ repeat overload_line k ++ [override_line; plain_def name m])%list. now rewrite <- !app_assoc.
Qed.
Lemma count_around (a b : list string) x y z : count_occ string_dec (a ++ [y; z; x] ++ b)%list x = 1 -> ~ In x a /\ ~ In x b.
Proof.
  rewrite count_occ_app. intros H.
  assert (E : count_occ string_dec ([y; z; x] ++ b)%list x >= 1 + count_occ string_dec b x).
  { cbn [app count_occ]. destruct (string_dec y x), (string_dec z x), (string_dec x x); try contradiction; lia. }
  split; apply (count_occ_not_In string_dec); lia.
Qed.

(** What does hold: after every history with one object at a time, each class in use has in the stub exactly one overload of
    each method, below the lines "@overload" and "@override". *)
Theorem C59_decorated_partial : forall D unparsed (generate : D -> string -> exc string) t os c,
  well_formed t = true -> initial_lines unparsed = Val (template_lines t) -> sequential 0 os ->
  let rs := fst (steps unparsed generate clean os) in
  let w := snd (steps unparsed generate clean os) in
  In c (first_uses [] os rs) -> is_compatible c = true ->
  exists text, d_stub (w_disk w) = Some text /\
    forall name m, (name = "from_data" /\ m = t_data t) \/ (name = "from_yaml_file" /\ m = t_yaml t) ->
      exists above below,
        splitlines (universal text) = (above ++ [overload_line; override_line; overload_def name m c] ++ below)%list /\
        ~ In (overload_def name m c) above /\ ~ In (overload_def name m c) below.
Proof.
  intros D unparsed generate t os c Ht Hi HS rs w HI Hc.
  destruct (C47_registry D unparsed generate t os Ht Hi HS) as (_ & _ & H). fold rs w in H.
  destruct H as (text & E & ST & _ & HC); [intros X; now rewrite X in HI|]. cbv zeta in ST, HC.
  exists text. split; [exact E|]. destruct (HC c Hc) as (_ & CD & CY). destruct (in_dec string_dec c (first_uses [] os rs)) as [_|NI]; [|contradiction].
  destruct ST as (py & pd & tail & A & B & _ & EL). intros name m [[-> ->] | [-> ->]].
  - destruct (MethodPart_decorated _ _ _ _ c B HI) as (a & b & ->).
    assert (L : splitlines (universal text) = ((map import_line (rev (first_uses [] os rs)) ++ t_head t ++ [SpecLive.registry t (first_uses [] os rs)] ++ t_mid1 t ++ py ++ t_mid2 t ++ a) ++
      [overload_line; override_line; overload_def "from_data" (t_data t) c] ++ (b ++ tail))%list) by (rewrite EL; now rewrite <- !app_assoc).
    eexists _, _. split; [exact L|]. rewrite L in CD. exact (count_around _ _ _ _ _ CD).
  - destruct (MethodPart_decorated _ _ _ _ c A HI) as (a & b & ->).
    assert (L : splitlines (universal text) = ((map import_line (rev (first_uses [] os rs)) ++ t_head t ++ [SpecLive.registry t (first_uses [] os rs)] ++ t_mid1 t ++ a) ++
      [overload_line; override_line; overload_def "from_yaml_file" (t_yaml t) c] ++ (b ++ t_mid2 t ++ pd ++ tail))%list) by (rewrite EL; now rewrite <- !app_assoc).
    eexists _, _. split; [exact L|]. rewrite L in CY. exact (count_around _ _ _ _ _ CY).
Qed.
Print Assumptions C59_decorated_partial.
(** The history of C47 meets the hypotheses, with the class "B". *)
Example C59_decorated_example :
  well_formed live_template = true /\ initial_lines live_unparsed = Val (template_lines live_template) /\ sequential 0 c47_history /\
  In "B" (first_uses [] c47_history (fst (steps live_unparsed live_text clean c47_history))) /\ is_compatible "B" = true.
Proof. destruct C47_example as (A & B & C & E). rewrite E. split; [exact A|]. split; [exact B|]. split; [exact C|]. split; [right; now left | reflexivity]. Qed.

(** ** C60: a validating object and a class that another object registered *)
Theorem C60_stale_validation_refuted : exists (os : list (@op pyval)),
  os = [New false; New true; Use 0 (vlist [vint]) "A"; Use 1 (vdict [("x", vstr)]) "A"] /\
  fst (steps live_unparsed live_text clean os) = [None; None; Some (Val (vlist [vint])); Some (Val (vdict [("x", vstr)]))].
Proof. eexists. split; [reflexivity | vm_compute; reflexivity]. Qed.
Print Assumptions C60_stale_validation_refuted.

(** One object at a time: a call of a validating object that returns leaves, for a class of the stub, a text that compares
    equal to the one before. *)
Theorem C60_sequential_partial : forall D unparsed (generate : D -> string -> exc string) t os k ob data c text old,
  well_formed t = true -> initial_lines unparsed = Val (template_lines t) -> sequential 0 os -> created 0 os = S k ->
  let w := snd (steps unparsed generate clean os) in
  nth_error (w_objects w) k = Some ob -> o_validate ob = true ->
  In c (first_uses [] os (fst (steps unparsed generate clean os))) ->
  lookup c (d_build (w_disk w)) = Some old -> generate data c = Val text ->
  exists new, lookup c (d_build (w_disk (snd (step unparsed generate w (Use k data c))))) = Some new /\
    (new = old \/ exists r, Compared new r /\ Compared (universal old) r).
Proof.
  intros D unparsed generate t os k ob data c text old Ht Hi HS HC w Eob HV Hin Hold HG.
  destruct (C49_validate_partial D unparsed generate t os k ob data c text old Ht Hi HS HC Eob HV Hin Hold HG) as [[R1 _] R2]. fold w in R1, R2.
  pose proof (step_files unparsed generate t Ht w (Use k data c) (steps_ok unparsed generate t Ht Hi os clean (clean_ok t)) eq_refl c) as F. cbv beta iota in F.
  destruct (fst (step unparsed generate w (Use k data c))) as [[d|e|]|] eqn:E.
  - rewrite String.eqb_refl, HG in F. exists text. split; [exact F|]. right.
    assert (d = data).
    { destruct (steps_ok unparsed generate t Ht Hi os clean (clean_ok t)) as [_ HO]. fold w in HO. apply nth_error_In in Eob as I2. rewrite Forall_forall in HO.
      destruct (HO ob I2) as (i & cs & ys & ds & Hsh). cbn [Live.step] in E. rewrite Eob in E.
      pose proof (from_data_outcome generate t Ht (o_validate ob) data c _ _ _ _ (State (o_lines ob) (w_disk w) []) Hsh) as R.
      destruct (Live.from_data generate (o_validate ob) data c (State (o_lines ob) (w_disk w) [])) as [r s]. cbn [fst] in E. injection E as ->.
      inversion R as [r' NV | | ]; subst; [exfalso; now apply (NV d) | reflexivity | reflexivity]. }
    subst d. now apply R1.
  - exists old. split; [rewrite F; exact Hold | now left].
  - exists old. split; [rewrite F; exact Hold | now left].
  - exists old. split; [rewrite F; exact Hold | now left].
Qed.
Print Assumptions C60_sequential_partial.
(** The hypotheses are those of [C49_validate_partial]; see [C49_example]. *)
