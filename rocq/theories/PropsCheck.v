(** C81-C87: check_code.py. *)
From Coq Require Import Ascii String List Bool Arith ZArith Lia.
From Verif Require Import PyStr PyStrFacts Exc SpecNames SpecLive LiveText SpecMypy CheckCode SpecCheck.
Import ListNotations.
Local Open Scope string_scope.
Local Open Scope nat_scope.

Lemma occurs_contains sub s : contains sub s = true <-> occurs sub s.
Proof. apply contains_spec. Qed.
Lemma occurs_not sub s : contains sub s = false <-> ~ occurs sub s.
Proof. rewrite <- occurs_contains. destruct (contains sub s); split; congruence. Qed.
Lemma mem_in x l : mem x l = true <-> In x l.
Proof.
  unfold mem. rewrite existsb_exists. split; [intros (y & H & E) | intros H; exists x].
  - apply String.eqb_eq in E. now subst.
  - split; [exact H | apply String.eqb_refl].
Qed.
Lemma kept_filter {A} (P : A -> Prop) (p : A -> bool) l : (forall x, p x = false <-> P x) -> kept P l (filter p l).
Proof.
  intros H. induction l as [|x l IH]; [constructor|]. cbn [filter]. destruct (p x) eqn:E.
  - apply kept_keep; [rewrite <- H; congruence | exact IH].
  - apply kept_drop; [now apply H | exact IH].
Qed.
Lemma kept_unique {A} (P : A -> Prop) l a b : kept P l a -> kept P l b -> a = b.
Proof. intros H. revert b. induction H; intros b Hb; inversion Hb; subst; try contradiction; auto. f_equal; auto. Qed.

(** ** C81: the exit status *)
Lemma text_key o : text_of o = key_text o.
Proof. reflexivity. Qed.
Lemma existsb_given (t : option texts) out : as_list t ->
  ((if truthy (texts_of t) then existsb (fun sub => contains sub out) (items (texts_of t)) else false) = true <->
   exists s, In s (given t) /\ occurs s out).
Proof.
  intros H. assert (E : (if truthy (texts_of t) then existsb (fun sub => contains sub out) (items (texts_of t)) else false) =
    existsb (fun sub => contains sub out) (given t)).
  { destruct t as [[s|l]|]; cbn in *; [|now destruct l|reflexivity].
    destruct s as [|c [|d s]]; [reflexivity|reflexivity|]. cbn [String.length] in H. lia. }
  rewrite E, existsb_exists. split; intros (s & A & B); exists s; split; auto; now apply occurs_contains.
Qed.
Lemma status_passed t o : as_list t -> (tool_status (texts_of t) o = true <-> passed (given t) o).
Proof.
  intros H. unfold tool_status, passed. rewrite <- (existsb_given t (o_out o) H).
  assert (E : Z.eqb (o_code o) 0 && negb (contains "ERROR" (o_out o)) = true <-> o_code o = 0%Z /\ ~ occurs "ERROR" (o_out o)).
  { rewrite andb_true_iff, Z.eqb_eq, negb_true_iff, occurs_not. reflexivity. }
  rewrite <- E. destruct (truthy (texts_of t)); [rewrite orb_true_iff; reflexivity|]. split; [now left | intros [X|X]; [exact X | discriminate]].
Qed.

Section Machine.
  Context {W : Type}.
  Variable shell : W -> string -> W * outcome.

  Lemma print_output_commands c s d g e k : commands (print_output c s d g e k) = [].
  Proof.
    unfold print_output. destruct s; [reflexivity|]. destruct (String.eqb k ""); cbn [app commands]; destruct (truthy g); try reflexivity; destruct g as [t|l]; try reflexivity.
    all: induction l as [|x l IH]; [reflexivity | exact IH].
  Qed.
  Lemma commands_app a b : commands (a ++ b)%list = (commands a ++ commands b)%list.
  Proof. induction a as [|[c|t] a IH]; [reflexivity | cbn [app commands]; now rewrite IH | exact IH]. Qed.

  Lemma run_entry_does w tool extra e w' ev b : run_entry shell w tool extra e = (w', ev, b) ->
    exists o, shell w (poetry tool extra (key_text (e_path e))) = (w', o) /\ commands ev = [poetry tool extra (key_text (e_path e))] /\
      b = tool_status (texts_of (e_pass e)) o.
  Proof.
    unfold run_entry, run_tool. change (full_command tool extra (text_of (e_path e))) with (poetry tool extra (key_text (e_path e))).
    destruct (shell w _) as [w1 o] eqn:E. intros H. injection H as <- <- <-. exists o. split; [reflexivity|].
    cbn [commands]. now rewrite print_output_commands.
  Qed.

  Lemma run_tool_does w e : daemon_known e ->
    exists w' ev b o, run_tool_from_dct shell w e = Val (w', ev, b) /\ Does shell w e w' (commands ev) o /\ b = tool_status (texts_of (e_pass e)) o.
  Proof.
    intros HK. assert (PL : with_daemon e = None -> exists w' ev b o, Val (run_entry shell w (text_of (e_tool e)) (text_of (e_extra_args e)) e) = Val (w', ev, b) /\
      Does shell w e w' (commands ev) o /\ b = tool_status (texts_of (e_pass e)) o).
    { intros HD. destruct (run_entry shell w (text_of (e_tool e)) (text_of (e_extra_args e)) e) as [[w' ev] b] eqn:E.
      destruct (run_entry_does _ _ _ _ _ _ _ E) as (o & A & B & C). exists w', ev, b, o. split; [reflexivity|]. split; [|exact C].
      rewrite B. now apply Does_plain. }
    unfold run_tool_from_dct. cbv zeta. destruct (String.eqb_spec (text_of (e_tool e)) "mypy") as [T|T].
    2:{ apply PL. unfold with_daemon. destruct (e_dmypy e) as [[[[|]|] ?]|]; try reflexivity. destruct (string_dec _ _); [contradiction | reflexivity]. }
    destruct (e_dmypy e) as [[[[|]|] t]|] eqn:ED.
    - unfold setup_dmypy. cbn [d_enable d_timeout]. destruct (run_tool shell w "dmypy" "status" "" "" (OneText "") (OneText "") None (OneText "") false) as [[w1 ev1] act] eqn:E1.
      assert (WD : with_daemon e = Some (Daemon (Some true) t)).
      { unfold with_daemon. rewrite ED. destruct (string_dec (tool_name e) "mypy") as [|N]; [reflexivity | contradiction N; exact T]. }
      unfold run_tool in E1. change (full_command "dmypy" "status" "") with (poetry "dmypy" "status" "") in E1.
      destruct (shell w (poetry "dmypy" "status" "")) as [w1' s] eqn:ES. injection E1 as <- <- <-. cbn [andthen].
      pose proof (status_passed None s I) as SP. change (texts_of None) with (OneText "") in SP. change (given None) with (@nil string) in SP.
      set (start := match t with Some (S n) => _ | _ => _ end).
      destruct (tool_status (OneText "") s) eqn:ET.
      + destruct (run_entry shell w1' "dmypy" "check" e) as [[w' ev] b] eqn:E. destruct (run_entry_does _ _ _ _ _ _ _ E) as (o & A & B & C).
        eexists _, _, _, o. split; [reflexivity|]. split; [|exact C]. cbn [app commands]. rewrite B. eapply Does_check; eauto. now apply SP.
      + destruct (run_entry shell w1' "dmypy" start e) as [[w' ev] b] eqn:E. destruct (run_entry_does _ _ _ _ _ _ _ E) as (o & A & B & C).
        eexists _, _, _, o. split; [reflexivity|]. split; [|exact C]. cbn [app commands]. rewrite B. eapply Does_start; eauto.
        * intros X. apply SP in X. discriminate.
        * cbn [d_timeout]. unfold start. now destruct t as [[|n]|].
    - cbn [setup_dmypy d_enable andthen]. apply PL. unfold with_daemon. now rewrite ED.
    - destruct t as [t|]; [exfalso; exact (HK T t ED)|]. apply PL. unfold with_daemon. now rewrite ED.
    - apply PL. unfold with_daemon. now rewrite ED.
  Qed.

  Lemma run_all_does : forall l w, Forall daemon_known l ->
    exists w' ev os, run_all shell w l = (w', ev, Val (map (fun p => tool_status (texts_of (e_pass (fst p))) (snd p)) (combine l os))) /\
      Does_all shell w l w' (commands ev) os /\ List.length l = List.length os.
  Proof.
    induction l as [|e l IH]; intros w H; [exists w, [], []; repeat split; constructor|]. inversion H as [|? ? H1 H2]; subst.
    destruct (run_tool_does w e H1) as (w1 & ev & b & o & E & D & B). destruct (IH w1 H2) as (w' & ev' & os & E' & D' & L).
    exists w', (ev ++ ev')%list, (o :: os). cbn [run_all]. rewrite E, E'. cbn [andthen combine map fst snd]. rewrite B. split; [reflexivity|].
    split; [rewrite commands_app; eapply Does_more; eauto | cbn; congruence].
  Qed.
End Machine.

(** *** Selection *)
Lemma parse_none f : f_auto_linting f = None ->
  parse_args f = (if negb (String.eqb (f_single_tool f) "") && match f_only_run_tools f with [] => false | _ => true end then Raise ValueError
    else Val (Arguments AutoNone true (f_only_run_tools f) (f_single_tool f) (f_cls f))).
Proof. intros E. unfold parse_args. rewrite E. cbn [andthen]. now destruct (f_disable_parallel f). Qed.

Lemma absolute_unique dir e a b : absolute dir e a -> absolute dir e b -> a = b.
Proof.
  unfold absolute. intros (A1 & A2 & A3 & A4 & A5 & A6 & A7 & A8 & A9 & A10) (B1 & B2 & B3 & B4 & B5 & B6 & B7 & B8 & B9 & B10).
  assert (P : e_path a = e_path b).
  { assert (D : e_path e = Some "." \/ e_path e <> Some ".") by (destruct (e_path e) as [p|]; [destruct (string_dec p "."); [left | right]; congruence | right; discriminate]).
    destruct D as [D|D]; [rewrite (A9 D), (B9 D) | rewrite (A10 D), (B10 D)]; reflexivity. }
  clear A9 A10 B9 B10. destruct a, b. cbn in *. congruence.
Qed.
Lemma absolutes_unique dir es : forall a b, Forall2 (absolute dir) es a -> Forall2 (absolute dir) es b -> a = b.
Proof.
  induction es as [|e es IH]; intros a b HA HB; inversion HA; subst; inversion HB; subst; [reflexivity|].
  f_equal; [eapply absolute_unique; eauto | auto].
Qed.
Lemma absolute_map dir e : absolute dir e (match e_path e with Some "." => with_path dir e | _ => e end).
Proof.
  assert (P : e_path e = Some "." \/ e_path e <> Some ".") by (destruct (e_path e) as [p|]; [destruct (string_dec p "."); [left | right]; congruence | right; discriminate]).
  destruct P as [P|P].
  - rewrite P. unfold absolute, with_path. cbn. repeat split; try reflexivity. congruence.
  - replace (match e_path e with Some "." => with_path dir e | _ => e end) with e.
    + unfold absolute. repeat split; try reflexivity. congruence.
    + destruct (e_path e) as [p|]; [|reflexivity]. destruct (String.eqb_spec p ".") as [->|N]; [congruence|].
      destruct p as [|c [|d p]]; try reflexivity; destruct c as [[|] [|] [|] [|] [|] [|] [|] [|]]; try reflexivity; congruence.
Qed.

Lemma absolute_same dir e : e_path e <> Some "." -> absolute dir e e.
Proof. intros N. unfold absolute. repeat split; congruence. Qed.

(** The configuration is refused exactly if it is not a list or an entry has no tool; otherwise only the path "." is changed. *)
Theorem C87_configuration : forall dir c,
  (forall l, read_and_parse_args dir c = Val l <->
     exists es, c = Entries es /\ Forall (fun e => e_tool e <> None) es /\ Forall2 (absolute dir) es l) /\
  (read_and_parse_args dir c = Raise ValueError <-> c = NoList \/ exists es, c = Entries es /\ Exists (fun e => e_tool e = None) es).
Proof.
  intros dir c. destruct c as [es|]; cbn [read_and_parse_args].
  2:{ split; [|split; auto]. intros l. split; [discriminate | intros (es & E & _); discriminate]. }
  destruct (existsb _ es) eqn:EX.
  - apply existsb_exists in EX. destruct EX as (e & I & N). destruct (e_tool e) eqn:T; [discriminate|]. split.
    + intros l. split; [discriminate|]. intros (es' & E & F & _). injection E as <-. rewrite Forall_forall in F. exfalso. exact (F e I T).
    + split; [|reflexivity]. intros _. right. exists es. split; [reflexivity|]. apply Exists_exists. eauto.
  - assert (F : Forall (fun e => e_tool e <> None) es).
    { apply Forall_forall. intros e I N. assert (X : existsb (fun e => match e_tool e with None => true | Some _ => false end) es = true) by (apply existsb_exists; exists e; rewrite N; auto). congruence. }
    assert (A : Forall2 (absolute dir) es (map (fun e => match e_path e with Some "." => with_path dir e | _ => e end) es)).
    { clear. induction es as [|e es IH]; [constructor|]. cbn [map]. constructor; [apply absolute_map | exact IH]. }
    split.
    + intros l. split.
      * intros E. injection E as <-. eauto.
      * intros (es' & E & _ & A'). injection E as <-. f_equal. eapply absolutes_unique; eauto.
    + split; [discriminate|]. intros [E|(es' & E & X)]; [discriminate|]. injection E as <-. apply Exists_exists in X. destruct X as (e & I & N).
      rewrite Forall_forall in F. exfalso. exact (F e I N).
Qed.
Print Assumptions C87_configuration.

Lemma filter_tools_chosen f es l : f_single_tool f = "" \/ f_only_run_tools f = [] ->
  (filter_tools es (tools (Arguments AutoNone true (f_only_run_tools f) (f_single_tool f) (f_cls f))) = Val l <-> Chosen f es l).
Proof.
  intros HB. unfold tools. cbn [a_single_tool a_only_run_tools].
  assert (PF : forall e, negb (String.eqb (text_of (e_tool e)) "pytest") = false <-> tool_name e = "pytest").
  { intros e. rewrite negb_false_iff, String.eqb_eq. reflexivity. }
  destruct (String.eqb_spec (f_single_tool f) "") as [S0|S0].
  - destruct (f_only_run_tools f) as [|n ns] eqn:EO.
    + cbn. split; [intros E; injection E as <-; now apply Chosen_all|]. intros C. inversion C as [D | ? D K | ? D | ? D]; subst; [reflexivity| |congruence|congruence].
      exfalso. rewrite EO, S0 in D. destruct D as [[]|(a & b & D)]. cbn in D. destruct a; discriminate.
    + unfold filter_tools. cbn [truthy negb within]. change (lower "") with "" in *. destruct (mem "all linters" (n :: ns)) eqn:EM.
      * apply mem_in in EM. split.
        -- intros E. injection E as <-. apply Chosen_linters; [left; now rewrite EO|]. now apply kept_filter.
        -- intros C. inversion C as [? D | ? D K | ? D N K | ? D]; subst; [congruence | | rewrite EO in N; contradiction | congruence].
           f_equal. eapply kept_unique; [|exact K]. now apply kept_filter.
      * assert (NM : ~ In "all linters" (n :: ns)) by (rewrite <- mem_in; congruence).
        assert (PN : forall e, mem (text_of (e_tool e)) (n :: ns) = false <-> ~ In (tool_name e) (f_only_run_tools f)).
        { intros e. rewrite EO, <- mem_in. change (text_of (e_tool e)) with (tool_name e). destruct (mem (tool_name e) (n :: ns)); [split; [discriminate | intros H; now contradiction H] | split; [discriminate | reflexivity]]. }
        pose proof (kept_filter _ _ es PN) as KF. split.
        -- intros E. assert (E' : filter (fun e => mem (text_of (e_tool e)) (n :: ns)) es = l /\ l <> []) by (destruct (filter _ es); [discriminate|]; injection E as <-; split; [reflexivity | discriminate]).
           destruct E' as [<- NE]. apply Chosen_names; [rewrite EO; discriminate | now rewrite EO | exact KF | exact NE].
        -- intros C. inversion C as [? D | ? D K | ? D N K NE | ? D]; subst; [congruence | | | congruence].
           ++ exfalso. destruct D as [D|(a & b & D)]; [rewrite EO in D; contradiction|]. rewrite S0 in D. cbn in D. destruct a; discriminate.
           ++ rewrite (kept_unique _ _ _ _ KF K). destruct l; [contradiction | reflexivity].
  - destruct HB as [HB|HB]; [contradiction|]. unfold filter_tools. cbn [truthy]. rewrite (proj2 (String.eqb_neq _ _) S0). cbn [negb within].
    destruct (contains "all linters" (lower (f_single_tool f))) eqn:EM.
    + apply occurs_contains in EM. split.
      * intros E. injection E as <-. apply Chosen_linters; [now right|]. now apply kept_filter.
      * intros C. inversion C as [? D | ? D K | ? D N K | ? D N]; subst; [congruence | | congruence | contradiction].
        f_equal. eapply kept_unique; [|exact K]. now apply kept_filter.
    + apply occurs_not in EM.
      assert (PN : forall e, contains (text_of (e_tool e)) (lower (f_single_tool f)) = false <-> ~ occurs (tool_name e) (lower (f_single_tool f))) by (intros e; apply occurs_not).
      pose proof (kept_filter _ _ es PN) as KF. split.
      * intros E. assert (E' : filter (fun e => contains (text_of (e_tool e)) (lower (f_single_tool f))) es = l /\ l <> []) by (destruct (filter _ es); [discriminate|]; injection E as <-; split; [reflexivity | discriminate]).
        destruct E' as [<- NE]. now apply Chosen_single.
      * intros C. inversion C as [? D | ? D K | ? D N K NE | ? D N K NE]; subst; [congruence | | congruence | ].
        -- exfalso. destruct D as [D|D]; [rewrite HB in D; contradiction | contradiction].
        -- rewrite (kept_unique _ _ _ _ KF K). destruct l; [contradiction | reflexivity].
Qed.

Lemma selected_val dir c f l : f_auto_linting f = None -> Selected dir c f l ->
  parse_args f = Val (Arguments AutoNone true (f_only_run_tools f) (f_single_tool f) (f_cls f)) /\
  andthen (read_and_parse_args dir c) (fun l => filter_tools l (tools (Arguments AutoNone true (f_only_run_tools f) (f_single_tool f) (f_cls f)))) = Val l.
Proof.
  intros HA HS. destruct HS as (es & es' & -> & HT & HF & HB & HC). split.
  - rewrite (parse_none f HA). destruct HB as [-> | ->]; [reflexivity | now rewrite andb_false_r].
  - rewrite (proj2 (proj1 (C87_configuration dir (Entries es)) es')) by eauto. cbn [andthen]. now apply filter_tools_chosen.
Qed.

Lemma passed_all l os : List.length l = List.length os -> Forall (fun e => as_list (e_pass e)) l ->
  (existsb negb (map (fun p => tool_status (texts_of (e_pass (fst p))) (snd p)) (combine l os)) = false <->
   Forall2 (fun e o => passed (given (e_pass e)) o) l os).
Proof.
  revert os. induction l as [|e l IH]; intros [|o os] L H; try discriminate L; [split; [constructor | reflexivity]|].
  inversion H as [|? ? H1 H2]; subst. cbn [combine map existsb fst snd]. rewrite orb_false_iff, negb_false_iff, (status_passed _ o H1), IH by (auto; now injection L).
  split; [intros [A B]; now constructor | intros A; inversion A; now subst].
Qed.

(** The script runs the selected tools one after the other, all of them, and exits with 0 exactly if all of them have passed, otherwise
    with 1; it touches no hook.  Full claim: without the condition [as_list] on the texts that make a tool pass. *)
Theorem C81_exit_partial : forall W (shell : W -> string -> W * outcome) dir file c w h f l,
  f_auto_linting f = None -> Selected dir c f l -> Forall daemon_known l -> Forall (fun e => as_list (e_pass e)) l ->
  exists w' ev cs os code,
    main shell dir file c w h f = (w', h, (ev ++ [Print (if Nat.eqb code 0 then OK_MSG else ERR_MSG)])%list, Exits code) /\
    Does_all shell w l w' cs os /\
    commands ev = ((if f_cls f then ["cls"] else []) ++ cs)%list /\
    (code = 0 \/ code = 1) /\
    (code = 0 <-> Forall2 (fun e o => passed (given (e_pass e)) o) l os).
Proof.
  intros W shell dir file c w h f l HA HS HK HP. destruct (selected_val dir c f l HA HS) as [EP EF].
  destruct (run_all_does shell l w HK) as (w' & ev & os & E & D & L). pose proof (passed_all l os L HP) as PA.
  unfold main. rewrite EP. cbn [a_auto_linting a_cls a_disable_parallel]. rewrite EF. cbn [orb]. rewrite E.
  destruct (existsb negb _) eqn:EX.
  - exists w', ((if f_cls f then [Command "cls"] else []) ++ ev)%list, (commands ev), os, 1. cbn [Nat.eqb]. rewrite <- app_assoc. split; [reflexivity|].
    split; [exact D|]. split; [rewrite commands_app; now destruct (f_cls f)|]. split; [now right|]. split; [discriminate|]. intros X. apply PA in X. discriminate.
  - exists w', ((if f_cls f then [Command "cls"] else []) ++ ev)%list, (commands ev), os, 0. cbn [Nat.eqb]. rewrite <- app_assoc. split; [reflexivity|].
    split; [exact D|]. split; [rewrite commands_app; now destruct (f_cls f)|]. split; [now left|]. split; [intros _; now apply PA | reflexivity].
Qed.
Print Assumptions C81_exit_partial.

(** The texts that make a tool pass, given as one text: its letters count. *)
Definition no_texts : option texts := None.
Definition tool_entry (tool : string) (pass : option texts) : entry := Entry (Some tool) None None None None None None pass None.
Definition no_flags : flags := Flags None false [] "" false.
Definition failing : unit -> string -> unit * outcome := fun w _ => (w, Outcome 5 "collected 0 items" "").
Theorem C81_pass_refuted : exists f l,
  f_auto_linting f = None /\ Selected "/dir" (Entries l) f l /\ Forall daemon_known l /\
  snd (main failing "/dir" "check_code.py" (Entries l) tt (Some None) f) = Exits 0 /\
  forall w' cs os, Does_all failing tt l w' cs os -> ~ Forall2 (fun e o => passed (given (e_pass e)) o) l os.
Proof.
  exists no_flags, [tool_entry "pytest" (Some (OneText "no tests ran"))]. split; [reflexivity|]. split.
  { eexists _, _. split; [reflexivity|]. split; [repeat constructor; discriminate|]. split.
    - now repeat (constructor; [apply absolute_same; discriminate|]).
    - split; [now left | now apply Chosen_all]. }
  split; [repeat constructor; intros E; discriminate E|]. split; [vm_compute; reflexivity|].
  intros w' cs os D P. inversion D as [|? ? ? ? ? ? ? o os' D1 D2]; subst. inversion P as [|? ? ? ? P1 _]; subst.
  inversion D1 as [? ? _ E | ? ? ? ? ? E | ? ? ? ? ? ? E]; subst; try discriminate E. injection E as _ <-.
  destruct P1 as [[P1 _]|(t & [<- | []] & P1)]; [discriminate P1|]. apply occurs_contains in P1. vm_compute in P1. discriminate.
Qed.
Print Assumptions C81_pass_refuted.
(** Two linters, the second one fails; both are run. *)
Definition second_fails : list string -> string -> list string * outcome :=
  fun w c => ((w ++ [c])%list, if contains "ruff" c then Outcome 1 "" "E501 line too long" else Outcome 0 "" "").
Definition two_tools : list entry := [tool_entry "ruff" None; tool_entry "black" (Some (Texts ["unchanged"]))].
Example C81_exit_example :
  Selected "/dir" (Entries two_tools) no_flags two_tools /\ Forall daemon_known two_tools /\ Forall (fun e => as_list (e_pass e)) two_tools /\
  exists ev, main second_fails "/dir" "check_code.py" (Entries two_tools) [] None no_flags =
    (["python3 -m poetry run ruff  "; "python3 -m poetry run black  "], None, ev, Exits 1).
Proof.
  split.
  { eexists _, _. split; [reflexivity|]. split; [repeat constructor; discriminate|]. split.
    - now repeat (constructor; [apply absolute_same; discriminate|]).
    - split; [now left | now apply Chosen_all]. }
  split; [repeat constructor; intros E; discriminate E|]. split; [repeat constructor|]. eexists. vm_compute. reflexivity.
Qed.

(** If the options select nothing, nothing is run. *)
Lemma kept_exists {A} (P : A -> Prop) (dec : forall x, {P x} + {~ P x}) l : exists l', kept P l l'.
Proof. exists (filter (fun x => if dec x then false else true) l). apply kept_filter. intros x. destruct (dec x); split; congruence. Qed.
Lemma filter_tools_cases l only : (exists l', filter_tools l only = Val l') \/ filter_tools l only = Raise ValueError.
Proof.
  unfold filter_tools. destruct (negb (truthy only)); [left; eauto|]. cbv zeta. destruct (within "all linters" _); [left; eauto|].
  destruct (filter _ l); [now right | left; eauto].
Qed.
Theorem C82_refused : forall W (shell : W -> string -> W * outcome) dir file c w h f,
  f_auto_linting f = None -> (forall l, ~ Selected dir c f l) -> main shell dir file c w h f = (w, h, [], Fails ValueError).
Proof.
  intros W shell dir file c w h f HA HN. unfold main. rewrite (parse_none f HA).
  destruct (negb (String.eqb (f_single_tool f) "") && match f_only_run_tools f with [] => false | _ => true end) eqn:EB; [reflexivity|].
  assert (HB : f_single_tool f = "" \/ f_only_run_tools f = []).
  { apply andb_false_iff in EB as [EB|EB]; [left; apply negb_false_iff in EB; now apply String.eqb_eq | right; now destruct (f_only_run_tools f)]. }
  cbn [a_auto_linting]. destruct c as [es|]; [|reflexivity]. pose proof (C87_configuration dir (Entries es)) as [C1 C2].
  destruct (read_and_parse_args dir (Entries es)) as [l|x|] eqn:ER.
  - cbn [andthen]. destruct (proj1 (C1 l) eq_refl) as (es' & E & HT & HF). injection E as <-.
    destruct (filter_tools_cases l (tools (Arguments AutoNone true (f_only_run_tools f) (f_single_tool f) (f_cls f)))) as [[l' EF] | EF]; rewrite EF; [|reflexivity].
    exfalso. apply (HN l'). exists es, l. repeat (split; [assumption || reflexivity|]). now apply filter_tools_chosen.
  - cbn in ER. destruct (existsb _ es); [injection ER as <-; reflexivity | discriminate].
  - cbn in ER. destruct (existsb _ es); discriminate.
Qed.
Print Assumptions C82_refused.
Example C82_refused_example : forall l, ~ Selected "/dir" (Entries two_tools) (Flags None false ["flake8"] "" false) l.
Proof.
  intros l (es & es' & E & _ & HF & _ & C). injection E as <-.
  inversion HF as [|? a ? es1 A1 HF1]; subst. inversion HF1 as [|? b ? es2 A2 HF2]; subst. inversion HF2; subst.
  assert (Ta : tool_name a = "ruff") by (unfold tool_name; now rewrite (proj1 A1)).
  assert (Tb : tool_name b = "black") by (unfold tool_name; now rewrite (proj1 A2)).
  inversion C as [? D | ? D | ? D N K NE | ? D]; subst; cbn in *.
  - discriminate.
  - destruct D as [[D|[]]|(x & y & D)]; [discriminate | destruct x; discriminate].
  - apply NE. eapply kept_unique; [exact K|]. apply kept_drop; [rewrite Ta; intros [X|[]]; discriminate|].
    apply kept_drop; [rewrite Tb; intros [X|[]]; discriminate | constructor].
  - now apply D.
Qed.

(** The option "--only-run-tools" selects exactly the tools named, in the order of the configuration. *)
Theorem C82_listed : forall dir es f l, f_single_tool f = "" -> f_only_run_tools f <> [] -> ~ In all_linters (f_only_run_tools f) ->
  Selected dir (Entries es) f l ->
  l <> [] /\ exists es', Forall2 (absolute dir) es es' /\ kept (fun e => ~ In (tool_name e) (f_only_run_tools f)) es' l.
Proof.
  intros dir es f l S0 NE NA (es0 & es' & E & _ & HF & _ & C). injection E as <-.
  inversion C as [? D | ? D K | ? D N K X | ? D]; subst; try congruence.
  - exfalso. destruct D as [D|(a & b & D)]; [contradiction|]. rewrite S0 in D. destruct a; discriminate.
  - split; [exact X|]. eauto.
Qed.
Print Assumptions C82_listed.

(** Full claim: "--single-tool t" runs exactly the tools called [t].  Proved for lower case names in which no other name occurs. *)
Theorem C82_single_partial : forall dir es f l t, f_single_tool f = t -> t <> "" -> lower t = t -> ~ occurs all_linters t ->
  Forall (fun e => occurs (tool_name e) t -> tool_name e = t) es ->
  Selected dir (Entries es) f l ->
  l <> [] /\ exists es', Forall2 (absolute dir) es es' /\ kept (fun e => tool_name e <> t) es' l.
Proof.
  intros dir es f l t <- NE HL NA HO (es0 & es' & E & _ & HF & HB & C). injection E as <-. destruct HB as [HB|HB]; [contradiction|].
  inversion C as [? D | ? D K | ? D N K X | ? D N K X]; subst; try congruence.
  - exfalso. destruct D as [D|D]; [rewrite HB in D; contradiction | rewrite HL in D; contradiction].
  - split; [exact X|]. exists es'. split; [exact HF|]. rewrite HL in K.
    assert (HO' : Forall (fun e => occurs (tool_name e) (f_single_tool f) -> tool_name e = f_single_tool f) es').
    { clear - HO HF. induction HF as [|e e' es es' A HF IH]; [constructor|]. inversion HO; subst. constructor; [|auto].
      unfold tool_name in *. now rewrite (proj1 A). }
    clear - K HO'. induction K as [|x l l' HP K IH | x l l' HP K IH]; [constructor| |]; inversion HO' as [|? ? H1 H2]; subst.
    + apply kept_drop; [|auto]. intros X. apply HP. rewrite X. exists "", "". cbn. now rewrite app_nil_r_s.
    + apply kept_keep; [|auto]. intros X. apply X, H1.
      destruct (contains (tool_name x) (f_single_tool f)) eqn:E; [now apply occurs_contains | apply occurs_not in E; contradiction].
Qed.
Print Assumptions C82_single_partial.
Example C82_single_example :
  Forall (fun e => occurs (tool_name e) "ruff" -> tool_name e = "ruff") two_tools /\ lower "ruff" = "ruff" /\ ~ occurs all_linters "ruff" /\
  Selected "/dir" (Entries two_tools) (Flags None false [] "ruff" false) [tool_entry "ruff" None].
Proof.
  split; [repeat constructor; intros H; apply occurs_contains in H; vm_compute in H; discriminate|]. split; [reflexivity|].
  split; [intros H; apply occurs_contains in H; vm_compute in H; discriminate|].
  exists two_tools, two_tools. split; [reflexivity|]. split; [repeat constructor; discriminate|]. split.
  - now repeat (constructor; [apply absolute_same; discriminate|]).
  - split; [now right|]. apply Chosen_single; [discriminate | intros H; apply occurs_contains in H; vm_compute in H; discriminate | | discriminate].
    apply kept_keep; [intros H; apply H, occurs_contains; reflexivity|]. apply kept_drop; [intros H; apply occurs_contains in H; vm_compute in H; discriminate | constructor].
Qed.
(** Refuted as stated: "--single-tool dmypy" runs mypy, and a tool with a capital letter is never found. *)
Theorem C82_single_refuted : exists l,
  l = [tool_entry "mypy" None] /\
  (exists ev, main failing "/dir" "check_code.py" (Entries l) tt None (Flags None false [] "dmypy" false) = (tt, None, ev, Exits 1) /\
    commands ev = [poetry "mypy" "" ""]) /\
  main failing "/dir" "check_code.py" (Entries [tool_entry "PyLint" None]) tt None (Flags None false [] "PyLint" false) = (tt, None, [], Fails ValueError).
Proof. eexists. split; [reflexivity|]. split; [eexists; split|]; vm_compute; reflexivity. Qed.
Print Assumptions C82_single_refuted.

(** ** C83: the report *)
Lemma splitlines_lines n : forall s acc, String.length s <= n -> one_line acc = true -> Forall (fun l => one_line l = true) (splitlines_aux s acc).
Proof.
  induction n as [|n IH]; intros [|c s] acc HL HA; cbn [splitlines_aux String.length] in *; try lia; try (destruct acc; repeat constructor; exact HA).
  destruct (is_linebreak c) eqn:E.
  - destruct s as [|d s]; [repeat constructor; exact HA|]. cbn [String.length] in HL.
    destruct (Nat.eqb (ord c) 13 && Nat.eqb (ord d) 10); constructor; auto; apply IH; auto; cbn [String.length]; lia.
  - apply IH; [lia|]. rewrite one_line_app, HA. unfold one_line. cbn [str_forall]. now rewrite E.
Qed.
Lemma splitlines_one_line s : Forall (fun l => one_line l = true) (splitlines s).
Proof. apply (splitlines_lines (String.length s)); [lia | reflexivity]. Qed.
Lemma printed_app a b : printed (a ++ b)%list = (printed a ++ printed b)%list.
Proof. induction a as [|[c|t] a IH]; [reflexivity | exact IH | cbn [app printed]; now rewrite IH]. Qed.
Lemma shown_join ls : join nl (map (fun line => "     " ++ line) (drop_last_empty ls)) = shown ls.
Proof.
  induction ls as [|x ls IH]; [reflexivity|]. destruct ls as [|y ls]; [destruct x; reflexivity|].
  rewrite drop_last_empty_cons. cbn [map]. destruct ls as [|z ls].
  - destruct y as [|c y]; [reflexivity|]. cbn [drop_last_empty rev app map]. cbn [join]. rewrite !app_assoc_s. reflexivity.
  - rewrite drop_last_empty_cons in *. cbn [map] in *. rewrite join_cons by discriminate. rewrite IH.
    assert (E : shown (x :: y :: z :: ls) = "     " ++ x ++ line_feed ++ shown (y :: z :: ls)) by (destruct y; reflexivity).
    rewrite E. now rewrite app_assoc_s.
Qed.
Lemma print_output_printed tool b e err command : command <> "" ->
  printed (print_output tool b (text_of (e_tool_desc e)) (texts_of (e_suggestions e)) err command) =
  (if b then report_passed tool e
   else ("[" ++ red "NOK" ++ "] " ++ described tool e) :: (" - Command used: " ++ yellow command) ::
        app (map (fun s => " - " ++ yellow s) (given (e_suggestions e)))
            [" - Output from the tool: " ++ nl ++ join nl (map (fun line => "     " ++ line) (splitlines err)) ++ nl]).
Proof.
  intros NC. assert (D : described tool e = tool ++ (if String.eqb (text_of (e_tool_desc e)) "" then "" else " - " ++ text_of (e_tool_desc e))).
  { unfold described. change (key_text (e_tool_desc e)) with (text_of (e_tool_desc e)). destruct (text_of (e_tool_desc e)); [cbn; now rewrite app_nil_r_s | reflexivity]. }
  unfold print_output. destruct b.
  - cbn [printed]. unfold report_passed. rewrite D. reflexivity.
  - rewrite (proj2 (String.eqb_neq command "") NC). rewrite D. rewrite !printed_app. cbn [printed app].
    do 2 (apply f_equal2; [reflexivity|]). apply f_equal2; [|reflexivity].
    destruct (e_suggestions e) as [[s|l]|]; cbn [texts_of truthy]; [| |reflexivity].
    + destruct s; reflexivity.
    + destruct l as [|x l]; [reflexivity|]. change (given (Some (Texts (x :: l)))) with (x :: l). generalize (x :: l) as m. clear.
      induction m as [|x m IH]; [reflexivity|]. cbn [map printed]. now rewrite IH.
Qed.

Lemma status_message (b : bool) ignore only o : b = false ->
  shown_lines b ignore only o =
    match only with
    | Some o' => if truthy o' then filter (fun line => existsb (fun i => contains i line) (items o')) (splitlines (message o))
                 else filter (fun line => negb (existsb (fun i => contains i line) (items ignore))) (splitlines (message o))
    | None => filter (fun line => negb (existsb (fun i => contains i line) (items ignore))) (splitlines (message o))
    end.
Proof.
  intros ->. unfold shown_lines, message. assert (E : (if negb false && negb (String.eqb (o_out o) "") && String.eqb (o_err o) "" then o_out o else o_err o) = match o_err o with "" => o_out o | e => e end).
  { destruct (o_err o); [|now rewrite andb_false_r]. rewrite andb_true_r. destruct (o_out o); reflexivity. }
  rewrite E. now destruct only.
Qed.
Lemma shown_one_line b ignore only o : Forall (fun l => one_line l = true) (shown_lines b ignore only o).
Proof.
  assert (F : forall (p : string -> bool) s, Forall (fun l => one_line l = true) (filter p (splitlines s))).
  { intros p s. apply Forall_forall. intros x Hx. apply filter_In in Hx as [Hx _]. pose proof (splitlines_one_line s) as H. rewrite Forall_forall in H. auto. }
  unfold shown_lines. destruct only as [t|]; [destruct (truthy t)|]; apply F.
Qed.

Definition tool_run (e : entry) : string := match with_daemon e with Some _ => "dmypy" | None => tool_name e end.

Section Report.
  Context {W : Type}.
  Variable shell : W -> string -> W * outcome.
  Lemma poetry_some t a p : poetry t a p <> "".
  Proof. discriminate. Qed.
  Lemma run_entry_report w tool extra e w' ev b : run_entry shell w tool extra e = (w', ev, b) ->
    exists o, shell w (poetry tool extra (key_text (e_path e))) = (w', o) /\ b = tool_status (texts_of (e_pass e)) o /\
      printed ev = if b then report_passed tool e
                   else report_failed tool (poetry tool extra (key_text (e_path e))) e (shown_lines b (texts_of (e_ignore e)) (e_only_include e) o).
  Proof.
    unfold run_entry, run_tool. change (full_command tool extra (text_of (e_path e))) with (poetry tool extra (key_text (e_path e))).
    destruct (shell w _) as [w1 o] eqn:E. intros H. injection H as <- <- <-. exists o. split; [reflexivity|]. split; [reflexivity|].
    cbn [printed]. rewrite print_output_printed by apply poetry_some. destruct (tool_status (texts_of (e_pass e)) o); [reflexivity|].
    rewrite (splitlines_join _ (shown_one_line _ _ _ _)), shown_join. reflexivity.
  Qed.
  (** What is printed about a tool and the outcome of its last command. *)
  Lemma run_tool_report w e w' ev b : run_tool_from_dct shell w e = Val (w', ev, b) ->
    exists w0 command o, shell w0 command = (w', o) /\ last (commands ev) "" = command /\ b = tool_status (texts_of (e_pass e)) o /\
      printed ev = if b then report_passed (tool_run e) e
                   else report_failed (tool_run e) command e (shown_lines b (texts_of (e_ignore e)) (e_only_include e) o).
  Proof.
    assert (G : forall w0 tool extra ev0, printed ev0 = [] -> tool = tool_run e ->
      forall w1 ev1, run_entry shell w0 tool extra e = (w1, ev1, b) -> w1 = w' -> ev = (ev0 ++ ev1)%list ->
      exists w0 command o, shell w0 command = (w', o) /\ last (commands ev) "" = command /\ b = tool_status (texts_of (e_pass e)) o /\
      printed ev = if b then report_passed (tool_run e) e
                   else report_failed (tool_run e) command e (shown_lines b (texts_of (e_ignore e)) (e_only_include e) o)).
    { intros w0 tool extra ev0 P0 ET w1 ev1 E -> ->. destruct (run_entry_report _ _ _ _ _ _ _ E) as (o & A & B & C).
      destruct (run_entry_does _ _ _ _ _ _ _ _ E) as (_ & _ & CM & _).
      eexists _, _, o. split; [exact A|]. split; [rewrite commands_app, CM; apply last_last|]. split; [exact B|].
      rewrite printed_app, P0. cbn [app]. rewrite C, ET. reflexivity. }
    unfold run_tool_from_dct. cbv zeta. intros H.
    assert (PL : with_daemon e = None -> Val (run_entry shell w (text_of (e_tool e)) (text_of (e_extra_args e)) e) = Val (w', ev, b) ->
      exists w0 command o, shell w0 command = (w', o) /\ last (commands ev) "" = command /\ b = tool_status (texts_of (e_pass e)) o /\
      printed ev = if b then report_passed (tool_run e) e
                   else report_failed (tool_run e) command e (shown_lines b (texts_of (e_ignore e)) (e_only_include e) o)).
    { intros HD E. injection E as E. apply (G w (text_of (e_tool e)) (text_of (e_extra_args e)) [] eq_refl) with (w1 := w') (ev1 := ev); auto.
      unfold tool_run. now rewrite HD. }
    destruct (String.eqb_spec (text_of (e_tool e)) "mypy") as [T|T].
    2:{ apply PL; [|exact H]. unfold with_daemon. destruct (e_dmypy e) as [[[[|]|] ?]|]; try reflexivity. destruct (string_dec _ _); [contradiction | reflexivity]. }
    destruct (e_dmypy e) as [[[[|]|] t]|] eqn:ED.
    - unfold setup_dmypy in H. cbn [d_enable d_timeout] in H.
      destruct (run_tool shell w "dmypy" "status" "" "" (OneText "") (OneText "") None (OneText "") false) as [[w1 ev1] act] eqn:E1.
      assert (WD : tool_run e = "dmypy").
      { unfold tool_run, with_daemon. rewrite ED. destruct (string_dec (tool_name e) "mypy") as [|N]; [reflexivity | contradiction N; exact T]. }
      assert (P1 : printed ev1 = []) by (unfold run_tool in E1; destruct (shell w _); injection E1 as _ <- _; reflexivity).
      cbn [andthen] in H. destruct (run_entry shell w1 "dmypy" _ e) as [[w2 ev2] b2] eqn:E2. injection H as <- <- <-.
      apply (G w1 "dmypy" _ ev1 P1 (eq_sym WD) _ _ E2 eq_refl eq_refl).
    - cbn [setup_dmypy d_enable andthen] in H. apply PL; [|exact H]. unfold with_daemon. now rewrite ED.
    - destruct t as [t|]; [discriminate H|]. apply PL; [|exact H]. unfold with_daemon. now rewrite ED.
    - apply PL; [|exact H]. unfold with_daemon. now rewrite ED.
  Qed.
End Report.

Lemma contains_one_iff (t : option texts) line : as_list t ->
  (existsb (fun i => contains i line) (items (texts_of t)) = true <-> contains_one (given t) line).
Proof.
  intros H. assert (E : items (texts_of t) = given t).
  { destruct t as [[s|l]|]; cbn in *; try reflexivity. destruct s as [|c [|d s]]; try reflexivity. cbn [String.length] in H. lia. }
  rewrite E, existsb_exists. unfold contains_one. split; intros (s & A & B); exists s; split; auto; now apply occurs_contains.
Qed.

(** The report: a line for a tool that has passed; the command, the suggestions and the lines of the output for one that has failed.
    Without "only_include" the lines are those that contain no text to ignore, with it those that contain a text to include.
    Full claim: with both, the lines to ignore are left out too. *)
Theorem C83_report_partial : forall W (shell : W -> string -> W * outcome) w e w' ev b,
  as_list (e_ignore e) -> as_list (e_only_include e) -> run_tool_from_dct shell w e = Val (w', ev, b) ->
  exists w0 command o, shell w0 command = (w', o) /\ last (commands ev) "" = command /\
    ((b = true /\ printed ev = report_passed (tool_run e) e) \/
     (b = false /\ exists lines, printed ev = report_failed (tool_run e) command e lines /\
        (given (e_only_include e) = [] -> kept (contains_one (given (e_ignore e))) (splitlines (message o)) lines) /\
        (given (e_only_include e) <> [] -> kept (fun line => ~ contains_one (given (e_only_include e)) line) (splitlines (message o)) lines))).
Proof.
  intros W shell w e w' ev b HI HO H. destruct (run_tool_report shell w e w' ev b H) as (w0 & command & o & A & L & B & P).
  exists w0, command, o. split; [exact A|]. split; [exact L|]. destruct b; [left; auto|]. right. split; [reflexivity|].
  eexists. split; [exact P|]. rewrite status_message by reflexivity.
  assert (KI : kept (contains_one (given (e_ignore e))) (splitlines (message o))
    (filter (fun line => negb (existsb (fun i => contains i line) (items (texts_of (e_ignore e))))) (splitlines (message o)))).
  { apply kept_filter. intros x. rewrite negb_false_iff. now apply contains_one_iff. }
  split; intros G.
  - destruct (e_only_include e) as [[s|l]|]; cbn in G |- *; [destruct s; [exact KI | discriminate] | subst l; exact KI | exact KI].
  - destruct (e_only_include e) as [t|] eqn:EO; [|now contradiction G]. assert (T : truthy t = true) by (destruct t as [[|]|[|]]; try reflexivity; now contradiction G).
    rewrite T. apply kept_filter. intros x. rewrite <- (contains_one_iff (Some t) x HO). cbn [texts_of].
    destruct (existsb _ (items t)); split; congruence.
Qed.
Print Assumptions C83_report_partial.
Definition noisy : entry := Entry (Some "black") (Some "--check") (Some ".") (Some "Format") (Some (OneText "Run black")) (Some (Texts ["Oh no"; "Skipping"])) None None None.
Definition noise : string := "Skipping x.ipynb" ++ nl ++ "would reformat a.py" ++ nl ++ "Oh no!" ++ nl.
Example C83_report_example :
  as_list (e_ignore noisy) /\ as_list (e_only_include noisy) /\
  exists ev, run_tool_from_dct (fun (w : unit) _ => (w, Outcome 1 "" noise)) tt noisy = Val (tt, ev, false) /\
    printed ev = report_failed "black" "python3 -m poetry run black --check ." noisy ["would reformat a.py"].
Proof. split; [exact I|]. split; [exact I|]. eexists. split; vm_compute; reflexivity. Qed.
(** Refuted as stated: with "only_include" a line to ignore is shown. *)
Theorem C83_ignored_refuted : exists e ev lines line,
  as_list (e_ignore e) /\ as_list (e_only_include e) /\ run_tool_from_dct (fun (w : unit) _ => (w, Outcome 1 "" noise)) tt e = Val (tt, ev, false) /\
  printed ev = report_failed (tool_run e) "python3 -m poetry run black  " e lines /\ In line lines /\ contains_one (given (e_ignore e)) line.
Proof.
  exists (Entry (Some "black") None None None None (Some (Texts ["Skipping"])) (Some (Texts ["x"])) None None).
  eexists _, ["Skipping x.ipynb"], "Skipping x.ipynb". split; [exact I|]. split; [exact I|]. split; [vm_compute; reflexivity|]. split; [vm_compute; reflexivity|].
  split; [now left|]. exists "Skipping". split; [now left|]. now exists "", " x.ipynb".
Qed.
Print Assumptions C83_ignored_refuted.

(** ** C84: the hook of git *)
(** The hook changes to the directory and runs the linters. *)
Definition hook_runs (dir file : string) : string :=
  line_feed ++ "cd " ++ quote dir ++ line_feed ++ "python3 -m poetry run python " ++ quote file ++ " --single-tool 'all linters'" ++ line_feed.
Lemma join_middle a b post : post <> [] -> forall pre, pre <> [] ->
  occurs (nl ++ a ++ nl ++ b ++ nl) (join nl (pre ++ a :: b :: post)%list).
Proof.
  intros NP. induction pre as [|x pre IH]; intros N; [contradiction|]. destruct pre as [|y pre].
  - exists x, (join nl post). cbn [app]. rewrite (join_cons nl x) by discriminate. rewrite (join_cons nl a) by discriminate. rewrite (join_cons nl b post NP).
    rewrite !app_assoc_s. reflexivity.
  - destruct IH as (u & v & E); [discriminate|]. exists (x ++ nl ++ u), v. cbn [app] in *. rewrite join_cons by discriminate. rewrite E, !app_assoc_s. reflexivity.
Qed.
Lemma hook_text_runs dir file : occurs (hook_runs dir file) (hook_text dir file).
Proof.
  assert (E : hook_runs dir file = nl ++ ("cd " ++ dq ++ dir ++ dq) ++ nl ++ ("python3 -m poetry run python " ++ dq ++ file ++ dq ++ " --single-tool 'all linters'") ++ nl).
  { unfold hook_runs. assert (Q : forall s, quote s = dq ++ s ++ dq) by reflexivity. rewrite !Q, !app_assoc_s. reflexivity. }
  rewrite E. unfold hook_text.
  match goal with |- occurs _ (join nl (?l1 :: ?l2 :: ?l3 :: ?l4 :: ?l5 :: ?x :: ?y :: ?r)) =>
    change (l1 :: l2 :: l3 :: l4 :: l5 :: x :: y :: r) with ([l1; l2; l3; l4; l5] ++ x :: y :: r)%list end.
  apply join_middle; discriminate.
Qed.
Lemma parse_enable f s : f_auto_linting f = Some s -> s <> "" -> f_single_tool f = "" \/ f_only_run_tools f = [] ->
  parse_args f = (if contains "enable" (lower s) then Val (Arguments AutoTrue true (f_only_run_tools f) (f_single_tool f) (f_cls f))
    else if contains "disable" (lower s) then Val (Arguments (AutoText s) true (f_only_run_tools f) (f_single_tool f) (f_cls f)) else Raise ValueError).
Proof.
  intros E NE HB. unfold parse_args. rewrite E, (proj2 (String.eqb_neq s "") NE).
  assert (B : negb (String.eqb (f_single_tool f) "") && match f_only_run_tools f with [] => false | _ => true end = false).
  { destruct HB as [-> | ->]; [reflexivity | apply andb_false_r]. }
  destruct (contains "enable" (lower s)); [|destruct (contains "disable" (lower s))]; cbn [andthen]; rewrite ?B; now destruct (f_disable_parallel f).
Qed.

(** With a command that is not empty: no tool is run; "enable" writes the hook unless there is one, "disable" removes it, anything else
    is refused and changes nothing.  Full claim: the empty command is refused too, and only a hook of the script is removed. *)
Theorem C84_auto_linting_partial : forall W (shell : W -> string -> W * outcome) dir file c w hook f s,
  f_auto_linting f = Some s -> s <> "" -> f_single_tool f = "" \/ f_only_run_tools f = [] ->
  exists hook' ev en, main shell dir file c w (Some hook) f = (w, Some hook', ev, en) /\ commands ev = [] /\
    (occurs "enable" (lower s) -> en = Returns /\
       (hook = None -> exists text, hook' = Some text /\ occurs (hook_runs dir file) text) /\ (hook <> None -> hook' = hook)) /\
    (~ occurs "enable" (lower s) -> occurs "disable" (lower s) -> en = Returns /\ hook' = None) /\
    (~ occurs "enable" (lower s) -> ~ occurs "disable" (lower s) -> en = Fails ValueError /\ hook' = hook /\ ev = []).
Proof.
  intros W shell dir file c w hook f s E NE HB. unfold main. rewrite (parse_enable f s E NE HB).
  destruct (contains "enable" (lower s)) eqn:E1; [apply occurs_contains in E1 | apply occurs_not in E1; destruct (contains "disable" (lower s)) eqn:E2; [apply occurs_contains in E2 | apply occurs_not in E2]];
    cbn [a_auto_linting].
  - destruct hook as [text|]; cbn [setup_auto_run]; eexists _, _, _; (split; [reflexivity|]); (split; [reflexivity|]);
      (split; [intros _; split; [reflexivity|]|split; intros N; now contradiction N]); split; try congruence.
    intros _. eexists. split; [reflexivity | apply hook_text_runs].
  - destruct hook as [text|]; cbn [disable_auto_run]; eexists _, _, _; (split; [reflexivity|]); (split; [reflexivity|]);
      (split; [intros N; contradiction|]); (split; [auto | intros _ N; contradiction]).
  - eexists _, _, _. split; [reflexivity|]. split; [reflexivity|]. split; [intros N; contradiction|]. split; [intros _ N; contradiction | auto].
Qed.
Print Assumptions C84_auto_linting_partial.
(** Enabling and disabling again leaves no hook; the hook runs everything but pytest (C81 and C82). *)
Example C84_auto_linting_example :
  let on := main failing "/dir" "check_code.py" NoList tt (Some None) (Flags (Some "enable") false [] "" false) in
  snd (fst (fst on)) = Some (Some (hook_text "/dir" "check_code.py")) /\
  snd (fst (fst (main failing "/dir" "check_code.py" NoList tt (snd (fst (fst on))) (Flags (Some "Disable it") false [] "" false)))) = Some None.
Proof. vm_compute. split; reflexivity. Qed.
(** Refuted as stated: an empty command removes the hook, even one of somebody else. *)
Theorem C84_empty_refuted : exists f hook,
  f_auto_linting f = Some "" /\ ~ occurs "check_code.py" hook /\
  main failing "/dir" "check_code.py" NoList tt (Some (Some hook)) f =
    (tt, Some None, [Print (green "Auto run removed!" ++ " No code verification will be done before pushin to online repo.")], Returns).
Proof.
  exists (Flags (Some "") false [] "" false), "#!/bin/sh". split; [reflexivity|]. split; [|vm_compute; reflexivity].
  intros H. apply occurs_contains in H. vm_compute in H. discriminate.
Qed.
Print Assumptions C84_empty_refuted.

(** ** C85: "--disable-parallel" *)
(** The option changes nothing: the tools are always run one after the other. *)
Theorem C85_no_effect : forall W (shell : W -> string -> W * outcome) dir file c w h a b only single cls,
  main shell dir file c w h (Flags a b only single cls) = main shell dir file c w h (Flags a true only single cls).
Proof. intros. unfold main, parse_args. cbn. now destruct b. Qed.
Print Assumptions C85_no_effect.
Theorem C85_parallel_refuted : exists f a, f_disable_parallel f = false /\ parse_args f = Val a /\ a_disable_parallel a = true.
Proof. exists no_flags. eexists. split; [reflexivity|]. split; reflexivity. Qed.
Print Assumptions C85_parallel_refuted.

(** ** C86: the daemon of mypy *)
(** An entry runs the commands that [Does] says and has passed if the last of them has; an entry of mypy with a daemon that is neither
    enabled nor disabled is an error.  Full claim: with the daemon the extra arguments of the entry are used too. *)
Theorem C86_commands_partial : forall W (shell : W -> string -> W * outcome) w e, as_list (e_pass e) ->
  (daemon_known e -> exists w' ev b o, run_tool_from_dct shell w e = Val (w', ev, b) /\ Does shell w e w' (commands ev) o /\
     (b = true <-> passed (given (e_pass e)) o)) /\
  (~ daemon_known e -> run_tool_from_dct shell w e = Raise KeyError).
Proof.
  intros W shell w e HP. split.
  - intros HK. destruct (run_tool_does shell w e HK) as (w' & ev & b & o & E & D & B). exists w', ev, b, o. split; [exact E|]. split; [exact D|].
    rewrite B. now apply status_passed.
  - intros NK. unfold run_tool_from_dct. cbv zeta. destruct (String.eqb_spec (text_of (e_tool e)) "mypy") as [T|T]; [|contradiction NK; intros X; contradiction].
    destruct (e_dmypy e) as [[[[|]|] [t|]]|] eqn:ED; try (contradiction NK; intros _ t'; congruence). reflexivity.
Qed.
Print Assumptions C86_commands_partial.
Definition daemon_entry (extra : option string) : entry := Entry (Some "mypy") extra (Some "src") None None None None None (Some (Daemon (Some true) (Some 60))).
Example C86_commands_example :
  daemon_known (daemon_entry None) /\
  exists ev, run_tool_from_dct (fun (w : unit) c => (w, if contains "status" c then Outcome 2 "" "" else Outcome 0 "Success" "")) tt (daemon_entry None) = Val (tt, ev, true) /\
    commands ev = ["python3 -m poetry run dmypy status "; "python3 -m poetry run dmypy run --timeout 60 -- src"].
Proof. split; [intros _ t; discriminate|]. eexists. split; vm_compute; reflexivity. Qed.
Theorem C86_arguments_refuted : exists extra, extra <> "" /\
  forall W (shell : W -> string -> W * outcome) w w' cs o c, Does shell w (daemon_entry (Some extra)) w' cs o -> In c cs -> ~ occurs extra c.
Proof.
  exists "--strict". split; [discriminate|]. intros W shell w w' cs o c D I H. apply occurs_contains in H.
  inversion D as [? ? E | ? ? ? ? ? E | ? ? ? ? ? start E ? ? ES]; subst; [discriminate E | |].
  - destruct I as [<- | [<- | []]]; vm_compute in H; discriminate.
  - injection E as <-. destruct I as [<- | [<- | []]]; vm_compute in H; discriminate.
Qed.
Print Assumptions C86_arguments_refuted.
