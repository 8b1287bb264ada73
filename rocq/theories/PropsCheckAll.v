(** C81, C83, C86 for all configurations: a single text stands for its characters, and an entry without "enable" stops the script. *)
From Coq Require Import Ascii String List Bool Arith ZArith Lia.
From Verif Require Import PyStr PyStrFacts Exc SpecNames SpecLive LiveText SpecMypy CheckCode SpecCheck PropsCheck.
Import ListNotations.
Local Open Scope string_scope.
Local Open Scope nat_scope.

(** The same texts, one text replaced by the list of its characters. *)
Inductive spelled : option texts -> option texts -> Prop :=
  | spelled_none : spelled None None
  | spelled_list : forall l, spelled (Some (Texts l)) (Some (Texts l))
  | spelled_text : forall s, spelled (Some (OneText s)) (Some (Texts (map (fun c => String c "") (chars s)))).
Record Spelled (e e' : entry) : Prop := {
  sp_tool : e_tool e' = e_tool e; sp_extra : e_extra_args e' = e_extra_args e; sp_path : e_path e' = e_path e; sp_desc : e_tool_desc e' = e_tool_desc e;
  sp_suggestions : e_suggestions e' = e_suggestions e; sp_dmypy : e_dmypy e' = e_dmypy e;
  sp_pass : spelled (e_pass e) (e_pass e'); sp_ignore : spelled (e_ignore e) (e_ignore e'); sp_only : spelled (e_only_include e) (e_only_include e') }.
Definition plain_lists (e : entry) : Prop := as_list (e_pass e) /\ as_list (e_ignore e) /\ as_list (e_only_include e).

Lemma letters_chars s : letters s = map (fun c => String c "") (chars s).
Proof. induction s; cbn; congruence. Qed.
Lemma spelled_items t t' : spelled t t' -> items (texts_of t') = items (texts_of t) /\ truthy (texts_of t') = truthy (texts_of t) /\ as_list t'.
Proof. intros H. inversion H; subst; cbn; auto. rewrite letters_chars. split; auto. split; auto. now destruct s. Qed.
Lemma spelled_exists t : exists t', spelled t t'.
Proof. destruct t as [[s|l]|]; eexists; constructor. Qed.

Section Machine.
  Context {W : Type}.
  Variable shell : W -> string -> W * outcome.
  Lemma spelled_entry e e' w tool extra : Spelled e e' -> run_entry shell w tool extra e' = run_entry shell w tool extra e.
  Proof.
    intros [H1 H2 H3 H4 H5 H6 P I O]. unfold run_entry, run_tool. rewrite H3, H4, H5. destruct (shell w _) as [w' o].
    destruct (spelled_items _ _ P) as (P1 & P2 & _), (spelled_items _ _ I) as (I1 & I2 & _).
    assert (TS : tool_status (texts_of (e_pass e')) o = tool_status (texts_of (e_pass e)) o) by (unfold tool_status; now rewrite P1, P2).
    assert (SL : forall b, shown_lines b (texts_of (e_ignore e')) (e_only_include e') o = shown_lines b (texts_of (e_ignore e)) (e_only_include e) o).
    { intros b. unfold shown_lines. rewrite I1. destruct (spelled_items _ _ O) as (O1 & O2 & _). inversion O; subst; auto; cbn [texts_of] in *; rewrite <- ?H, <- ?H0 in *; cbn [texts_of] in *; rewrite O1, O2; reflexivity. }
    rewrite TS, SL. reflexivity.
  Qed.
  Lemma spelled_tool e e' w : Spelled e e' -> run_tool_from_dct shell w e' = run_tool_from_dct shell w e.
  Proof.
    intros H. unfold run_tool_from_dct. rewrite (sp_tool _ _ H), (sp_extra _ _ H), (sp_dmypy _ _ H). cbv zeta.
    destruct (String.eqb _ _); [|now rewrite (spelled_entry e e')]. destruct (e_dmypy e) as [[[?|] [?|]]|]; rewrite ?(spelled_entry e e') by auto; auto;
      destruct (setup_dmypy _ _ _) as [[[w' ev] [x|]]| |]; cbn [andthen]; rewrite ?(spelled_entry e e') by auto; reflexivity.
  Qed.
  Lemma spelled_all es es' : Forall2 Spelled es es' -> forall w, run_all shell w es' = run_all shell w es.
  Proof.
    induction 1 as [|e e' es es' H F IH]; intros w; auto. cbn [run_all]. rewrite (spelled_tool e e') by auto. destruct (run_tool_from_dct shell w e) as [[[w' ev] b]| |]; auto. now rewrite IH.
  Qed.
End Machine.

Lemma spelled_filter (p : entry -> bool) es es' : (forall e e', Spelled e e' -> p e' = p e) -> Forall2 Spelled es es' -> Forall2 Spelled (filter p es) (filter p es').
Proof. intros Hp. induction 1 as [|e e' es es' H F IH]; cbn [filter]; [constructor|]. rewrite (Hp e e' H). destruct (p e); auto. Qed.
Definition related (a b : exc (list entry)) : Prop :=
  match a, b with Val l, Val l' => Forall2 Spelled l l' | Raise x, Raise y => x = y | NoFuel, NoFuel => True | _, _ => False end.
Lemma spelled_read dir es es' : Forall2 Spelled es es' -> related (read_and_parse_args dir (Entries es)) (read_and_parse_args dir (Entries es')).
Proof.
  intros F. cbn [read_and_parse_args].
  assert (E : existsb (fun e => match e_tool e with None => true | Some _ => false end) es' = existsb (fun e => match e_tool e with None => true | Some _ => false end) es).
  { induction F as [|e e' es es' H F IH]; auto. cbn [existsb]. now rewrite IH, (sp_tool _ _ H). }
  rewrite E. destruct (existsb _ es); cbn [related]; auto. clear E. induction F as [|e e' es es' H F IH]; cbn [map]; constructor; auto.
  pose proof (absolute_map dir e) as A. pose proof (absolute_map dir e') as B. rewrite (sp_path _ _ H) in B |- *.
  destruct (e_path e) as [p|]; auto. destruct (String.eqb_spec p ".") as [->|N].
  - destruct H. constructor; auto.
  - assert (Q : forall (u : entry) v, match p with "." => u | _ => v end = v) by (intros u v; destruct p as [|a [|b p]]; auto; destruct a as [[|] [|] [|] [|] [|] [|] [|] [|]]; auto; congruence).
    now rewrite !Q.
Qed.
Lemma spelled_filtered es es' only : Forall2 Spelled es es' -> related (filter_tools es only) (filter_tools es' only).
Proof.
  intros F. unfold filter_tools. destruct (negb (truthy only)); [exact F|]. cbv zeta.
  destruct (within "all linters" _).
  - apply spelled_filter; auto. intros e e' H. now rewrite (sp_tool _ _ H).
  - set (o := match only with OneText s => OneText (lower s) | Texts t => Texts t end).
    pose proof (spelled_filter (fun e => within (text_of (e_tool e)) o) es es' (fun e e' H => f_equal (fun x => within (text_of x) o) (sp_tool _ _ H)) F) as G.
    destruct G; cbn [related]; auto.
Qed.

(** A single text under "pass_if_output_contains", "ignore" or "only_include" means the list of its characters: the script does exactly
    the same with that list, to which C81_exit_partial, C83_report_partial and C86_commands_partial apply. *)
Theorem C81_all_texts : forall W (shell : W -> string -> W * outcome) dir file es w h f,
  exists es', Forall2 Spelled es es' /\ Forall plain_lists es' /\
    main shell dir file (Entries es) w h f = main shell dir file (Entries es') w h f /\
    forall e e', Spelled e e' -> run_tool_from_dct shell w e = run_tool_from_dct shell w e'.
Proof.
  intros W shell dir file es w h f.
  assert (X : exists es', Forall2 Spelled es es').
  { induction es as [|e es (es' & IH)]; [exists []; constructor|]. destruct (spelled_exists (e_pass e)) as (p & P), (spelled_exists (e_ignore e)) as (i & I), (spelled_exists (e_only_include e)) as (o & O).
    exists (Entry (e_tool e) (e_extra_args e) (e_path e) (e_tool_desc e) (e_suggestions e) i o p (e_dmypy e) :: es'). constructor; auto. now constructor. }
  destruct X as (es' & F). exists es'. split; auto. split.
  { clear - F. induction F as [|e e' es es' H F IH]; constructor; auto. destruct H. unfold plain_lists. split; [now apply (spelled_items (e_pass e))|]. split; [now apply (spelled_items (e_ignore e))|now apply (spelled_items (e_only_include e))]. }
  split; [|intros e e' H; symmetry; now apply spelled_tool].
  unfold main. destruct (parse_args f) as [a| |]; auto. destruct (a_auto_linting a); auto.
  pose proof (spelled_read dir es es' F) as R. destruct (read_and_parse_args dir (Entries es)) as [l| |], (read_and_parse_args dir (Entries es')) as [l'| |]; cbn [related] in R; try contradiction; cbn [andthen]; subst; auto.
  pose proof (spelled_filtered l l' (tools a) R) as G. destruct (filter_tools l (tools a)) as [k| |], (filter_tools l' (tools a)) as [k'| |]; cbn [related] in G; try contradiction; subst; auto.
  assert (L : List.length k = List.length k') by (clear - G; induction G; cbn; auto). rewrite L, (spelled_all shell k k' G). reflexivity.
Qed.
Print Assumptions C81_all_texts.
Example C81_all_texts_example : Spelled (tool_entry "pytest" (Some (OneText "no"))) (tool_entry "pytest" (Some (Texts ["n"; "o"]))).
Proof. constructor; try reflexivity; cbn; try apply spelled_none. exact (spelled_text "no"). Qed.

(** An entry of mypy with a daemon neither enabled nor disabled: the tools before it have been run, then the script fails. *)
Theorem C81_unknown_daemon : forall W (shell : W -> string -> W * outcome) dir file c w h f a e b,
  f_auto_linting f = None -> Selected dir c f (a ++ e :: b)%list -> Forall daemon_known a -> ~ daemon_known e ->
  exists w' ev os, main shell dir file c w h f = (w', h, ((if f_cls f then [Command "cls"] else []) ++ ev)%list, Fails KeyError) /\
    Does_all shell w a w' (commands ev) os.
Proof.
  intros W shell dir file c w h f a e b HA HS HK NK. destruct (selected_val dir c f _ HA HS) as [EP EF].
  destruct (run_all_does shell a w HK) as (w' & ev & os & E & D & L).
  assert (RK : forall w, run_tool_from_dct shell w e = Raise KeyError).
  { intros w0. unfold run_tool_from_dct. cbv zeta. destruct (String.eqb_spec (text_of (e_tool e)) "mypy") as [T|T]; [|contradiction NK; intros X; contradiction].
    destruct (e_dmypy e) as [[[[|]|] [t|]]|] eqn:ED; try (contradiction NK; intros _ t'; congruence). reflexivity. }
  assert (RA : forall a w w' ev bs, run_all shell w a = (w', ev, Val bs) -> run_all shell w (a ++ e :: b) = (w', ev, Raise KeyError)).
  { clear - RK. induction a as [|x a IH]; intros w w' ev bs H; cbn [app run_all] in *; [injection H as -> <- <-; now rewrite RK|].
    destruct (run_tool_from_dct shell w x) as [[[w1 ev1] b1]| |]; try discriminate. destruct (run_all shell w1 a) as [[w2 ev2] r2] eqn:E2.
    destruct r2 as [bs2| |]; cbn [andthen] in H; try discriminate. injection H as -> <- <-. now rewrite (IH _ _ _ _ E2). }
  exists w', ev, os. split; [|exact D]. unfold main. rewrite EP. cbn [a_auto_linting a_cls a_disable_parallel]. rewrite EF. cbn [orb]. rewrite (RA _ _ _ _ _ E). reflexivity.
Qed.
Print Assumptions C81_unknown_daemon.
Example C81_unknown_example : exists l, Selected "/dir" (Entries l) no_flags l /\ exists a e, l = (a ++ [e])%list /\ a <> [] /\ Forall daemon_known a /\ ~ daemon_known e.
Proof.
  exists [tool_entry "black" None; Entry (Some "mypy") None None None None None None None (Some (Daemon None (Some 9)))]. split.
  - eexists _, _. split; [reflexivity|]. split; [repeat constructor; discriminate|]. split; [now repeat (constructor; [apply absolute_same; discriminate|])|]. split; [now left|now apply Chosen_all].
  - eexists [_], _. split; [reflexivity|]. split; [discriminate|]. split; [repeat constructor; intros E; discriminate E|]. intros H. now apply (H eq_refl 9).
Qed.

(** C84: an empty command removes whatever hook there is; without the directory of the hooks nothing can be enabled. *)
Theorem C84_all_commands : forall W (shell : W -> string -> W * outcome) dir file c w h f s, f_auto_linting f = Some s ->
  exists h' ev en, main shell dir file c w h f = (w, h', ev, en) /\ commands ev = [] /\
    (f_single_tool f <> "" -> f_only_run_tools f <> [] -> en = Fails ValueError /\ h' = h) /\
    (f_single_tool f = "" \/ f_only_run_tools f = [] -> s = "" -> en = Returns /\ h' = match h with Some _ => Some None | None => None end) /\
    (f_single_tool f = "" \/ f_only_run_tools f = [] -> h = None -> s <> "" -> occurs "enable" (lower s) -> en = Fails FileNotFoundError /\ h' = None) /\
    (f_single_tool f = "" \/ f_only_run_tools f = [] -> h = None -> s <> "" -> ~ occurs "enable" (lower s) -> occurs "disable" (lower s) -> en = Returns /\ h' = None) /\
    (s <> "" -> ~ occurs "enable" (lower s) -> ~ occurs "disable" (lower s) -> en = Fails ValueError /\ h' = h).
Proof.
  intros W shell dir file c w h f s E. unfold main, parse_args. rewrite E.
  set (both := negb (String.eqb (f_single_tool f) "") && match f_only_run_tools f with [] => false | _ => true end).
  assert (B1 : f_single_tool f <> "" -> f_only_run_tools f <> [] -> both = true).
  { intros A B. unfold both. rewrite (proj2 (String.eqb_neq _ _) A). cbn. destruct (f_only_run_tools f); [contradiction|reflexivity]. }
  assert (B2 : f_single_tool f = "" \/ f_only_run_tools f = [] -> both = false).
  { intros [A|A]; unfold both; rewrite A; auto. now rewrite andb_false_r. }
  destruct (String.eqb_spec s "") as [->|NS].
  - cbn [andthen]. destruct both.
    + eexists _, _, _. split; [reflexivity|]. split; [reflexivity|]. split; [auto|]. repeat split; intros; try (specialize (B2 H); discriminate); congruence.
    + eexists _, _, _. split; [reflexivity|]. split; [reflexivity|]. split; [intros A B; specialize (B1 A B); discriminate|]. split; [|repeat split; intros; congruence].
      intros _ _. split; auto. now destruct h as [[|]|].
  - destruct (contains "enable" (lower s)) eqn:C1; [apply occurs_contains in C1|apply occurs_not in C1].
    + cbn [andthen]. destruct both; cbn [a_auto_linting].
      * eexists _, _, _. split; [reflexivity|]. split; [reflexivity|]. split; [auto|]. repeat split; intros; try (specialize (B2 H); discriminate); try congruence; contradiction.
      * destruct h as [[text|]|]; cbn [setup_auto_run]; eexists _, _, _; (split; [reflexivity|]); (split; [reflexivity|]); (split; [intros A B; specialize (B1 A B); discriminate|]);
          repeat split; intros; congruence || contradiction.
    + destruct (contains "disable" (lower s)) eqn:C2; [apply occurs_contains in C2|apply occurs_not in C2]; cbn [andthen].
      * destruct both; cbn [a_auto_linting].
        -- eexists _, _, _. split; [reflexivity|]. split; [reflexivity|]. split; [auto|]. repeat split; intros; try (specialize (B2 H); discriminate); try congruence; contradiction.
        -- destruct h as [[text|]|]; cbn [disable_auto_run]; eexists _, _, _; (split; [reflexivity|]); (split; [reflexivity|]); (split; [intros A B; specialize (B1 A B); discriminate|]);
             repeat split; intros; congruence || contradiction.
      * eexists _, _, _. split; [reflexivity|]. split; [reflexivity|]. repeat split; intros; congruence || contradiction.
Qed.
Print Assumptions C84_all_commands.
Example C84_all_example : exists f, f_auto_linting f = Some "ENABLE" /\ f_single_tool f = "" /\ occurs "enable" (lower "ENABLE").
Proof. exists (Flags (Some "ENABLE") false [] "" false). split; [reflexivity|]. split; [reflexivity|]. now exists "", "". Qed.
