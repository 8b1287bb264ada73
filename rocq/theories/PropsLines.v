(** Files of any kind and outputs of any kind for C76 and C77. *)
From Coq Require Import Ascii String List Bool Arith Lia.
From Verif Require Import PyStr PyStrFacts Exc Live SpecLive LiveText YamlLoad Frame Mypy SpecNames NamesFacts SpecImports ImportsFacts SpecFrame SpecMypy SpecLines PropsMypy.
Import ListNotations.
Local Open Scope string_scope.
Local Open Scope nat_scope.

Lemma ends_line_iff c : is_linebreak c = true <-> ends_line c.
Proof.
  assert (A : Bool.eqb (is_linebreak c) (existsb (Nat.eqb (code c)) [10; 11; 12; 13; 28; 29; 30; 133]) = true) by (revert c; apply all_chars_spec; vm_compute; reflexivity).
  apply Bool.eqb_prop in A. rewrite A, existsb_exists. unfold ends_line. split.
  - intros (n & H & E). apply Nat.eqb_eq in E. now subst.
  - intros H. exists (code c). split; auto. apply Nat.eqb_refl.
Qed.
Lemma one_line_text_iff s : one_line_text s <-> one_line s = true.
Proof.
  split; [apply one_line_iff|]. unfold one_line_text, one_line. induction s as [|c s IH]; intros H; [constructor|]. cbn [str_forall] in H. apply andb_true_iff in H as [H1 H2]. constructor; [|auto].
  intros X. apply ends_line_iff in X. rewrite X in H1. discriminate.
Qed.
Lemma one_line_snoc acc c : one_line_text acc -> is_linebreak c = false -> one_line_text (acc ++ String c "").
Proof. intros H E. apply one_line_text_iff. apply one_line_text_iff in H. unfold one_line in *. rewrite str_forall_app, H. cbn. now rewrite E. Qed.
Lemma lines_of_aux n : forall s acc, String.length s <= n -> one_line_text acc -> Lines (acc ++ s) (splitlines_aux s acc).
Proof.
  induction n as [|n IH]; intros s acc L O; (destruct s as [|c s]; [rewrite app_nil_r_s; cbn; destruct acc; [apply lines_none|apply lines_last; [discriminate|auto]]|]); cbn [String.length] in L; [lia|].
  cbn [splitlines_aux]. destruct (is_linebreak c) eqn:E.
  - assert (B : ends_line c) by now apply ends_line_iff. destruct s as [|d s].
    + apply (lines_more acc c "" []); auto; [discriminate|apply lines_none].
    + destruct (Nat.eqb (ord c) 13 && Nat.eqb (ord d) 10) eqn:X.
      * apply andb_true_iff in X as [X Y]. apply Nat.eqb_eq in X, Y. assert (c = ascii_of_nat 13) by (rewrite <- X; symmetry; apply ascii_nat_embedding). assert (d = ascii_of_nat 10) by (rewrite <- Y; symmetry; apply ascii_nat_embedding).
        subst c d. apply lines_both; auto. apply (IH s ""); [cbn in L; lia|constructor].
      * apply lines_more; auto; [|apply (IH (String d s) ""); [lia|constructor]]. intros C r Z. injection Z as -> ->. unfold code in C. unfold ord in X. rewrite C in X. discriminate.
  - replace (acc ++ String c s) with ((acc ++ String c "") ++ s) by now rewrite app_assoc_s. apply IH; [lia|]. now apply one_line_snoc.
Qed.
(** The lines that Python makes of a text are its lines. *)
Lemma lines_of s : Lines s (splitlines s).
Proof. apply (lines_of_aux (String.length s) s ""); [auto|constructor]. Qed.
Lemma splitlines_go s : forall acc rest, one_line_text s -> splitlines_aux (s ++ rest) acc = splitlines_aux rest (acc ++ s).
Proof. intros acc rest H. apply splitlines_aux_line. now apply one_line_text_iff. Qed.
Lemma Lines_splitlines s ls : Lines s ls -> ls = splitlines s.
Proof.
  unfold splitlines. induction 1 as [|l N O|l c s ls O E D H IH|l s ls O H IH]; auto.
  - rewrite <- (app_nil_r_s l) at 2. rewrite splitlines_go by auto. cbn. destruct l; [congruence|reflexivity].
  - rewrite splitlines_go by auto. cbn [splitlines_aux append]. apply ends_line_iff in E. rewrite E. destruct s as [|d s]; [now rewrite IH|].
    destruct (Nat.eqb (ord c) 13 && Nat.eqb (ord d) 10) eqn:X; [|now rewrite IH]. apply andb_true_iff in X as [X Y]. apply Nat.eqb_eq in X, Y. exfalso. apply (D X s). f_equal. rewrite <- Y. symmetry. apply ascii_nat_embedding.
  - rewrite splitlines_go by auto. cbn [append splitlines_aux]. change (is_linebreak (ascii_of_nat 13)) with true. cbv iota. change (Nat.eqb (ord (ascii_of_nat 13)) 13 && Nat.eqb (ord (ascii_of_nat 10)) 10) with true. cbv iota. now rewrite IH.
Qed.

(** *** C76 for every run *)
(** The command, and the arguments of the process: on POSIX one argument, on Windows its parts between blanks. *)
Definition the_command (strict : bool) (version file : string) : string := (if strict then "mypy --strict --python-version " else "mypy --python-version ") ++ version ++ " " ++ file.
Inductive Arguments (command : string) : platform -> list string -> Prop :=
  | arguments_posix : Arguments command Posix [command]
  | arguments_windows : forall parts args, parts <> [] -> Joined " " parts command -> Forall (fun x => ~ occurs " " x) parts -> kept (fun x => x = "") parts args -> Arguments command Windows args.
(** What a scan says about an outcome of mypy. *)
Inductive Scanned (name : string) (ignore : list string) : option outcome -> exc result -> Prop :=
  | scanned_none : Scanned name ignore None (Raise FileNotFound)
  | scanned_stderr : forall o, o_stderr o <> "" -> Scanned name ignore (Some o) (Raise ValueError)
  | scanned_lines : forall o lines errors ok, o_stderr o = "" -> Lines (o_stdout o) lines ->
      kept (fun l => ~ occurs "error: " l \/ ~ occurs name l \/ (ignore <> [] /\ forall k, In k ignore -> occurs k l)) lines errors ->
      (ok = true <-> errors = []) -> Scanned name ignore (Some o) (Val (Result ok errors)).
Lemma command_text strict version f : file_command strict version f = the_command strict version (p_dir f ++ p_name f).
Proof. unfold file_command, the_command. destruct strict; cbn [app join append]; rewrite ?app_assoc_s; reflexivity. Qed.
Lemma no_blank_iff x : ~ occurs " " x <-> no_char (chr 32) x.
Proof.
  unfold no_char. split.
  - intros H. induction x as [|c x IH]; [reflexivity|]. cbn [str_forall]. rewrite IH by (intros (a & b & ->); apply H; now exists (String c a), b). rewrite andb_true_r. apply negb_true_iff, Ascii.eqb_neq. intros <-. apply H. now exists "", x.
  - intros H (a & b & ->). rewrite !str_forall_app in H. apply andb_true_iff in H as [_ H]. apply andb_true_iff in H as [H _]. discriminate.
Qed.
Lemma arguments_of p command : Arguments command p (process_arguments p command).
Proof.
  destruct p; [apply arguments_posix|]. apply (arguments_windows command (split_char (chr 32) command)); [apply split_char_nonnil| | |].
  - pose proof (Joined_join " " (split_char (chr 32) command)) as J. change " " with (String (chr 32) "") in J at 2. now rewrite (join_split (chr 32)) in J.
  - eapply Forall_impl; [|apply split_char_no]. intros x. apply no_blank_iff.
  - cbn [process_arguments]. apply kept_filter. intros x _. destruct (String.eqb_spec x ""); cbn; intuition congruence.
Qed.
Lemma scanned_of name ignore o : Scanned name ignore o (match o with None => Raise FileNotFound | Some o => if negb (String.eqb (o_stderr o) "") then Raise ValueError
  else let lines := filter (contains "error: ") (splitlines (o_stdout o)) in let errors := filter (contains name) (filter (kept_line ignore) lines) in Val (Result (match errors with [] => true | _ => false end) errors) end).
Proof.
  destruct o as [o|]; [|apply scanned_none]. destruct (String.eqb_spec (o_stderr o) "") as [E|E]; cbn [negb]; [|now apply scanned_stderr]. cbv zeta.
  apply (scanned_lines _ _ _ (splitlines (o_stdout o))); auto using lines_of; [|destruct (filter _ _); split; congruence]. rewrite !kept_twice. apply kept_filter. intros x _.
  assert (K : kept_line ignore x = false <-> ignore <> [] /\ forall k, In k ignore -> occurs k x).
  { unfold kept_line. destruct ignore as [|k ks]; [split; [discriminate|intros [N _]; congruence]|]. rewrite negb_false_iff, forallb_forall. split.
    - intros X. split; [discriminate|]. intros y Hy. apply occurs_iff. auto.
    - intros [_ X] y Hy. apply occurs_iff. auto. }
  rewrite !occurs_iff, <- K. destruct (contains "error: " x), (contains name x), (kept_line ignore x); cbn [andb]; intuition congruence.
Qed.
Theorem C76_all_runs : forall p w f strict version ignore, exists args,
  Arguments (the_command strict version (p_dir f ++ p_name f)) p args /\ Scanned (p_name f) ignore (w args) (scan_file p w f strict version ignore).
Proof.
  intros p w f strict version ignore. exists (process_arguments p (file_command strict version f)). split; [rewrite <- command_text; apply arguments_of|]. apply scanned_of.
Qed.
Print Assumptions C76_all_runs.
Lemma kept_one {A} (P : A -> Prop) l a : kept P l a -> forall b, kept P l b -> a = b.
Proof. induction 1; intros b B; inversion B; subst; auto; try contradiction. f_equal. auto. Qed.
Theorem C76_determined : (forall command p a b, Arguments command p a -> Arguments command p b -> a = b) /\
  (forall name ignore o a b, Scanned name ignore o a -> Scanned name ignore o b -> a = b).
Proof.
  split.
  - intros command p a b A B. inversion A as [|ps args N J F K]; subst; inversion B as [|ps' args' N' J' F' K']; subst; auto.
    assert (X : forall l, l <> [] -> Joined " " l command -> Forall (fun x => ~ occurs " " x) l -> split_char (chr 32) command = l).
    { clear. intros l N J F. assert (E : command = join (String (chr 32) "") l) by (clear F N; induction J; auto; rewrite join_cons by discriminate; now rewrite <- IHJ). rewrite E. apply split_join; auto. eapply Forall_impl; [|exact F]. intros x. apply no_blank_iff. }
    assert (ps = ps') by (rewrite <- (X ps), <- (X ps'); auto). subst ps'. eapply kept_one; eauto.
  - intros name ignore o a b A B. inversion A; subst; inversion B; subst; auto; try congruence.
    match goal with X : Lines _ _, Y : Lines _ _ |- _ => apply Lines_splitlines in X, Y; subst end.
    match goal with X : kept _ _ ?e, Y : kept _ _ ?k |- _ => assert (e = k) by (eapply kept_one; eauto); subst end. do 2 f_equal.
    match goal with |- ?x = ?y => destruct x, y; auto end; intuition congruence.
Qed.
Print Assumptions C76_determined.
Example C76_all_example : scan_file Windows (fun args => if list_eq_dec string_dec args ["mypy"; "--python-version"; "3.8"; "my"; "file.py"] then Some (Outcome ("my file.py:1: error: bad" ++ String (ascii_of_nat 13) (String (ascii_of_nat 10) "rest")) "") else None)
    (FilePath "" "my file.py") false "3.8" [] = Val (Result false ["my file.py:1: error: bad"]).
Proof. vm_compute. reflexivity. Qed.

(** *** C77 for every file *)
Theorem C77_all_files : forall name text lines, Lines text lines ->
  exists shown, file_content_with_lineno (ScannedFile name text) = Val (join nl shown) /\ List.length shown = List.length lines /\
    forall k line, nth_error lines k = Some line -> nth_error shown k = Some (str_of_nat k ++ " " ++ line).
Proof.
  intros name text lines H. apply Lines_splitlines in H. subst. cbn [file_content_with_lineno]. exists (numbered 0 (splitlines text)). split; [reflexivity|]. split; [apply numbered_length|].
  intros k line E. rewrite numbered_nth, E. reflexivity.
Qed.
Print Assumptions C77_all_files.
Example C77_all_example : Lines ("a" ++ String (ascii_of_nat 13) (String (ascii_of_nat 12) "b")) ["a"; ""; "b"].
Proof.
  apply (lines_more "a" (ascii_of_nat 13) (String (ascii_of_nat 12) "b") [""; "b"]).
  - repeat constructor. vm_compute. intuition discriminate.
  - vm_compute. tauto.
  - intros _ r E. discriminate.
  - apply (lines_more "" (ascii_of_nat 12) "b" ["b"]); [constructor|vm_compute; tauto|discriminate|]. apply lines_last; [discriminate|]. repeat constructor. vm_compute. intuition discriminate.
Qed.
