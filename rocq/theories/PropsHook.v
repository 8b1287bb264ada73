(** C81 and C84: the verdict that is printed, and what the pre-push hook does. *)
From Coq Require Import Ascii String List Bool Arith ZArith Lia.
From Verif Require Import PyStr PyStrFacts Exc CheckCode SpecNames SpecImports ImportsFacts SpecText SpecMypy SpecCheck SpecShell PropsCheck.
Import ListNotations.
Local Open Scope string_scope.
Local Open Scope nat_scope.

(** The last thing printed is the verdict, and it fits the status. *)
Theorem C81_verdict : forall W (shell : W -> string -> W * outcome) dir file c w h f w' h' ev n,
  main shell dir file c w h f = (w', h', ev, Exits n) ->
  exists ev', ev = (ev' ++ [Print (line_feed ++ (if Nat.eqb n 0 then green "EVERYTHING IS OK." else red "ERRORS WERE FOUND."))])%list /\ n <= 1.
Proof.
  intros W shell dir file c w h f w' h' ev n. unfold main.
  destruct (parse_args f) as [a|x|]; [|discriminate..].
  destruct (a_auto_linting a) as [| |s]; [|destruct (setup_auto_run dir file h) as [[h1 ev1]|x|]; discriminate|destruct (disable_auto_run h); discriminate].
  destruct (andthen _ _) as [l|x|]; [|discriminate..]. cbv zeta. destruct (_ || _); [|discriminate]. destruct (run_all shell w l) as [[w1 ev1] results].
  destruct results as [bs|x|]; [|discriminate..]. destruct (existsb negb bs); intros H; injection H as <- <- <- <-; eexists; rewrite app_assoc; (split; [reflexivity|lia]).
Qed.
Print Assumptions C81_verdict.

Definition hook_lines (dir file : string) : list string :=
  ["#!/bin/sh"; ""; "echo " ++ dq; dq; "echo " ++ dq ++ "---------------RUNNING AUTOMATED LINTING--------------------------" ++ dq; "cd " ++ dq ++ dir ++ dq;
   "python3 -m poetry run python " ++ dq ++ file ++ dq ++ " --single-tool 'all linters'"; "if [ $? -eq 0 ]; then"; "  echo 'Everything is OK! Code will be pushed.'";
   "  echo " ++ dq ++ "-----------------------------------------------------------------"; dq; "  exit 0"; "else"; "  echo 'Errors found. Fix them, commit (or amend) the changes and try again.'";
   "  echo " ++ dq ++ "-----------------------------------------------------------------"; dq; "  exit 1"; "fi"; ""].
Definition hook_call (file : string) : list string := ["python3"; "-m"; "poetry"; "run"; "python"; file; "--single-tool"; "all linters"].
Definition hook_actions (dir file : string) : list action :=
  [Nothing; Nothing; Says; Says; Chdir dir; Call (hook_call file); IfSuccess; Says; Says; Leave 0; Else; Says; Says; Leave 1; EndIf; Nothing].
Ltac all_chars := cbn [chars]; repeat constructor; vm_compute; try (intuition discriminate); try (intuition congruence).
Ltac bare := apply token_bare; [discriminate|cbn [chars]; repeat (apply Forall_cons; [unfold bare_char; vm_compute; lia|]); apply Forall_nil].
Lemma two_blanks : blank "  ".
Proof. apply DocstringFacts.blank_spec. reflexivity. Qed.
Lemma hook_script dir file : safe dir -> safe file -> Script (hook_lines dir file) (hook_actions dir file).
Proof.
  intros D F. unfold hook_lines, hook_actions.
  assert (S0 : forall t, blank t -> blank t) by auto. assert (B0 : blank "") by constructor.
  apply (script_comment "!/bin/sh"). apply script_empty. apply (script_echo_two "" ""); [exact B0|constructor|].
  apply (script_echo "" _ "---------------RUNNING AUTOMATED LINTING--------------------------"); [exact B0|apply (token_double "---------------RUNNING AUTOMATED LINTING--------------------------"); all_chars|].
  apply script_cd; [apply (token_double dir D)|].
  apply (script_call ["python3"; "-m"; "poetry"; "run"; "python"; dq ++ file ++ dq; "--single-tool"; "'all linters'"]).
  - repeat (apply Forall2_cons; [first [bare | apply (token_double file F) | idtac]|]); [|apply Forall2_nil].
    apply (token_single "all linters"). all_chars.
  - cbn. intuition discriminate.
  - match goal with |- Joined _ ?l ?x => replace x with (join " " l); [apply Joined_join|] end. cbn [join]. rewrite !app_assoc_s. reflexivity.
  - apply script_if. apply (script_echo "  " _ "Everything is OK! Code will be pushed."); [exact two_blanks|apply (token_single "Everything is OK! Code will be pushed."); all_chars|].
    apply (script_echo_two "  " "-----------------------------------------------------------------"); [exact two_blanks|all_chars|].
    apply (script_exit "  " 0); [exact two_blanks|lia|]. apply script_else.
    apply (script_echo "  " _ "Errors found. Fix them, commit (or amend) the changes and try again."); [exact two_blanks|apply (token_single "Errors found. Fix them, commit (or amend) the changes and try again."); all_chars|].
    apply (script_echo_two "  " "-----------------------------------------------------------------"); [exact two_blanks|all_chars|].
    apply (script_exit "  " 1); [exact two_blanks|lia|]. apply script_fi. apply script_empty. apply script_end.
Qed.
(** Enabled without a hook, the new hook calls the script with all linters in its directory, once, and lets the push
    go on exactly if the script exits with 0. *)
Theorem C84_hook_blocks : forall W (shell : W -> string -> W * outcome) dir file c w f s w' h' ev en,
  f_auto_linting f = Some s -> s <> "" -> occurs "enable" (lower s) -> f_single_tool f = "" \/ f_only_run_tools f = [] -> safe dir -> safe file ->
  main shell dir file c w (Some None) f = (w', h', ev, en) ->
  exists text lines actions, h' = Some (Some text) /\ Joined line_feed lines text /\ Script lines actions /\
    forall answer cwd, exists code, executes answer cwd 0 false actions = ([(dir, hook_call file)], code) /\ (code = 0 <-> answer dir (hook_call file) = 0).
Proof.
  intros W shell dir file c w f s w' h' ev en E NE EN HB D F H. unfold main in H. rewrite (parse_enable f s E NE HB) in H. apply occurs_contains in EN. rewrite EN in H.
  cbn [a_auto_linting setup_auto_run] in H. injection H as <- <- <- <-. exists (hook_text dir file), (hook_lines dir file), (hook_actions dir file). split; [reflexivity|]. split; [apply Joined_join|]. split; [now apply hook_script|].
  intros answer cwd. cbn [hook_actions executes]. destruct (Nat.eqb_spec (answer dir (hook_call file)) 0) as [A|A]; cbn [negb]; eexists; (split; [reflexivity|]); split; intros; auto; lia.
Qed.
Print Assumptions C84_hook_blocks.
Example C84_hook_example : safe "/home/me/project" /\ safe "check_code.py" /\ Script (hook_lines "/home/me/project" "check_code.py") (hook_actions "/home/me/project" "check_code.py") /\
  executes (fun _ _ => 3) "/" 0 false (hook_actions "/home/me/project" "check_code.py") = ([("/home/me/project", hook_call "check_code.py")], 1).
Proof. assert (A : safe "/home/me/project") by (unfold safe; all_chars). assert (B : safe "check_code.py") by (unfold safe; all_chars). split; [exact A|]. split; [exact B|]. split; [now apply hook_script|reflexivity]. Qed.
Example C81_verdict_example : exists ev, main failing "/dir" "check_code.py" (Entries two_tools) tt None (Flags None false [] "" false) = (tt, None, (ev ++ [Print (line_feed ++ red "ERRORS WERE FOUND.")])%list, Exits 1).
Proof.
  destruct (main failing "/dir" "check_code.py" (Entries two_tools) tt None (Flags None false [] "" false)) as [[[[] h] ev] en] eqn:E.
  assert (X : h = None /\ en = Exits 1) by (vm_compute in E; injection E as <- _ <-; auto). destruct X as [-> ->]. destruct (C81_verdict _ _ _ _ _ _ _ _ _ _ _ _ E) as (ev' & -> & _). eauto.
Qed.
