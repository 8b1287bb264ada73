(** Model of check_code.py: the script that runs the code quality tools.
    The machine is a parameter: a type of states and what a shell command does to it.  What happens is a list of events.
    Simplifications: the entries of the configuration have the documented keys with values of the documented types; the output of a
    tool is a text of code points 0-255 (no decoding errors); the colours are their ANSI codes; the process "cls" changes nothing. *)
From Coq Require Import Ascii String List Bool Arith ZArith.
From Verif Require Import PyStr Exc.
Import ListNotations.
Local Open Scope string_scope.
Local Open Scope nat_scope.

Definition KeyError : py_error := OtherError 1.
Definition FileNotFoundError : py_error := OtherError 2.

(** Colours of colorama. *)
Definition escape : string := String (chr 27) "[".
Definition GREEN : string := escape ++ "92m".
Definition RED : string := escape ++ "91m".
Definition YELLOW : string := escape ++ "93m".
Definition RESET : string := escape ++ "0m".
(** check_code.py:25-28 *)
Definition ERR_MSG : string := nl ++ RED ++ "ERRORS WERE FOUND." ++ RESET.
Definition OK_MSG : string := nl ++ GREEN ++ "EVERYTHING IS OK." ++ RESET.

(** A text or a list of texts; iterating over a text gives its characters. *)
Inductive texts : Type := OneText (s : string) | Texts (l : list string).
Fixpoint letters (s : string) : list string := match s with EmptyString => [] | String c r => String c "" :: letters r end.
Definition items (t : texts) : list string := match t with OneText s => letters s | Texts l => l end.
Definition truthy (t : texts) : bool := match t with OneText s => negb (String.eqb s "") | Texts l => match l with [] => false | _ => true end end.
(** [x in t] *)
Definition within (x : string) (t : texts) : bool := match t with OneText s => contains x s | Texts l => mem x l end.

(** An entry of check_code_args.yaml; [None]: the key is missing. *)
Record daemon : Type := Daemon { d_enable : option bool; d_timeout : option nat }.
Record entry : Type := Entry {
  e_tool : option string; e_extra_args : option string; e_path : option string; e_tool_desc : option string;
  e_suggestions : option texts; e_ignore : option texts; e_only_include : option texts; e_pass : option texts;
  e_dmypy : option daemon }.
Definition text_of (o : option string) : string := match o with Some s => s | None => "" end.
Definition texts_of (o : option texts) : texts := match o with Some t => t | None => OneText "" end.

(** What a process leaves: return code, stdout, stderr. *)
Record outcome : Type := Outcome { o_code : Z; o_out : string; o_err : string }.
Inductive event : Type := Command (c : string) | Print (t : string).

(** check_code.py:134-177 [print_output] *)
Definition print_output (command : string) (status : bool) (tool_desc : string) (suggestions : texts) (err_str cli_command : string) : list event :=
  let description := if String.eqb tool_desc "" then "" else " - " ++ tool_desc in
  if status then [Print ("[" ++ GREEN ++ "OK" ++ RESET ++ "] " ++ command ++ description)]
  else
    let err_str := join nl (map (fun line => "     " ++ line) (splitlines err_str)) in
    ([Print ("[" ++ RED ++ "NOK" ++ RESET ++ "] " ++ command ++ description)] ++
     (if String.eqb cli_command "" then [] else [Print (" - Command used: " ++ YELLOW ++ cli_command ++ RESET)]) ++
     (if truthy suggestions then
        match suggestions with
        | OneText s => [Print (" - " ++ YELLOW ++ s ++ RESET)]
        | Texts l => map (fun s => Print (" - " ++ YELLOW ++ s ++ RESET)) l
        end
      else []) ++
     [Print (" - Output from the tool: " ++ nl ++ err_str ++ nl)])%list.

(** check_code.py:215 *)
Definition full_command (tool extra_args path : string) : string := "python3 -m poetry run " ++ tool ++ " " ++ extra_args ++ " " ++ path.

(** check_code.py:228-234 *)
Definition tool_status (pass : texts) (o : outcome) : bool :=
  let status := Z.eqb (o_code o) 0 && negb (contains "ERROR" (o_out o)) in
  if truthy pass then status || existsb (fun sub => contains sub (o_out o)) (items pass) else status.

(** check_code.py:236-247 *)
Definition shown_lines (status : bool) (ignore : texts) (only_include : option texts) (o : outcome) : list string :=
  let err_str := if negb status && negb (String.eqb (o_out o) "") && String.eqb (o_err o) "" then o_out o else o_err o in
  let err_lines := splitlines err_str in
  let filtered := filter (fun line => negb (existsb (fun i => contains i line) (items ignore))) err_lines in
  match only_include with
  | None => filtered
  | Some only => if truthy only then filter (fun line => existsb (fun i => contains i line) (items only)) err_lines else filtered
  end.

(** check_code.py:53-100 [Arguments]; [None]: the option is missing. *)
Inductive auto : Type := AutoNone | AutoTrue | AutoText (s : string).
Record flags : Type := Flags {
  f_auto_linting : option string; f_disable_parallel : bool; f_only_run_tools : list string; f_single_tool : string; f_cls : bool }.
Record arguments : Type := Arguments {
  a_auto_linting : auto; a_disable_parallel : bool; a_only_run_tools : list string; a_single_tool : string; a_cls : bool }.
(** check_code.py:68-70, 78-131 [parser_args], [from_argparse] and [__post_init__].  [f_disable_parallel]: "--disable-parallel" is on the
    command line; its default is [True] too (lines 111-115). *)
Definition parse_args (f : flags) : exc arguments :=
  andthen (match f_auto_linting f with
           | None => Val AutoNone
           | Some s => if String.eqb s "" then Val (AutoText s)
                       else if contains "enable" (lower s) then Val AutoTrue
                       else if contains "disable" (lower s) then Val (AutoText s)
                       else Raise ValueError
           end) (fun a =>
    if negb (String.eqb (f_single_tool f) "") && match f_only_run_tools f with [] => false | _ => true end then Raise ValueError
    else Val (Arguments a (if f_disable_parallel f then true else true) (f_only_run_tools f) (f_single_tool f) (f_cls f))).
(** check_code.py:72-76 *)
Definition tools (a : arguments) : texts := if String.eqb (a_single_tool a) "" then Texts (a_only_run_tools a) else OneText (a_single_tool a).

(** check_code.py:327-355 [read_and_parse_args]; the value of the YAML file is a list of entries or something else. *)
Inductive configuration : Type := Entries (l : list entry) | NoList.
Definition with_path (p : string) (e : entry) : entry :=
  Entry (e_tool e) (e_extra_args e) (Some p) (e_tool_desc e) (e_suggestions e) (e_ignore e) (e_only_include e) (e_pass e) (e_dmypy e).
Definition read_and_parse_args (dir : string) (c : configuration) : exc (list entry) :=
  match c with
  | NoList => Raise ValueError
  | Entries l =>
      if existsb (fun e => match e_tool e with None => true | Some _ => false end) l then Raise ValueError
      else Val (map (fun e => match e_path e with Some "." => with_path dir e | _ => e end) l)
  end.

(** check_code.py:358-385 [filter_tools_to_be_used] *)
Definition filter_tools (l : list entry) (only : texts) : exc (list entry) :=
  if negb (truthy only) then Val l
  else
    let only := match only with OneText s => OneText (lower s) | Texts t => Texts t end in
    if within "all linters" only then Val (filter (fun e => negb (String.eqb (text_of (e_tool e)) "pytest")) l)
    else match filter (fun e => within (text_of (e_tool e)) only) l with
         | [] => Raise ValueError
         | chosen => Val chosen
         end.

(** check_code.py:35-50 *)
Definition hook_text (cwd file : string) : string :=
  join nl ["#!/bin/sh"; ""; "echo " ++ dq; dq;
           "echo " ++ dq ++ "---------------RUNNING AUTOMATED LINTING--------------------------" ++ dq;
           "cd " ++ dq ++ cwd ++ dq;
           "python3 -m poetry run python " ++ dq ++ file ++ dq ++ " --single-tool 'all linters'";
           "if [ $? -eq 0 ]; then";
           "  echo 'Everything is OK! Code will be pushed.'";
           "  echo " ++ dq ++ "-----------------------------------------------------------------"; dq;
           "  exit 0";
           "else";
           "  echo 'Errors found. Fix them, commit (or amend) the changes and try again.'";
           "  echo " ++ dq ++ "-----------------------------------------------------------------"; dq;
           "  exit 1";
           "fi"; ""].

(** The git hooks: [None] if there is no directory .git/hooks, otherwise the content of the file "pre-push" if there is one. *)
Definition hooks : Type := option (option string).
(** check_code.py:301-309 [_disable_auto_run] *)
Definition disable_auto_run (h : hooks) : hooks * list event :=
  (match h with Some (Some _) => Some None | _ => h end,
   [Print (GREEN ++ "Auto run removed!" ++ RESET ++ " No code verification will be done before pushin to online repo.")]).
(** check_code.py:312-324 [_setup_auto_run] *)
Definition setup_auto_run (dir file : string) (h : hooks) : exc (hooks * list event) :=
  match h with
  | Some (Some _) => Val (h, [Print "An automatic auto-run of this script is already set up."])
  | Some None => Val (Some (Some (hook_text dir file)),
      [Print (GREEN ++ "Auto run enabled!" ++ RESET ++ " Whenever you push to the online repo, code will be first checked.")])
  | None => Raise FileNotFoundError
  end.

(** How the script ends. *)
Inductive ending : Type := Returns | Exits (code : nat) | Fails (e : py_error).

Section Machine.
  Context {W : Type}.
  Variable shell : W -> string -> W * outcome.
  Variables dir file : string.       (* THIS_DIR, THIS_FILE *)
  Variable config : configuration.   (* content of check_code_args.yaml *)

  (** check_code.py:180-258 [run_tool] *)
  Definition run_tool (w : W) (tool extra_args path tool_desc : string) (suggestions ignore : texts) (only_include : option texts)
    (pass : texts) (display_output : bool) : W * list event * bool :=
    let command := full_command tool extra_args path in
    let (w', o) := shell w command in
    let status := tool_status pass o in
    let err_str := join nl (shown_lines status ignore only_include o) in
    (w', Command command :: (if display_output then print_output tool status tool_desc suggestions err_str command else []), status).

  (** [run_tool] with the arguments of an entry. *)
  Definition run_entry (w : W) (tool extra_args : string) (e : entry) : W * list event * bool :=
    run_tool w tool extra_args (text_of (e_path e)) (text_of (e_tool_desc e)) (texts_of (e_suggestions e)) (texts_of (e_ignore e))
      (e_only_include e) (texts_of (e_pass e)) true.

  (** check_code.py:261-283 [setup_dmypy_server] for an entry of mypy with a daemon: [None] if the entry is returned as it is,
      otherwise the new extra arguments. *)
  Definition setup_dmypy (w : W) (d : daemon) : exc (W * list event * option string) :=
    match d_enable d with
    | None => Raise KeyError
    | Some false => Val (w, [], None)
    | Some true =>
        let '(w', ev, active) := run_tool w "dmypy" "status" "" "" (OneText "") (OneText "") None (OneText "") false in
        Val (w', ev, Some (if active then "check"
                           else match d_timeout d with
                                | Some (S n) => "run --timeout " ++ str_of_nat (S n) ++ " --"
                                | _ => "run --"
                                end))
    end.

  (** check_code.py:286-298 [run_tool_from_dct]; an empty mapping under "dmypy" counts as none. *)
  Definition run_tool_from_dct (w : W) (e : entry) : exc (W * list event * bool) :=
    let plain := Val (run_entry w (text_of (e_tool e)) (text_of (e_extra_args e)) e) in
    if String.eqb (text_of (e_tool e)) "mypy" then
      match e_dmypy e with
      | None | Some (Daemon None None) => plain
      | Some d => andthen (setup_dmypy w d) (fun s =>
          let '(w', ev, extra) := s in
          match extra with
          | None => Val (run_entry w' (text_of (e_tool e)) (text_of (e_extra_args e)) e)
          | Some extra => let '(w'', ev', b) := run_entry w' "dmypy" extra e in Val (w'', (ev ++ ev')%list, b)
          end)
      end
    else plain.

  (** check_code.py:404-406: the tools one after the other; what had happened before an exception is kept. *)
  Fixpoint run_all (w : W) (l : list entry) : W * list event * exc (list bool) :=
    match l with
    | [] => (w, [], Val [])
    | e :: r =>
        match run_tool_from_dct w e with
        | Val (w', ev, b) => let '(w'', ev', bs) := run_all w' r in (w'', (ev ++ ev')%list, andthen bs (fun bs => Val (b :: bs)))
        | Raise x => (w, [], Raise x)
        | NoFuel => (w, [], NoFuel)
        end
    end.

  (** check_code.py:388-420 [main].  The branch with threads (408-414) needs [disable_parallel] to be false, which [parse_args]
      never gives; it is not modelled ([Fails] with an error of its own). *)
  Definition unmodelled : py_error := OtherError 99.
  Definition main (w : W) (h : hooks) (f : flags) : W * hooks * list event * ending :=
    match parse_args f with
    | Raise x => (w, h, [], Fails x)
    | NoFuel => (w, h, [], Fails unmodelled)
    | Val a =>
        match a_auto_linting a with
        | AutoTrue => match setup_auto_run dir file h with
                      | Val (h', ev) => (w, h', ev, Returns)
                      | Raise x => (w, h, [], Fails x)
                      | NoFuel => (w, h, [], Fails unmodelled)
                      end
        | AutoText _ => let (h', ev) := disable_auto_run h in (w, h', ev, Returns)
        | AutoNone =>
            match andthen (read_and_parse_args dir config) (fun l => filter_tools l (tools a)) with
            | Raise x => (w, h, [], Fails x)
            | NoFuel => (w, h, [], Fails unmodelled)
            | Val l =>
                let cls := if a_cls a then [Command "cls"] else [] in
                if a_disable_parallel a || Nat.leb (List.length l) 1 then
                  let '(w', ev, results) := run_all w l in
                  match results with
                  | Val bs => if existsb negb bs then (w', h, (cls ++ ev ++ [Print ERR_MSG])%list, Exits 1)
                              else (w', h, (cls ++ ev ++ [Print OK_MSG])%list, Exits 0)
                  | Raise x => (w', h, (cls ++ ev)%list, Fails x)
                  | NoFuel => (w', h, (cls ++ ev)%list, Fails unmodelled)
                  end
                else (w, h, cls, Fails unmodelled)
            end
        end
    end.
End Machine.
