(** What running the code quality tools should mean, without reference to the model of the script. *)
From Coq Require Import Ascii String List ZArith.
From Verif Require Import PyStr SpecNames SpecMypy CheckCode.
Import ListNotations.
Local Open Scope string_scope.
Local Open Scope nat_scope.

(** The texts given under a key of the configuration: one or several. *)
Definition given (t : option texts) : list string :=
  match t with None | Some (OneText "") => [] | Some (OneText s) => [s] | Some (Texts l) => l end.
(** The key is missing, has a list or a single character. *)
Definition as_list (t : option texts) : Prop :=
  match t with Some (OneText s) => String.length s <= 1 | _ => True end.

(** A tool has passed. *)
Definition passed (pass : list string) (o : outcome) : Prop :=
  (o_code o = 0%Z /\ ~ occurs "ERROR" (o_out o)) \/ exists t, In t pass /\ occurs t (o_out o).

Definition tool_name (e : entry) : string := match e_tool e with Some t => t | None => "" end.
Definition key_text (k : option string) : string := match k with Some t => t | None => "" end.
Definition poetry (tool arguments path : string) : string := "python3 -m poetry run " ++ tool ++ " " ++ arguments ++ " " ++ path.

(** mypy runs with its daemon. *)
Definition with_daemon (e : entry) : option daemon :=
  match e_dmypy e with
  | Some (Daemon (Some true) t) => if string_dec (tool_name e) "mypy" then Some (Daemon (Some true) t) else None
  | _ => None
  end.
Definition daemon_known (e : entry) : Prop := tool_name e = "mypy" -> forall t, e_dmypy e <> Some (Daemon None (Some t)).

Section Machine.
  Context {W : Type}.
  Variable shell : W -> string -> W * outcome.

  (** [Does w e w' cs o]: the tool of [e] runs the commands [cs]; the last one has the outcome [o]. *)
  Inductive Does (w : W) (e : entry) : W -> list string -> outcome -> Prop :=
    | Does_plain : forall w' o,
        with_daemon e = None ->
        shell w (poetry (tool_name e) (key_text (e_extra_args e)) (key_text (e_path e))) = (w', o) ->
        Does w e w' [poetry (tool_name e) (key_text (e_extra_args e)) (key_text (e_path e))] o
    | Does_check : forall d w1 s w' o,
        with_daemon e = Some d -> shell w (poetry "dmypy" "status" "") = (w1, s) -> passed [] s ->
        shell w1 (poetry "dmypy" "check" (key_text (e_path e))) = (w', o) ->
        Does w e w' [poetry "dmypy" "status" ""; poetry "dmypy" "check" (key_text (e_path e))] o
    | Does_start : forall d w1 s w' o start,
        with_daemon e = Some d -> shell w (poetry "dmypy" "status" "") = (w1, s) -> ~ passed [] s ->
        start = match d_timeout d with
                | None | Some 0 => "run --"
                | Some n => "run --timeout " ++ str_of_nat n ++ " --"
                end ->
        shell w1 (poetry "dmypy" start (key_text (e_path e))) = (w', o) ->
        Does w e w' [poetry "dmypy" "status" ""; poetry "dmypy" start (key_text (e_path e))] o.

  (** All tools one after the other. *)
  Inductive Does_all : W -> list entry -> W -> list string -> list outcome -> Prop :=
    | Does_none : forall w, Does_all w [] w [] []
    | Does_more : forall w e l w1 w' cs cs' o os,
        Does w e w1 cs o -> Does_all w1 l w' cs' os -> Does_all w (e :: l) w' (cs ++ cs')%list (o :: os).
End Machine.

(** The commands among the events. *)
Fixpoint commands (ev : list event) : list string :=
  match ev with [] => [] | Command c :: r => c :: commands r | Print _ :: r => commands r end.

(** ** Selection *)
Definition all_linters : string := "all linters".

(** The entry with the directory of the script for the path ".". *)
Definition absolute (dir : string) (e e' : entry) : Prop :=
  e_tool e' = e_tool e /\ e_extra_args e' = e_extra_args e /\ e_tool_desc e' = e_tool_desc e /\ e_suggestions e' = e_suggestions e /\
  e_ignore e' = e_ignore e /\ e_only_include e' = e_only_include e /\ e_pass e' = e_pass e /\ e_dmypy e' = e_dmypy e /\
  (e_path e = Some "." -> e_path e' = Some dir) /\ (e_path e <> Some "." -> e_path e' = e_path e).

(** [Chosen f es l]: the options [f] choose the tools [l] among [es]. *)
Inductive Chosen (f : flags) (es : list entry) : list entry -> Prop :=
  | Chosen_all : f_single_tool f = "" -> f_only_run_tools f = [] -> Chosen f es es
  | Chosen_linters : forall l, In all_linters (f_only_run_tools f) \/ occurs all_linters (lower (f_single_tool f)) ->
      kept (fun e => tool_name e = "pytest") es l -> Chosen f es l
  | Chosen_names : forall l, f_only_run_tools f <> [] -> ~ In all_linters (f_only_run_tools f) ->
      kept (fun e => ~ In (tool_name e) (f_only_run_tools f)) es l -> l <> [] -> Chosen f es l
  | Chosen_single : forall l, f_single_tool f <> "" -> ~ occurs all_linters (lower (f_single_tool f)) ->
      kept (fun e => ~ occurs (tool_name e) (lower (f_single_tool f))) es l -> l <> [] -> Chosen f es l.

(** [Selected dir c f l]: with the configuration [c] and the options [f] the tools [l] are run. *)
Definition Selected (dir : string) (c : configuration) (f : flags) (l : list entry) : Prop :=
  exists es es', c = Entries es /\ Forall (fun e => e_tool e <> None) es /\ Forall2 (absolute dir) es es' /\
    (f_single_tool f = "" \/ f_only_run_tools f = []) /\ Chosen f es' l.

(** ** What is shown of a failed tool *)
(** Lines one below the other, without an empty line at the end. *)
Fixpoint shown (l : list string) : string :=
  match l with
  | [] => ""
  | [x] => match x with "" => "" | _ => "     " ++ x end
  | [x; ""] => "     " ++ x
  | x :: r => "     " ++ x ++ line_feed ++ shown r
  end.
(** What the tool has to say: stderr, or stdout if that is all there is. *)
Definition message (o : outcome) : string := match o_err o with "" => o_out o | e => e end.
Definition contains_one (l : list string) (line : string) : Prop := exists t, In t l /\ occurs t line.

(** The texts printed. *)
Fixpoint printed (ev : list event) : list string :=
  match ev with [] => [] | Print t :: r => t :: printed r | Command _ :: r => printed r end.
Definition coloured (code s : string) : string :=
  String (ascii_of_nat 27) ("[" ++ code ++ "m" ++ s ++ String (ascii_of_nat 27) "[0m").
Definition green (s : string) : string := coloured "92" s.
Definition red (s : string) : string := coloured "91" s.
Definition yellow (s : string) : string := coloured "93" s.
Definition described (tool : string) (e : entry) : string :=
  match key_text (e_tool_desc e) with "" => tool | d => tool ++ " - " ++ d end.
(** The report about a tool that passed, and about one that failed with the lines [lines]. *)
Definition report_passed (tool : string) (e : entry) : list string := ["[" ++ green "OK" ++ "] " ++ described tool e].
Definition report_failed (tool command : string) (e : entry) (lines : list string) : list string :=
  ("[" ++ red "NOK" ++ "] " ++ described tool e) :: (" - Command used: " ++ yellow command) ::
  app (map (fun s => " - " ++ yellow s) (given (e_suggestions e)))
      [" - Output from the tool: " ++ line_feed ++ shown lines ++ line_feed].

(** ** Git hooks *)
Definition quote (s : string) : string := String (ascii_of_nat 34) (s ++ String (ascii_of_nat 34) "").
