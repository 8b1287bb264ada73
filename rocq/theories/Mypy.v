(** Model of utils/mypy.py: what [Mypy.scan_string] and [Mypy.scan_file] make of the output of mypy, and how a result is printed.
    The run of mypy is a datum: a function from the arguments of a process to what it prints ([None]: the program cannot be started).
    Simplifications: [ignore_errors] is a list; bytes are the code points 0-255; a path is a directory part and a name. *)
From Coq Require Import Ascii String List Bool Arith.
From Verif Require Import PyStr Exc Live YamlLoad Frame.
Import ListNotations.
Local Open Scope string_scope.
Local Open Scope nat_scope.

Record outcome : Type := Outcome { o_stdout : string; o_stderr : string }.
Definition world : Type := list string -> option outcome.

Record result : Type := Result { r_success : bool; r_errors : list string }.

(** [str(b)] of bytes. *)
Definition bytes_char (q c : ascii) : string :=
  if Ascii.eqb c (chr 92) then String (chr 92) (String (chr 92) "")
  else if Ascii.eqb c q then String (chr 92) (String q "")
  else if Ascii.eqb c (chr 9) then String (chr 92) "t"
  else if Ascii.eqb c (chr 10) then String (chr 92) "n"
  else if Ascii.eqb c (chr 13) then String (chr 92) "r"
  else if between 32 126 (ord c) then String c ""
  else String (chr 92) "x" ++ hex (ord c / 16) ++ hex (ord c mod 16).
Fixpoint bytes_chars (q : ascii) (s : string) : string :=
  match s with EmptyString => "" | String c r => bytes_char q c ++ bytes_chars q r end.
Definition bytes_str (s : string) : string :=
  let q := if contains (String (chr 39) "") s && negb (contains (String (chr 34) "") s) then chr 34 else chr 39 in
  "b" ++ String q "" ++ bytes_chars q s ++ String q "".

(** [s.split(sep)] for a non-empty separator; [skip] characters of a separator are still to be passed over. *)
Definition onto_head (c : ascii) (l : list string) : list string :=
  match l with [] => [String c ""] | h :: t => String c h :: t end.
Fixpoint split_str (sep s : string) (skip : nat) : list string :=
  match s with
  | "" => [""]
  | String c r =>
      match skip with
      | S k => split_str sep r k
      | O => if startswith sep s then "" :: split_str sep r (String.length sep - 1) else onto_head c (split_str sep r 0)
      end
  end.

(** mypy.py:82 [error[: error.rfind("]") + 1]]. *)
Definition up_to_bracket (s : string) : string :=
  match rfind_str "]" s with Some i => take (S i) s | None => "" end.

(** mypy.py:83-88. *)
Definition kept_text (ignore : list string) (e : string) : bool :=
  negb (String.eqb e "") && match ignore with [] => true | _ => forallb (fun k => negb (contains k e)) ignore end.

(** mypy.py:66-73 *)
Definition string_command (strict : bool) (version text : string) : list string :=
  (["python3"; "-m"; "poetry"; "run"; "mypy"] ++ (if strict then ["--strict"] else []) ++ ["--python-version"; version; "-c"; text])%list.

(** mypy.py:49-89 [scan_string]. *)
Definition scan_string (w : world) (text : string) (strict : bool) (version : string) (ignore : list string) : exc result :=
  match w (string_command strict version text) with
  | None => Raise FileNotFound
  | Some o =>
      if negb (String.eqb (o_stderr o) "") then Val (Result false [bytes_str (o_stderr o)])
      else let errors := filter (kept_text ignore) (map up_to_bracket (split_str "error: " (bytes_str (o_stdout o)) 0)) in
           Val (Result (match errors with [] => true | _ => false end) errors)
  end.

(** mypy.py:113-118: the command is one text and no shell is used.  POSIX takes the whole text as the name of the program, Windows
    splits it at the blanks. *)
Inductive platform : Type := Posix | Windows.
Record file_path : Type := FilePath { p_dir : string; p_name : string }.
Definition file_command (strict : bool) (version : string) (f : file_path) : string :=
  join " " (["mypy"] ++ (if strict then ["--strict"] else []) ++ [String.append "--python-version " version; String.append (p_dir f) (p_name f)])%list.
Definition process_arguments (p : platform) (command : string) : list string :=
  match p with Posix => [command] | Windows => filter (fun a => negb (String.eqb a "")) (split_char (chr 32) command) end.

(** mypy.py:91-130 [scan_file]. *)
Definition kept_line (ignore : list string) (l : string) : bool :=
  match ignore with [] => true | _ => negb (forallb (fun k => contains k l) ignore) end.
Definition scan_file (p : platform) (w : world) (f : file_path) (strict : bool) (version : string) (ignore : list string) : exc result :=
  match w (process_arguments p (file_command strict version f)) with
  | None => Raise FileNotFound
  | Some o =>
      if negb (String.eqb (o_stderr o) "") then Raise ValueError
      else let lines := filter (contains "error: ") (splitlines (o_stdout o)) in
           let errors := filter (contains (p_name f)) (filter (kept_line ignore) lines) in
           Val (Result (match errors with [] => true | _ => false end) errors)
  end.

(** mypy.py:27-47 [errors_as_str], [file_content_with_lineno] and [__str__]: the scanned text or the scanned file with its text. *)
Inductive scanned : Type := ScannedText | ScannedFile (name text : string).
Fixpoint numbered (i : nat) (lines : list string) : list string :=
  match lines with [] => [] | l :: r => (str_of_nat i ++ " " ++ l) :: numbered (S i) r end.
Definition file_content_with_lineno (s : scanned) : exc string :=
  match s with ScannedText => Raise ValueError | ScannedFile _ text => Val (join nl (numbered 0 (splitlines text))) end.
Definition result_str (r : result) (s : scanned) : exc string :=
  if r_success r then Val "No errors"
  else match s with
       | ScannedText => Val ("Errors were found. " ++ join nl (r_errors r))
       | ScannedFile name _ =>
           andthen (file_content_with_lineno s) (fun content =>
             Val ("Errors were found. " ++ join nl (r_errors r) ++ nl ++ nl ++ "File scanned (" ++ name ++ "): " ++ nl ++ content))
       end.
