(** Model of [LazyTypeHintABC.from_yaml_file] (lazy_type_hint/generators/lazy_type_hint_abc.py:58-76)
    and of the temporary file (file_modifiers/yaml_file_modifier.py:419-431).

    A path is a pair (directory, file name).  The user's loader is any function from the text of a file
    to a value or an exception, [from_data] any function from values to hints or an exception.
    Simplification: [from_data] has no side effects (true of [LazyTypeHint]). *)
From Coq Require Import Ascii String List Bool Arith.
From Verif Require Import PyStr Exc Yaml.
Import ListNotations.
Local Open Scope string_scope.

Definition path : Type := (string * string)%type.
Definition path_eqb (p q : path) : bool := String.eqb (fst p) (fst q) && String.eqb (snd p) (snd q).
Definition files : Type := path -> option string.
Definition write (p : path) (text : string) (fs : files) : files :=
  fun q => if path_eqb q p then Some text else fs q.

(** yaml_file_modifier.py:429 *)
Definition temp_path (tempdir : string) (p : path) : path := (tempdir, "_" ++ snd p).

Definition FileNotFound : py_error := OtherError 0.

Section Load.
  Context {V H : Type}.
  Variable loader : string -> exc V.
  Variable from_data : V -> exc H.
  Variable tempdir : string.

  Definition load (fs : files) (p : path) : exc V :=
    match fs p with None => Raise FileNotFound | Some text => loader text end.

  (** The constructor checks its arguments before it reads the file. *)
  Definition open_yaml (fs : files) (p : path) (arg : positions_arg) : exc yaml :=
    match yaml_init (snd p) arg "" with
    | Val _ => match fs p with None => Raise FileNotFound | Some text => yaml_init (snd p) arg text end
    | Raise e => Raise e
    | NoFuel => NoFuel
    end.

  (** try: ... except Exception: ... (NoFuel is not an exception of the program). *)
  Definition try_else {A} (r : exc A) (other : exc A) : exc A :=
    match r with Raise _ => other | _ => r end.

  (** The whole call, run without interference. *)
  Definition from_yaml (fs : files) (p : path) (arg : option positions_arg) : exc H :=
    match arg with
    | None => andthen (load fs p) from_data
    | Some a =>
        andthen (open_yaml fs p a) (fun y =>
        andthen (load fs p) (fun original =>
        try_else
          (andthen (temporary_string y) (fun text =>
           andthen (load (write (temp_path tempdir p) text fs) (temp_path tempdir p)) from_data))
          (from_data original)))
    end.

  (** The same call as a sequence of file accesses.  [Path.write_text] truncates the file and then writes. *)
  Inductive pstate : Type :=
    | Start
    | Opened (y : yaml)
    | Loaded (y : yaml) (original : V)
    | Truncated (text : string) (original : V)
    | Written (original : V)
    | Done (r : exc H).

  Definition step (p : path) (a : positions_arg) (st : pstate) (fs : files) : pstate * files :=
    let t := temp_path tempdir p in
    match st with
    | Start => (match open_yaml fs p a with Val y => Opened y | Raise e => Done (Raise e) | NoFuel => Done NoFuel end, fs)
    | Opened y => (match load fs p with Val v => Loaded y v | Raise e => Done (Raise e) | NoFuel => Done NoFuel end, fs)
    | Loaded y v =>
        match temporary_string y with
        | Val text => (Truncated text v, write t "" fs)
        | Raise _ => (Done (from_data v), fs)
        | NoFuel => (Done NoFuel, fs)
        end
    | Truncated text v => (Written v, write t text fs)
    | Written v => (Done (try_else (andthen (load fs t) from_data) (from_data v)), fs)
    | Done r => (Done r, fs)
    end.

  (** Two callers; [true] in the schedule lets the first one make a step. *)
  Fixpoint run2 (p1 p2 : path) (a1 a2 : positions_arg) (sched : list bool) (s1 s2 : pstate) (fs : files)
    : pstate * pstate * files :=
    match sched with
    | [] => (s1, s2, fs)
    | true :: r => let (s1', fs') := step p1 a1 s1 fs in run2 p1 p2 a1 a2 r s1' s2 fs'
    | false :: r => let (s2', fs') := step p2 a2 s2 fs in run2 p1 p2 a1 a2 r s1 s2' fs'
    end.
End Load.
