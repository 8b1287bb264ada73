(** Model of [LazyTypeHintLive.from_yaml_file] (lazy_type_hint/generators/lazy_type_hint_live.py:100-110, which calls
    lazy_type_hint_abc.py:58-76) over the state of Live.v.

    The user's loader is any function from the text of a file to a value or an exception.
    Simplifications: those of YamlLoad.v and Live.v; the YAML file and its temporary copy are neither the stub nor
    class files; nobody else writes the temporary copy during the call (YamlLoad.v treats two callers). *)
From Coq Require Import Ascii String List Bool Arith.
From Verif Require Import PyStr Utils Exc PyFile Yaml YamlLoad Live.
Import ListNotations.
Local Open Scope string_scope.

(** try: m except Exception: m'.  What [m] did before the exception stays done. *)
Definition mtry {A} (m m' : M A) : M A :=
  fun s => match m s with (Raise _, s') => m' s' | r => r end.

Section LiveYaml.
  Context {D : Type}.
  Variable loader : string -> exc D.
  Variable unparsed : list string.
  Variable generate : D -> string -> exc string.
  Variable tempdir : string.

  Definition from_yaml_live (validate : bool) (fs : files) (p : path) (arg : option positions_arg) (c : string) : M D :=
    match arg with
    | None => mbind (query (fun _ => load loader fs p)) (fun v => from_data generate validate v c)
    | Some a =>
        mbind (query (fun _ => open_yaml fs p a)) (fun y =>
        mbind (query (fun _ => load loader fs p)) (fun original =>
        mtry
          (mbind (query (fun _ => temporary_string y)) (fun text =>
           mbind (query (fun _ => load loader (YamlLoad.write (temp_path tempdir p) text fs) (temp_path tempdir p))) (fun v =>
           from_data generate validate v c)))
          (from_data generate validate original c)))
    end.

  (** Histories with calls of both methods.  The YAML files may be others at each call. *)
  Inductive yop : Type :=
    | Plain (o : @op D)
    | UseYaml (k : nat) (fs : files) (p : path) (arg : option positions_arg) (c : string).

  Definition ystep (w : world) (o : yop) : option (exc D) * world :=
    match o with
    | Plain o' => step unparsed generate w o'
    | UseYaml k fs p arg c =>
        match nth_error (w_objects w) k with
        | None => (None, w)
        | Some ob =>
            match from_yaml_live (o_validate ob) fs p arg c (State (o_lines ob) (w_disk w) []) with
            | (r, s) => (Some r, World (s_disk s) (set_nth k (Object (s_lines s) (o_validate ob)) (w_objects w)))
            end
        end
    end.

  Fixpoint ysteps (w : world) (os : list yop) : list (option (exc D)) * world :=
    match os with
    | [] => ([], w)
    | o :: r => let (x, w1) := ystep w o in let (xs, w2) := ysteps w1 r in (x :: xs, w2)
    end.
End LiveYaml.
