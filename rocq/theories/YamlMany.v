(** Any number of concurrent calls of [from_yaml_file] (lazy_type_hint_abc.py:58-76): each one is the sequence of file accesses of YamlLoad.v; the schedule says
    which caller makes the next access. *)
From Coq Require Import Ascii String List Bool Arith.
From Verif Require Import PyStr Exc Yaml YamlLoad.
Import ListNotations.
Local Open Scope string_scope.

Section Many.
  Context {V H : Type}.
  Variable loader : string -> exc V.
  Variable from_data : V -> exc H.
  Variable tempdir : string.
  Notation caller := (path * positions_arg * @pstate V H)%type.
  Fixpoint turn (i : nat) (cs : list caller) (fs : files) : list caller * files :=
    match cs, i with
    | [], _ => ([], fs)
    | (p, a, s) :: r, 0 => let (s', fs') := step loader from_data tempdir p a s fs in ((p, a, s') :: r, fs')
    | c :: r, S j => let (r', fs') := turn j r fs in (c :: r', fs')
    end.
  Fixpoint run_many (sched : list nat) (cs : list caller) (fs : files) : list caller * files :=
    match sched with
    | [] => (cs, fs)
    | i :: r => let (cs', fs') := turn i cs fs in run_many r cs' fs'
    end.
  Definition starting (calls : list (path * positions_arg)) : list caller := map (fun c => (c, Start)) calls.
End Many.
