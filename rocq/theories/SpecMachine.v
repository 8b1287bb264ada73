(** An abstract machine for [LazyTypeHintLive]: what each object and the stub know, which class files there are, and what a call
    does, without any text of the stub.  Objects, resets and crashes come in any order. *)
From Coq Require Import Ascii String List Bool Arith.
From Verif Require Import Exc Live.
Import ListNotations.
Local Open Scope string_scope.
Local Open Scope nat_scope.

(** The classes that are imported, registered, and overloads of the two methods. *)
Record known : Type := Known { k_imports : list string; k_registry : list string; k_yaml : list string; k_data : list string }.
Definition nothing : known := Known [] [] [] [].
(** What is written: a class file, or the stub. *)
Inductive effect : Type := EFile (c text : string) | EStub (k : known).
(** Class files, the last written one first. *)
Definition Holds (fs : list (string * string)) (c text : string) : Prop := exists a b, fs = (a ++ (c, text) :: b)%list /\ ~ In c (map fst a).
Definition present (fs : list (string * string)) (c : string) : Prop := exists text, Holds fs c text.

Record machine : Type := Machine { m_stub : option known; m_files : list (string * string); m_objects : list (known * bool) }.
Definition fresh : machine := Machine None [] [].

Definition after (d : option known * list (string * string)) (e : effect) : option known * list (string * string) :=
  match e with
  | EFile c text => (fst d, (c, text) :: snd d)
  | EStub k => (Some k, snd d)
  end.
Definition afterwards (m : machine) (es : list effect) : option known * list (string * string) := fold_left after es (m_stub m, m_files m).
Definition memory (k : known) (es : list effect) : known := fold_left (fun k e => match e with EStub k' => k' | EFile _ _ => k end) es k.

Section Machine.
  Context {D : Type}.
  Variable generate : D -> string -> exc string.
  (** The names that are accepted, and when a new text agrees with the text of a class file. *)
  Variable valid : string -> Prop.
  Variable agrees : string -> string -> Prop.

  (** A call of an object that knows [k]: its result and what it writes, in order. *)
  Inductive Call (k : known) (validate : bool) (fs : list (string * string)) (data : D) (c : string) : exc D -> list effect -> Prop :=
    | call_name : ~ valid c -> Call k validate fs data c (Raise LiveError) []
    | call_lost : forall x, valid c -> In x (k_registry k) -> ~ present fs x -> Call k validate fs data c (Raise LiveError) []
    | call_text : forall e, valid c -> Forall (present fs) (k_registry k) -> generate data c = Raise e -> Call k validate fs data c (Raise e) []
    | call_differs : forall text old, valid c -> Forall (present fs) (k_registry k) -> generate data c = Val text ->
        validate = true -> In c (k_registry k) -> Holds fs c old -> ~ agrees text old -> Call k validate fs data c (Raise LiveError) []
    | call_again : forall text, valid c -> Forall (present fs) (k_registry k) -> generate data c = Val text -> In c (k_registry k) ->
        (validate = true -> forall old, Holds fs c old -> agrees text old) -> Call k validate fs data c (Val data) [EFile c text]
    | call_first : forall text i r y d, valid c -> Forall (present fs) (k_registry k) -> generate data c = Val text -> ~ In c (k_registry k) -> k = Known i r y d ->
        Call k validate fs data c (Val data)
          [EFile c text; EStub (Known i (r ++ [c]) y d); EStub (Known (c :: i) (r ++ [c]) y d); EStub (Known (c :: i) (r ++ [c]) y (c :: d));
           EStub (Known (c :: i) (r ++ [c]) (c :: y) (c :: d))].

  Inductive Acts (m : machine) : @op D -> option (exc D) -> machine -> Prop :=
    | acts_new : forall v, Acts m (New v) None
        (Machine (m_stub m) (m_files m) (m_objects m ++ [(match m_stub m with Some k => k | None => nothing end, v)]))
    | acts_reset : Acts m Reset None (Machine None [] (m_objects m))
    | acts_use : forall a k v b data c r es, m_objects m = (a ++ (k, v) :: b)%list -> Call k v (m_files m) data c r es ->
        Acts m (Use (List.length a) data c) (Some r) (Machine (fst (afterwards m es)) (snd (afterwards m es)) (a ++ (memory k es, v) :: b))
    | acts_crash : forall a k v b data c r es n, m_objects m = (a ++ (k, v) :: b)%list -> Call k v (m_files m) data c r es ->
        Acts m (Crash data c (List.length a) n) None (Machine (fst (afterwards m (firstn n es))) (snd (afterwards m (firstn n es))) [])
    | acts_no_use : forall k data c, List.length (m_objects m) <= k -> Acts m (Use k data c) None m
    | acts_no_crash : forall k data c n, List.length (m_objects m) <= k -> Acts m (Crash data c k n) None m.

  Inductive Runs : machine -> list (@op D) -> list (option (exc D)) -> machine -> Prop :=
    | runs_nil : forall m, Runs m [] [] m
    | runs_cons : forall m o x m1 os xs m2, Acts m o x m1 -> Runs m1 os xs m2 -> Runs m (o :: os) (x :: xs) m2.
End Machine.
