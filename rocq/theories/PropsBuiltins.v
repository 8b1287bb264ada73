(** The names that need no import (C12, C27): the classes of the builtins module, here in the order of the library reference. *)
From Coq Require Import String List.
From Verif Require Import Emit.
Import ListNotations.
Local Open Scope string_scope.

(** "Built-in Types" and the classes among the "Built-in Functions". *)
Definition data_classes : list string :=
  ["int"; "float"; "complex"; "bool"; "str"; "bytes"; "bytearray"; "memoryview"; "list"; "tuple"; "range"; "set"; "frozenset"; "dict";
   "type"; "object"; "super"; "slice"; "property"; "classmethod"; "staticmethod"; "enumerate"; "filter"; "map"; "reversed"; "zip"].
(** "Exception hierarchy": the direct subclasses of each class. *)
Definition subclasses : list (string * list string) :=
  [("BaseException", ["SystemExit"; "KeyboardInterrupt"; "GeneratorExit"; "Exception"]);
   ("Exception", ["StopIteration"; "StopAsyncIteration"; "ArithmeticError"; "AssertionError"; "AttributeError"; "BufferError"; "EOFError"; "ImportError"; "LookupError"; "MemoryError";
      "NameError"; "OSError"; "ReferenceError"; "RuntimeError"; "SyntaxError"; "SystemError"; "TypeError"; "ValueError"; "Warning"]);
   ("ArithmeticError", ["FloatingPointError"; "OverflowError"; "ZeroDivisionError"]);
   ("ImportError", ["ModuleNotFoundError"]);
   ("LookupError", ["IndexError"; "KeyError"]);
   ("NameError", ["UnboundLocalError"]);
   ("OSError", ["BlockingIOError"; "ChildProcessError"; "ConnectionError"; "FileExistsError"; "FileNotFoundError"; "InterruptedError"; "IsADirectoryError"; "NotADirectoryError";
      "PermissionError"; "ProcessLookupError"; "TimeoutError"]);
   ("ConnectionError", ["BrokenPipeError"; "ConnectionAbortedError"; "ConnectionRefusedError"; "ConnectionResetError"]);
   ("RuntimeError", ["NotImplementedError"; "RecursionError"]);
   ("SyntaxError", ["IndentationError"]);
   ("IndentationError", ["TabError"]);
   ("ValueError", ["UnicodeError"]);
   ("UnicodeError", ["UnicodeDecodeError"; "UnicodeEncodeError"; "UnicodeTranslateError"]);
   ("Warning", ["DeprecationWarning"; "PendingDeprecationWarning"; "RuntimeWarning"; "SyntaxWarning"; "UserWarning"; "FutureWarning"; "ImportWarning"; "UnicodeWarning"; "BytesWarning"; "ResourceWarning"])].
(** Everything below [BaseException], and the two old names of [OSError]. *)
Inductive exception : string -> Prop :=
  | ex_base : exception "BaseException"
  | ex_below : forall c l x, exception c -> In (c, l) subclasses -> In x l -> exception x
  | ex_environment : exception "EnvironmentError"
  | ex_io : exception "IOError".
Definition builtin (x : string) : Prop := In x data_classes \/ exception x.

Lemma all_in l m : forallb (fun x => if in_dec string_dec x m then true else false) l = true -> forall x : string, In x l -> In x m.
Proof. intros H x Hx. rewrite forallb_forall in H. specialize (H x Hx). destruct (in_dec string_dec x m); [assumption|discriminate H]. Qed.
Lemma below c l : exception c -> In (c, l) subclasses -> Forall exception l.
Proof. intros H I. apply Forall_forall. intros x. now apply (ex_below c). Qed.
Lemma every_exception : Forall exception (("BaseException" :: flat_map snd subclasses) ++ ["EnvironmentError"; "IOError"]).
Proof.
  assert (G : Forall (fun p => exception (fst p) /\ Forall exception (snd p)) subclasses).
  { assert (X : forall p, In p subclasses -> exception (fst p) -> exception (fst p) /\ Forall exception (snd p)) by (intros [c l] I H; split; [exact H|exact (below c l H I)]).
    assert (B := below _ _ ex_base (or_introl eq_refl)). assert (E : exception "Exception") by (rewrite Forall_forall in B; apply B; do 3 right; now left).
    assert (B2 := below _ _ E (or_intror (or_introl eq_refl))). rewrite Forall_forall in B2.
    assert (B3 : exception "ConnectionError").
    { apply (ex_below "OSError" (snd (nth 6 subclasses ("", [])))); [apply B2; apply (all_in ["OSError"]); [reflexivity|now left]|exact (nth_In subclasses ("", []) (n := 6) ltac:(repeat constructor))|].
      apply (all_in ["ConnectionError"]); [reflexivity|now left]. }
    assert (B4 : exception "IndentationError").
    { apply (ex_below "SyntaxError" (snd (nth 9 subclasses ("", [])))); [apply B2; apply (all_in ["SyntaxError"]); [reflexivity|now left]|exact (nth_In subclasses ("", []) (n := 9) ltac:(repeat constructor))|].
      apply (all_in ["IndentationError"]); [reflexivity|now left]. }
    assert (B5 : exception "UnicodeError").
    { apply (ex_below "ValueError" (snd (nth 11 subclasses ("", [])))); [apply B2; apply (all_in ["ValueError"]); [reflexivity|now left]|exact (nth_In subclasses ("", []) (n := 11) ltac:(repeat constructor))|].
      apply (all_in ["UnicodeError"]); [reflexivity|now left]. }
    apply Forall_forall. intros p I. apply X; [exact I|]. apply (in_map fst) in I.
    assert (J : In (fst p) ((["BaseException"; "Exception"; "ConnectionError"; "IndentationError"; "UnicodeError"] ++
      ["ArithmeticError"; "ImportError"; "LookupError"; "NameError"; "OSError"; "RuntimeError"; "SyntaxError"; "ValueError"; "Warning"]))) by (revert I; generalize (fst p); apply all_in; reflexivity).
    apply in_app_iff in J as [J|J].
    - destruct J as [<-|[<-|[<-|[<-|[<-|[]]]]]]; [exact ex_base|exact E|exact B3|exact B4|exact B5].
    - apply B2. revert J. generalize (fst p). apply all_in. reflexivity. }
  apply Forall_app. split; [|repeat constructor]. constructor; [constructor|]. apply Forall_forall. intros x Hx. apply in_flat_map in Hx as (p & Hp & Hx). rewrite Forall_forall in G. destruct (G p Hp) as [_ F]. rewrite Forall_forall in F. auto.
Qed.
Theorem C27_builtins : forall x, In x builtin_classes <-> builtin x.
Proof.
  intros x. split.
  - intros H. assert (J : In x (data_classes ++ (("BaseException" :: flat_map snd subclasses) ++ ["EnvironmentError"; "IOError"]))) by (revert x H; apply all_in; reflexivity).
    apply in_app_iff in J as [J|J]; [now left|right]. pose proof every_exception as F. rewrite Forall_forall in F. auto.
  - intros [H|H]; [revert x H; apply all_in; reflexivity|]. destruct H as [|c l x _ I J| |].
    + apply (all_in ["BaseException"]); [reflexivity|now left].
    + assert (K : In x (flat_map snd subclasses)) by (apply in_flat_map; exists (c, l); auto). revert x J K. intros x _. revert x. apply all_in. reflexivity.
    + apply (all_in ["EnvironmentError"]); [reflexivity|now left].
    + apply (all_in ["IOError"]); [reflexivity|now left].
Qed.
Print Assumptions C27_builtins.
Example C27_builtins_example : exception "TabError" /\ In "TabError" builtin_classes /\ ~ builtin "ExceptionGroup".
Proof.
  assert (H : In "TabError" builtin_classes) by (apply (all_in ["TabError"]); [reflexivity|now left]). split; [|split; [exact H|]].
  - destruct (proj1 (C27_builtins _) H) as [J|J]; [|exact J]. exfalso. apply (all_in data_classes (filter (fun x => if string_dec x "TabError" then false else true) data_classes) eq_refl) in J. apply filter_In in J as [_ J]. destruct (string_dec "TabError" "TabError"); [discriminate J|congruence].
  - intros J. apply C27_builtins in J. apply (all_in builtin_classes (filter (fun x => if string_dec x "ExceptionGroup" then false else true) builtin_classes) eq_refl) in J. apply filter_In in J as [_ J]. destruct (string_dec "ExceptionGroup" "ExceptionGroup"); [discriminate J|congruence].
Qed.
