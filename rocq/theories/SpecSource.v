(** What a function returns, read off its syntax tree, and what it means to remove the common indentation. *)
From Coq Require Import Ascii String List Arith.
From Verif Require Import Ast SpecNames SpecBodies.
Import ListNotations.
Local Open Scope string_scope.
Local Open Scope nat_scope.

(** [inside x t]: [x] occurs in [t], not inside of another function, lambda or class. *)
Definition scope_class (c : string) : Prop := In c ["FunctionDef"; "AsyncFunctionDef"; "Lambda"; "ClassDef"].
Inductive inside : ast -> ast -> Prop :=
  | inside_here : forall t, inside t t
  | inside_list : forall x t l, In t l -> inside x t -> inside x (AList l)
  | inside_node : forall x k t c fs, ~ scope_class c -> In (k, t) fs -> inside x t -> inside x (ANode c fs).

(** The source of a function: a module whose body is the definition. *)
Definition defines (t : ast) (body : ast) : Prop :=
  exists c fs tail, t = ANode "Module" (("body", AList [ANode c fs]) :: tail) /\ (c = "FunctionDef" \/ c = "AsyncFunctionDef") /\ In ("body", body) fs.
(** A [return] statement with a value that belongs to the function itself. *)
Definition own_return (fs : list (string * ast)) (body : ast) : Prop :=
  inside (ANode "Return" fs) body /\ exists v, In ("value", v) fs /\ v <> AConst "NoneType" "None".
Definition returns_value (t : ast) : Prop := exists body fs, defines t body /\ own_return fs body.
(** Somewhere in the text there is a [return]. *)
Definition mentions_return (t : ast) : Prop := exists fs, part (ANode "Return" fs) t.

(** ** Indentation *)
Definition blank_char (c : ascii) : Prop := code c = 32 \/ code c = 9.
Definition empty_line (l : string) : Prop := Forall blank_char (chars l).
(** [Dedented ls out]: lines of blanks are empty, the longest common indentation [m] of the others is gone. *)
Definition Dedented (ls out : list string) : Prop :=
  exists m, Forall blank_char (chars m) /\
    Forall2 (fun l o => empty_line l /\ o = "" \/ ~ empty_line l /\ l = m ++ o) ls out /\
    ((forall l, In l ls -> empty_line l) \/
     forall c, blank_char c -> exists o, In o out /\ o <> "" /\ forall r, o <> String c r).
