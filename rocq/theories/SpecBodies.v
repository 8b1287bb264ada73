(** Syntax trees in a heap, and what is left of a syntax tree without the bodies of its functions. *)
From Coq Require Import Ascii String List Arith.
From Verif Require Import Ast Bodies.
Import ListNotations.
Local Open Scope string_scope.
Local Open Scope nat_scope.

(** [shows h t f]: read in the heap [h], the attribute value [f] is the tree [t].  Nodes may be shared. *)
Fixpoint shows (h : heap) (t : ast) (f : field) {struct t} : Prop :=
  match t, f with
  | ANode c fs, FItem (INode a) =>
      exists ns, nth_error h a = Some (Node c ns) /\
        (fix all (fs : list (string * ast)) (ns : list (string * field)) {struct fs} : Prop :=
           match fs, ns with
           | [], [] => True
           | (k, t) :: r, (k', f) :: r' => k = k' /\ shows h t f /\ all r r'
           | _, _ => False
           end) fs ns
  | AConst ty v, FItem (IConst ty' v') => ty = ty' /\ v = v'
  | AList l, FList is =>
      (fix all (l : list ast) (is : list item) {struct l} : Prop :=
         match l, is with
         | [], [] => True
         | t :: r, i :: r' => shows h t (FItem i) /\ all r r'
         | _, _ => False
         end) l is
  | _, _ => False
  end.

(** The body that consists of three dots. *)
Definition dots : ast := AList [ANode "Constant" [("value", AConst "ellipsis" "...")]].

(** [bare t t']: [t'] is [t] with [dots] as the body of every function, and nothing else is changed.  Functions inside of bodies go with them. *)
Inductive bare : ast -> ast -> Prop :=
  | bare_const : forall ty v, bare (AConst ty v) (AConst ty v)
  | bare_list : forall l l', Forall2 bare l l' -> bare (AList l) (AList l')
  | bare_node : forall c fs fs', c <> "FunctionDef" -> Forall2 (fun e e' => fst e = fst e' /\ bare (snd e) (snd e')) fs fs' ->
      bare (ANode c fs) (ANode c fs')
  | bare_function : forall above body below above' below',
      Forall2 (fun e e' => fst e = fst e' /\ bare (snd e) (snd e')) above above' ->
      Forall2 (fun e e' => fst e = fst e' /\ bare (snd e) (snd e')) below below' ->
      bare (ANode "FunctionDef" (above ++ ("body", body) :: below))
           (ANode "FunctionDef" (above' ++ ("body", dots) :: below')).

(** [part x t]: [x] occurs in [t]. *)
Inductive part : ast -> ast -> Prop :=
  | part_here : forall t, part t t
  | part_list : forall x t l, In t l -> part x t -> part x (AList l)
  | part_node : forall x k t c fs, In (k, t) fs -> part x t -> part x (ANode c fs).

(** Every function has one body, and the names of its attributes are different. *)
Definition functions_have_bodies (t : ast) : Prop :=
  forall fs, part (ANode "FunctionDef" fs) t -> NoDup (map fst fs) /\ In "body" (map fst fs).
