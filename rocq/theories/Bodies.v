(** Model of [PyFileModifier.remove_all_method_bodies] (file_modifiers/py_file_modifier.py:166-184).

    The nodes of the syntax tree are objects: a heap maps addresses to nodes, attributes refer to other nodes by their address, and the
    assignment of line 183 changes the node in place while [ast.walk] goes on.
    [ast.walk] (standard library, ast.py): a queue of nodes; the children of a node are put at its end before the node is yielded.
    Parameters: [ast.parse] and [ast.unparse].
    Simplifications: attributes outside of [_fields] (positions) are among the attributes, they hold no nodes; lists in lists do not occur;
    [ast.Ellipsis()] is a new [Constant] (it is an alias of it since Python 3.8); a dangling address, which does not exist in Python, gives [NoFuel]. *)
From Coq Require Import Ascii String List Bool Arith.
From Verif Require Import PyStr Exc PyFile.
Import ListNotations.
Local Open Scope string_scope.
Local Open Scope nat_scope.

Inductive item : Type := INode (address : nat) | IConst (type value : string).
Inductive field : Type := FItem (i : item) | FList (l : list item).
Record node : Type := Node { n_class : string; n_fields : list (string * field) }.
Definition heap : Type := list node.

(** [ast.iter_child_nodes] (ast.py) *)
Definition of_item (i : item) : list nat := match i with INode a => [a] | IConst _ _ => [] end.
Definition of_field (f : field) : list nat := match f with FItem i => of_item i | FList l => flat_map of_item l end.
Definition child_nodes (n : node) : list nat := flat_map (fun f => of_field (snd f)) (n_fields n).

(** [setattr(node, k, v)] *)
Fixpoint set_field (k : string) (v : field) (fs : list (string * field)) : list (string * field) :=
  match fs with
  | [] => [(k, v)]
  | (n, x) :: r => if String.eqb k n then (n, v) :: r else (n, x) :: set_field k v r
  end.

(** [ast.Ellipsis()] *)
Definition new_ellipsis : node := Node "Constant" [("value", FItem (IConst "ellipsis" "..."))].
(** Line 182: [isinstance(node, ast.FunctionDef)] *)
Definition is_function (n : node) : bool := String.eqb (n_class n) "FunctionDef".
(** Line 183, for the node at address [a]: a new object is put at the end of the heap. *)
Definition empty_body (a : nat) (n : node) (h : heap) : heap :=
  (set_nth a (Node (n_class n) (set_field "body" (FList [INode (List.length h)]) (n_fields n))) h ++ [new_ellipsis])%list.

(** Lines 181-183. *)
Fixpoint walk (fuel : nat) (h : heap) (todo : list nat) : exc heap :=
  match fuel with
  | O => NoFuel
  | S f =>
      match todo with
      | [] => Val h
      | a :: rest =>
          match nth_error h a with
          | None => NoFuel
          | Some n => walk f (if is_function n then empty_body a n h else h) (rest ++ child_nodes n)%list
          end
      end
  end.

Section Modifier.
  Variable parse : string -> exc (heap * nat).
  Variable unparse : heap -> nat -> string.
  Definition remove_all_method_bodies (fuel : nat) (lines : list string) : exc (list string) :=
    andthen (parse (py_str lines)) (fun p =>
    andthen (walk fuel (fst p) [snd p]) (fun h => Val (splitlines (strip (unparse h (snd p)))))).
End Modifier.
