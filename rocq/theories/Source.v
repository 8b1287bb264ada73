(** Model of [FunctionDataTypeTree._has_return] (data_type_tree/simple_data_type_tree/function_data_type_tree.py:76-84).

    Parameters: the result of [inspect.getsource] for the function and [ast.parse].  The syntax tree is a heap of nodes as in [Bodies.v];
    [ast.walk] is the loop of [Bodies.walk], here the nodes are only looked at.
    [textwrap.dedent] (standard library, textwrap.py): lines with nothing but spaces and tabs become empty, then the longest common
    beginning of spaces and tabs of the other lines is removed.  A text is looked at line by line (regular expressions with MULTILINE). *)
From Coq Require Import Ascii String List Bool Arith.
From Verif Require Import PyStr Exc Ast Bodies Values.
Import ListNotations.
Local Open Scope string_scope.
Local Open Scope nat_scope.

(** ** [textwrap.dedent] *)
Definition is_blank (c : ascii) : bool := Nat.eqb (ord c) 32 || Nat.eqb (ord c) 9.
Definition cleared (l : string) : string := if str_forall is_blank l then "" else l.
Fixpoint indent_of (l : string) : string :=
  match l with
  | "" => ""
  | String c r => if is_blank c then String c (indent_of r) else ""
  end.
(** [for i, (x, y) in enumerate(zip(margin, indent)): if x != y: margin = margin[:i]; break] *)
Fixpoint common (a b : string) : string :=
  match a, b with
  | String x r, String y t => if Ascii.eqb x y then String x (common r t) else ""
  | _, _ => ""
  end.
Definition narrow (margin : option string) (indent : string) : option string :=
  match margin with
  | None => Some indent
  | Some m => Some (if startswith m indent then m else if startswith indent m then indent else common m indent)
  end.
Definition is_nil (s : string) : bool := match s with "" => true | _ => false end.
Definition margin_of (ls : list string) : option string :=
  fold_left narrow (map indent_of (filter (fun l => negb (is_nil l)) ls)) None.
Definition cut (m l : string) : string := if startswith m l then drop (String.length m) l else l.
Definition dedent (text : string) : string :=
  let ls := map cleared (split_char (chr 10) text) in
  match margin_of ls with
  | None => join nl ls
  | Some m => if is_nil m then join nl ls else join nl (map (cut m) ls)
  end.

(** ** Line 84: [any(isinstance(node, ast.Return) for node in ast.walk(tree))] *)
Fixpoint any_return (fuel : nat) (h : heap) (todo : list nat) : exc bool :=
  match fuel with
  | O => NoFuel
  | S f =>
      match todo with
      | [] => Val false
      | a :: rest =>
          match nth_error h a with
          | None => NoFuel
          | Some n => if String.eqb (n_class n) "Return" then Val true else any_return f h (rest ++ child_nodes n)%list
          end
      end
  end.

Section Function.
  Variable source : exc string.
  Variable parse : string -> exc (heap * nat).
  (** Lines 76-84; [None] is the value returned in line 82. *)
  Definition has_return (fuel : nat) : exc (option bool) :=
    andthen source (fun text =>
    match parse (dedent text) with
    | Val (h, root) => andthen (any_return fuel h [root]) (fun b => Val (Some b))
    | Raise _ => Val None
    | NoFuel => NoFuel
    end).
  (** What [_get_protocol_str] (lines 50-55) asks: [not self._has_return()]. *)
  Definition answer (fuel : nat) : option bool :=
    match has_return fuel with
    | Val (Some b) => Some b
    | Val None => Some false
    | _ => None
    end.
  Definition inspected (ty : pytype) (lambda : bool) (sig : option (string * nat)) (fuel : nat) : pyfun := PyFun ty lambda sig (answer fuel).
End Function.
