(** Model of [compare_ast] (utils/utils.py:24-61).  The second tree is changed in place (line 43), so the comparison also returns it.
    Simplifications: constants are a type and a text, equal if both are (no NaN); nodes are not shared; a "body" that is no list cannot be
    iterated over. *)
From Coq Require Import Ascii String List Bool Arith.
From Verif Require Import PyStr Exc.
Import ListNotations.
Local Open Scope string_scope.
Local Open Scope nat_scope.

(** A node with its class and attributes ([vars]), a list, or a constant with its type. *)
Inductive ast : Type :=
  | ANode (cls : string) (fields : list (string * ast))
  | AList (l : list ast)
  | AConst (type value : string).
Definition none : ast := AConst "NoneType" "None".
Definition AttributeError : py_error := OtherError 1.
Definition TypeError : py_error := OtherError 2.

Fixpoint getattr (k : string) (fs : list (string * ast)) : option ast :=
  match fs with [] => None | (n, v) :: r => if String.eqb k n then Some v else getattr k r end.
Fixpoint setattr (k : string) (v : ast) (fs : list (string * ast)) : list (string * ast) :=
  match fs with [] => [(k, v)] | (n, x) :: r => if String.eqb k n then (n, v) :: r else (n, x) :: setattr k v r end.

(** utils.py:36 *)
Definition POSITIONS : list string := ["lineno"; "end_lineno"; "col_offset"; "end_col_offset"; "ctx"].
(** utils.py:41 [isinstance(n, (ast.Import, ast.ImportFrom))] *)
Definition is_import (n : ast) : bool := match n with ANode c _ => mem c ["Import"; "ImportFrom"] | _ => false end.
Definition is_none (n : ast) : bool := match n with AConst t v => String.eqb t "NoneType" && String.eqb v "None" | _ => false end.

(** [compare a b = Val (r, b')]: the comparison returns [r] and [b'] is what [b] has become. *)
Fixpoint compare_ast (ignore_args ignore_imports : bool) (n1 n2 : ast) {struct n1} : exc (bool * ast) :=
  (* utils.py:54-58: all(...) over zip_longest; the imports of the first list have been taken out if [skip] *)
  let cmp_list := fix cmp_list (skip : bool) (l1 l2 : list ast) {struct l1} : exc (bool * list ast) :=
    match l1 with
    | [] => Val (forallb is_none l2, l2)
    | x :: r =>
        if skip && is_import x then cmp_list skip r l2
        else match l2 with
             | [] => andthen (compare_ast ignore_args ignore_imports x none) (fun b =>
                       if fst b then cmp_list skip r [] else Val (false, []))
             | y :: s => andthen (compare_ast ignore_args ignore_imports x y) (fun b =>
                           if fst b then andthen (cmp_list skip r s) (fun c => Val (fst c, snd b :: snd c)) else Val (false, snd b :: s))
             end
    end in
  match n1, n2 with
  | ANode c fields, ANode c' fields' =>
      if String.eqb c c' then
        (* utils.py:35-52 *)
        andthen ((fix loop (fs : list (string * ast)) (cur : list (string * ast)) {struct fs} : exc (bool * list (string * ast)) :=
          match fs with
          | [] => Val (true, cur)
          | (k, v) :: r =>
              if mem k POSITIONS then loop r cur
              else if ignore_args && String.eqb k "args" then loop r cur
              else match getattr k cur with
                   | None => Raise AttributeError
                   | Some x =>
                       andthen (match v with
                                | AList l1 =>
                                    if ignore_imports && String.eqb k "body" then
                                      match x with
                                      | AList l2 => andthen (cmp_list true l1 (filter (fun n => negb (is_import n)) l2)) (fun b => Val (fst b, AList (snd b)))
                                      | _ => Raise TypeError
                                      end
                                    else compare_ast ignore_args ignore_imports v x
                                | _ => compare_ast ignore_args ignore_imports v x
                                end) (fun b =>
                         if fst b then loop r (setattr k (snd b) cur) else Val (false, setattr k (snd b) cur))
                   end
          end) fields fields') (fun b => Val (fst b, ANode c' (snd b)))
      else Val (false, n2)
  | AList l1, AList l2 => andthen (cmp_list false l1 l2) (fun b => Val (fst b, AList (snd b)))
  | AConst t v, AConst t' v' => Val (String.eqb t t' && String.eqb v v', n2)
  | _, _ => Val (false, n2)
  end.
