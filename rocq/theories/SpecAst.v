(** What two syntax trees have in common when [compare_ast] may ignore something, without reference to its code. *)
From Coq Require Import Ascii String List Arith.
From Verif Require Import Ast.
Import ListNotations.
Local Open Scope string_scope.
Local Open Scope nat_scope.

Section Essence.
  (** Whether the attribute "args" and the import statements of a "body" are ignored. *)
  Variables args imports : bool.

  Definition skipped (k : string) : bool :=
    if in_dec string_dec k ["lineno"; "end_lineno"; "col_offset"; "end_col_offset"; "ctx"] then true
    else if string_dec k "args" then args else false.
  Definition cleaned (k : string) : bool := if string_dec k "body" then imports else false.
  Definition import_statement (n : ast) : bool :=
    match n with ANode c _ => if in_dec string_dec c ["Import"; "ImportFrom"] then true else false | _ => false end.

  (** A list without the [None]s at its end. *)
  Fixpoint trim (l : list ast) : list ast :=
    match l with
    | [] => []
    | x :: r => match trim r, x with [], AConst t v => if string_dec t "NoneType" then if string_dec v "None" then [] else [x] else [x] | r', _ => x :: r' end
    end.

  (** What is left of a tree: no positions, no contexts, nothing that is ignored, no [None] at the end of a list. *)
  Fixpoint essence (n : ast) : ast :=
    match n with
    | AConst _ _ => n
    | AList l => AList (trim (map essence l))
    | ANode c fs =>
        ANode c ((fix go (fs : list (string * ast)) : list (string * ast) :=
          match fs with
          | [] => []
          | (k, v) :: r =>
              if skipped k then go r
              else (k, match v with
                       | AList l => if cleaned k then AList (trim ((fix keep (l : list ast) : list ast :=
                                      match l with [] => [] | x :: r => if import_statement x then keep r else essence x :: keep r end) l))
                                    else essence v
                       | _ => essence v
                       end) :: go r
          end) fs)
    end.

  (** A tree as [ast.parse] makes it: the attributes of a node depend on its class, each occurs once, and whether "body" is a list
      depends on the class too. *)
  Variables (attributes : string -> list string) (block : string -> bool).
  Inductive formed : ast -> Prop :=
    | formed_const : forall t v, formed (AConst t v)
    | formed_list : forall l, Forall formed l -> formed (AList l)
    | formed_node : forall c fs, NoDup (map fst fs) -> filter (fun k => negb (skipped k)) (map fst fs) = attributes c ->
        Forall (fun e => formed (snd e)) fs ->
        (forall v, In ("body", v) fs -> if block c then exists l, v = AList l else forall l, v <> AList l) ->
        formed (ANode c fs).
End Essence.
