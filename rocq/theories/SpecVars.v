(** Which lines are taken for the variables of a class. *)
From Coq Require Import Ascii String List Arith ZArith.
From Verif Require Import SpecNames SpecText SpecPyFile SpecMethods.
Import ListNotations.
Local Open Scope string_scope.
Local Open Scope nat_scope.

Definition Has (text line : string) : Prop := exists x y, line = x ++ text ++ y.
(** The first line with the text has number [i]. *)
Definition FirstHas (text : string) (lines : list string) (i : nat) : Prop :=
  exists a l b, lines = (a ++ l :: b)%list /\ List.length a = i /\ Has text l /\ Forall (fun x => ~ Has text x) a.
(** Line [k] lies between the lines [up] and [low], and neither it nor the line before it has the mark. *)
Definition VarLine (mark : string) (lines : list string) (up : nat) (low : Z) (k : nat) : Prop :=
  up < k /\ (Z.of_nat k < low)%Z /\
  exists a before l b, lines = (a ++ before :: l :: b)%list /\ k = S (List.length a) /\ ~ Has mark before /\ ~ Has mark l.
