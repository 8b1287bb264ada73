(** Where a file defines a method: lines, indexes from both ends and decorators. *)
From Coq Require Import Ascii String List Arith ZArith.
From Verif Require Import SpecNames SpecText SpecPyFile.
Import ListNotations.
Local Open Scope string_scope.
Local Open Scope nat_scope.

(** The line begins with [def] and a name that begins with [name]. *)
Definition DefLine (name line : string) : Prop := exists sp r, line = sp ++ "def " ++ name ++ r /\ blank sp.
(** Names do not end with white space, and are not empty. *)
Definition proper (name : string) : Prop := exists u c, name = u ++ String c "" /\ ~ white c.

(** [Positions P i lines ps]: the numbers of the lines with [P], in order, if the first line has number [i]. *)
Inductive Positions (P : string -> Prop) : nat -> list string -> list nat -> Prop :=
  | positions_nil : forall i, Positions P i [] []
  | positions_hit : forall i l ls ps, P l -> Positions P (S i) ls ps -> Positions P i (l :: ls) (i :: ps)
  | positions_miss : forall i l ls ps, ~ P l -> Positions P (S i) ls ps -> Positions P i (l :: ls) ps.

(** The line with index [i]; negative indexes count from the end. *)
Definition at_index (lines : list string) (i : Z) (l : string) : Prop :=
  exists a b, lines = (a ++ l :: b)%list /\ (i = Z.of_nat (List.length a) \/ i = (- Z.of_nat (List.length (l :: b)))%Z).

(** The first of the lines with an at sign directly above line [i]. *)
Definition Top (lines : list string) (i j : Z) : Prop :=
  (j <= i)%Z /\ (forall m, (j <= m < i)%Z -> exists l, at_index lines m l /\ has_at l) /\ exists l, at_index lines (j - 1) l /\ ~ has_at l.

(** [Marked text lines ps found]: the numbers before those of [ps] whose line contains [text]. *)
Inductive Marked (text : string) (lines : list string) : list nat -> list Z -> Prop :=
  | marked_nil : Marked text lines [] []
  | marked_hit : forall p ps found l x y, at_index lines (Z.of_nat p - 1) l -> l = x ++ text ++ y -> Marked text lines ps found ->
      Marked text lines (p :: ps) ((Z.of_nat p - 1)%Z :: found)
  | marked_miss : forall p ps found l, at_index lines (Z.of_nat p - 1) l -> (forall x y, l <> x ++ text ++ y) -> Marked text lines ps found ->
      Marked text lines (p :: ps) found.

(** A signature ends at the first line with a closing parenthesis or a colon. *)
Definition stops (l : string) : Prop := In (ascii_of_nat 41) (chars l) \/ In (ascii_of_nat 58) (chars l).
Definition Ends (lines : list string) (i m : Z) : Prop :=
  (i <= m)%Z /\ (forall k, (i <= k < m)%Z -> exists l, at_index lines k l /\ ~ stops l) /\ exists l, at_index lines m l /\ stops l.
(** [lines[i:j]] *)
Definition Between (lines : list string) (i j : Z) (block : list string) : Prop :=
  exists a b, lines = (a ++ block ++ b)%list /\
    (place (List.length lines) i <= place (List.length lines) j /\ List.length a = place (List.length lines) i /\ List.length (a ++ block) = place (List.length lines) j \/
     place (List.length lines) j <= place (List.length lines) i /\ block = []).
