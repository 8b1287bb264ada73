(** Names of the elements of the sequences of a finished tree. *)
From Coq Require Import Ascii String List Bool Arith.
From Verif Require Import PyStr Strategies Dispatch Values Tree SpecNames SpecData SpecUnique.
Import ListNotations.
Local Open Scope string_scope.

Definition fixed_node (s : strategies) (x : tree) : Prop := tkind x = NSeq KTuple /\ s_tuple s = TFixed.
Definition mapping_node (x : tree) : Prop := match tkind x with NProxy | NDict _ _ => True | _ => False end.

(** Different elements have different names.  Elements of sequences other than fixed size tuples are all different. *)
Definition told_apart (s : strategies) (x : tree) : Prop :=
  forall k, tkind x = NSeq k ->
    (fixed_node s x -> forall e e', In e (tcs x) -> In e' (tcs x) -> (teq s (etree e) (etree e') = true <-> tname (etree e) = tname (etree e'))) /\
    (~ fixed_node s x -> NoDup (map (fun e => tname (etree e)) (tcs x)) /\
       forall e e', In e (tcs x) -> In e' (tcs x) -> teq s (etree e) (etree e') = true -> etree e = etree e').

(** Every node in [t] with children is in one place (entries behind a [None] key are in none). *)
Definition once_inside (t : tree) : Prop :=
  forall x e, node_of x t -> In e (tcs x) -> emult e = 1 \/ mapping_node x /\ (emult e = 0 \/ tcs (etree e) = []).

(** Where equal values get one name, no node with children inside of them is in several places: the values of several keys of a
    mapping, and elements of fixed size tuples that repeat an earlier one. *)
Record shared_once (s : strategies) (t : tree) : Prop := {
  so_values : forall x e, node_of x t -> mapping_node x -> In e (tcs x) -> ~ only_one s (tcs x) e -> once_inside (etree e);
  so_elements : forall x p e q e', node_of x t -> fixed_node s x -> tcs x = (p ++ e :: q)%list -> In e' p ->
    teq s (etree e) (etree e') = true -> once_inside (etree e)
}.
