(** Which lines belong to a private method, and the removal of lines by their indexes. *)
From Coq Require Import Ascii String List Arith ZArith Sorted Permutation.
From Verif Require Import SpecNames SpecText SpecPyFile SpecMethods.
Import ListNotations.
Local Open Scope string_scope.
Local Open Scope nat_scope.

(** The integers from [t] to [e - 1]. *)
Definition range (t e : Z) : list Z := map (fun k => (t + Z.of_nat k)%Z) (seq 0 (Z.to_nat (e - t))).

(** The signature that begins at line [i] ends at the first line with "):" or "->". *)
Definition Closed (lines : list string) (i m : Z) : Prop :=
  (i <= m)%Z /\ (forall k, (i <= k < m)%Z -> exists l, at_index lines k l /\ ~ closes l) /\ exists l, at_index lines m l /\ closes l.
(** The body consists of the lines after [m] that are more deeply indented than [sp]; one line after it is taken as well if there is one. *)
Definition BodyEnds (lines : list string) (sp : string) (m e : Z) : Prop :=
  exists b, (m < b <= Z.of_nat (List.length lines))%Z /\ (forall k, (m < k < b)%Z -> exists l, at_index lines k l /\ Deeper sp l) /\
    (b = Z.of_nat (List.length lines) /\ e = b \/ exists l, at_index lines b l /\ (b < Z.of_nat (List.length lines))%Z /\ ~ Deeper sp l /\ e = (b + 1)%Z).
(** The private method that is defined in line [p] takes the lines from [t] to [e - 1]; [t] may be negative. *)
Definition Extent (lines : list string) (p : nat) (t e : Z) : Prop :=
  exists sp def m, at_index lines (Z.of_nat p) def /\ PrivateDef sp def /\ Top lines (Z.of_nat p) t /\ Closed lines (Z.of_nat p) m /\ BodyEnds lines sp m e.

(** [Removed idxs lines out]: the lines with the indexes are taken out, one after the other. *)
Inductive Removed : list Z -> list string -> list string -> Prop :=
  | removed_nil : forall l, Removed [] l l
  | removed_one : forall i r a x b out, i = Z.of_nat (List.length a) \/ i = (- Z.of_nat (List.length (x :: b)))%Z -> Removed r (a ++ b) out ->
      Removed (i :: r) (a ++ x :: b) out.
(** The lines whose numbers satisfy [P]. *)
Inductive Kept (P : nat -> Prop) : nat -> list string -> list string -> Prop :=
  | kept_nil : forall i, Kept P i [] []
  | kept_hit : forall i l ls out, P i -> Kept P (S i) ls out -> Kept P i (l :: ls) (l :: out)
  | kept_miss : forall i l ls out, ~ P i -> Kept P (S i) ls out -> Kept P i (l :: ls) out.

(** [Assigned label i lines found]: the numbers of the lines that mention the label, with the cleaned values after their last "=". *)
Inductive Assigned (label : string) : nat -> list string -> list (nat * string) -> Prop :=
  | assigned_nil : forall i, Assigned label i [] []
  | assigned_hit : forall i l ls p v w found, Mentions label l -> SplitAtLast l p v -> Clean v w -> Assigned label (S i) ls found -> Assigned label i (l :: ls) ((i, w) :: found)
  | assigned_miss : forall i l ls found, ~ Mentions label l -> Assigned label (S i) ls found -> Assigned label i (l :: ls) found.
(** A line that mentions the label with nothing after its last "=". *)
Definition Unassigned (label l : string) : Prop := Mentions label l /\ exists p v, SplitAtLast l p v /\ blank v.
