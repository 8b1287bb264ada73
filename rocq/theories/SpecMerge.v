(** When dicts are merged and which keys are optional, stated on the dicts themselves. *)
From Coq Require Import Ascii String List Arith.
From Verif Require Import Strategies Dispatch Values SpecData.
Import ListNotations.

Definition dict := list (key * pyval).
Definition has_key (k : key) (d : dict) : Prop := In k (map fst d).
Definition string_keys (d : dict) : Prop := forall k, has_key k d -> exists s, k = KStr s.

(** A Python dict has every key once. *)
Definition unique_keys (v : pyval) : Prop := forall mk t kvs, sub (VMap mk t kvs) v -> NoDup (map fst kvs).

(** The keys that count: those that are not documentation keys. *)
Definition in_all (ds : list dict) (k : key) : Prop := ~ doc_key k /\ ds <> [] /\ forall d, In d ds -> has_key k d.
Definition in_some (ds : list dict) (k : key) : Prop := ~ doc_key k /\ exists d, In d ds /\ has_key k d.
(** [n] is the number of keys satisfying [P]. *)
Definition number_of (P : key -> Prop) (n : nat) : Prop :=
  exists l, NoDup l /\ (forall k, In k l <-> P k) /\ List.length l = n.

(** The runtime types of the values under [k], in the order of the dicts. *)
Definition types_under (k : key) (ds : list dict) : list nat :=
  flat_map (fun d => map (fun kv => ty_id (type_of (snd kv))) (filter (fun kv => key_eqb k (fst kv)) d)) ds.
(** One runtime type; ints and floats count as one when the last value is a float. *)
Definition one_type (l : list nat) : Prop :=
  (exists t, forall x, In x l -> x = t) \/
  (exists l', l = (l' ++ [t_float])%list /\ forall x, In x l' -> x = t_int \/ x = t_float).

(** The merge condition with an exact percentage. *)
Definition similar_enough (threshold common total : nat) : Prop := 0 < total /\ threshold * total <= 100 * common.
(** The value types agree key by key (documentation keys included). *)
Definition types_agree (ds : list dict) : Prop :=
  forall k d, In d ds -> has_key k d -> one_type (types_under k ds).

(** The string-keyed dicts of a list. *)
Definition string_keyb (k : key) : bool := match k with KStr _ => true | _ => false end.
Definition string_dicts (l : list pyval) : list dict :=
  flat_map (fun v => match v with
                     | VMap MDict _ d => if forallb (fun kv => string_keyb (fst kv)) d then [d] else []
                     | _ => [] end) l.
(** [d] has the visible keys of one of the dicts [ds] and takes every value from one of them. *)
Definition stands_for (ds : list dict) (d : dict) : Prop :=
  (exists d0, In d0 ds /\ forall k, ~ doc_key k -> (has_key k d <-> has_key k d0)) /\
  (forall k x, In (k, x) d -> exists d0, In d0 ds /\ In (k, x) d0).
