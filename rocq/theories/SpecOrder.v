(** Data without dicts among the direct elements of sequences: dicts are only values of other mappings. *)
From Coq Require Import List Bool.
From Verif Require Import Values.
Import ListNotations.

Definition is_dict (v : pyval) : bool := match v with VMap MDict _ _ => true | _ => false end.
Fixpoint dicts_apart (v : pyval) : bool :=
  match v with
  | VSeq _ _ l => forallb (fun x => negb (is_dict x) && dicts_apart x) l
  | VMap _ _ kvs => forallb (fun kv => dicts_apart (snd kv)) kvs
  | _ => true
  end.
