(** Python exceptions, negative indexes and list operations used by the file modifiers. *)
From Coq Require Import Ascii String List Bool Arith ZArith.
From Verif Require Import PyStr.
Import ListNotations.
Local Open Scope string_scope.
Local Open Scope nat_scope.

(** The exceptions raised by the modelled code. *)
Inductive py_error : Type :=
  | IndexError
  | ValueError
  | YamlError      (* YamlFileModifierError *)
  | LiveError      (* LazyTypeHintLiveError *)
  | OtherError (n : nat).

(** Result of a computation; [NoFuel] is an artefact of the model, theorems exclude it. *)
Inductive exc (A : Type) : Type := Val (a : A) | Raise (e : py_error) | NoFuel.
Arguments Val {A}. Arguments Raise {A}. Arguments NoFuel {A}.

Definition andthen {A B} (r : exc A) (f : A -> exc B) : exc B :=
  match r with Val a => f a | Raise e => Raise e | NoFuel => NoFuel end.

Definition of_option {A} (e : py_error) (o : option A) : exc A :=
  match o with Some a => Val a | None => Raise e end.

(** [[f(x) for x in l]], left to right, stopping at the first exception. *)
Fixpoint exc_map {A B} (f : A -> exc B) (l : list A) : exc (list B) :=
  match l with
  | [] => Val []
  | x :: r => andthen (f x) (fun y => andthen (exc_map f r) (fun ys => Val (y :: ys)))
  end.

(** Character [i] of a string, [None] for IndexError ([i >= 0]). *)
Fixpoint str_nth (s : string) (i : nat) : option ascii :=
  match s, i with
  | "", _ => None
  | String c _, O => Some c
  | String _ r, S j => str_nth r j
  end.

(** [l[i]] for any integer [i]: negative indexes count from the end. *)
Definition py_index (len : nat) (i : Z) : option nat :=
  if (0 <=? i)%Z then (if Nat.ltb (Z.to_nat i) len then Some (Z.to_nat i) else None)
  else let j := (Z.of_nat len + i)%Z in
       if (0 <=? j)%Z then Some (Z.to_nat j) else None.

Definition py_nth {A} (l : list A) (i : Z) : option A :=
  match py_index (List.length l) i with
  | Some k => nth_error l k
  | None => None
  end.

(** [l.insert(n, x)] for [0 <= n]. *)
Definition insert_at {A} (n : nat) (x : A) (l : list A) : list A := (firstn n l ++ x :: skipn n l)%list.

(** [l.insert(i, x)] for any integer: negative indexes count from the end and are clamped at 0. *)
Definition py_insert {A} (i : Z) (x : A) (l : list A) : list A :=
  if (0 <=? i)%Z then insert_at (Z.to_nat i) x l
  else insert_at (Z.to_nat (Z.max 0 (Z.of_nat (List.length l) + i))) x l.

(** [l[n] = x], the list unchanged outside of the range (callers check it). *)
Fixpoint set_nth {A} (n : nat) (x : A) (l : list A) : list A :=
  match l, n with
  | [], _ => []
  | _ :: r, O => x :: r
  | y :: r, S m => y :: set_nth m x r
  end.

(** [l.pop(n)] *)
Fixpoint del_nth {A} (n : nat) (l : list A) : list A :=
  match l, n with
  | [], _ => []
  | _ :: r, O => r
  | y :: r, S m => y :: del_nth m r
  end.

(** [s.replace(old, new, 1)] for one-character [old]. *)
Fixpoint replace_first (old : ascii) (new : string) (s : string) : string :=
  match s with
  | "" => ""
  | String c r => if Ascii.eqb c old then new ++ r else String c (replace_first old new r)
  end.

(** [s * n] *)
Fixpoint str_repeat (n : nat) (s : string) : string :=
  match n with O => "" | S m => s ++ str_repeat m s end.
