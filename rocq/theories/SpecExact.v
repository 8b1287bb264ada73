(** Specifications without side conditions: the names the tool accepts, the nodes it visits, what repeated renaming does to a
    name.  Trees, keys and values are those of the model; nothing here refers to how they are processed. *)
From Coq Require Import Ascii String List Arith.
From Verif Require Import PyStr Strategies Dispatch Values Tree SpecNames.
Import ListNotations.
Local Open Scope string_scope.
Local Open Scope nat_scope.

(** Superscripts and fractions, which are numeric but no part of identifiers. *)
Definition numeral_sign (c : ascii) : Prop := In (code c) [178; 179; 185; 188; 189; 190].
Definition name_char (c : ascii) : Prop := id_start c \/ in_range 48 57 c \/ numeral_sign c.
(** The names that are accepted: they begin like an identifier, go on with letters, digits, underscores and numeral signs and
    are not made of underscores only. *)
Definition accepted (n : string) : Prop :=
  exists c r, n = String c r /\ id_start c /\ Forall name_char (chars r) /\ exists d, In d (chars n) /\ code d <> 95.

(** The nodes in front of any [None] key: [n] is reached from [t] by a path of entries before which, in the same mapping,
    there is no key [None]. *)
Inductive visible (n : tree) : tree -> Prop :=
  | visible_self : visible n n
  | visible_below : forall i before k m c after,
      Forall (fun e : key * nat * tree => fst (fst e) <> KNone) before -> k <> KNone -> visible n c ->
      visible n (Node i (before ++ (k, m, c) :: after)).

(** The entries in front of the first [None] key. *)
Inductive Front : list (key * nat * tree) -> list (key * nat * tree) -> Prop :=
  | front_nil : Front [] []
  | front_stop : forall m c r, Front ((KNone, m, c) :: r) []
  | front_more : forall k m c r l, k <> KNone -> Front r l -> Front ((k, m, c) :: r) ((k, m, c) :: l).
(** The visible nodes, children in front of their parents, and parents in front of their children with their level. *)
Inductive Upwards : tree -> list tree -> Prop :=
  | upwards : forall i cs l ls, Front cs l -> Forall2 (fun e => Upwards (snd e)) l ls ->
      Upwards (Node i cs) (concat ls ++ [Node i cs])%list.
Inductive Downwards : nat -> tree -> list (nat * tree) -> Prop :=
  | downwards : forall level i cs l ls, Front cs l -> Forall2 (fun e => Downwards (S level) (snd e)) l ls ->
      Downwards level (Node i cs) ((level, Node i cs) :: concat ls)%list.

(** Elements of a list without the repetitions of what was there before. *)
Inductive Firsts {A} : list A -> list A -> list A -> Prop :=
  | firsts_nil : forall seen, Firsts seen [] []
  | firsts_old : forall seen x l l', In x seen -> Firsts seen l l' -> Firsts seen (x :: l) l'
  | firsts_new : forall seen x l l', ~ In x seen -> Firsts (x :: seen) l l' -> Firsts seen (x :: l) (x :: l').

(** The elements of a list with a property, in order. *)
Inductive Chosen {A} (P : A -> Prop) : list A -> list A -> Prop :=
  | chosen_nil : Chosen P [] []
  | chosen_yes : forall x l l', P x -> Chosen P l l' -> Chosen P (x :: l) (x :: l')
  | chosen_no : forall x l l', ~ P x -> Chosen P l l' -> Chosen P (x :: l) l'.

(** Which nodes are declared: the root, functions, TypedDicts, and containers that are higher than the minimal height. *)
Definition gets_declared (s : strategies) (typed : tree -> Prop) (t : tree) : Prop :=
  i_root (ti t) = true \/ (exists f, tkind t = NFun f) \/ typed t \/
  (s_min_height s < theight t /\ ((exists k, tkind t = NSeq k) \/ tkind t = NProxy \/ exists d m, tkind t = NDict d m)).

(** [k] times the first [size] characters of a name are replaced by [new]. *)
Inductive Replaced (size : nat) (new : string) : nat -> string -> string -> Prop :=
  | replaced_0 : forall n, Replaced size new 0 n n
  | replaced_1 : forall k n old rest, Replaced size new k n (old ++ rest) ->
      String.length old = size \/ (String.length old < size /\ rest = "") ->
      Replaced size new (S k) n (new ++ rest).
(** A node that is in [m] places of its parent is renamed [m] times whenever the parent is renamed. *)
Inductive Renamed (size : nat) (new : string) : nat -> tree -> tree -> Prop :=
  | renamed : forall k n n' d h r kd ty cs cs', Replaced size new k n n' ->
      Forall2 (fun e e' => fst e = fst e' /\ Renamed size new (k * snd (fst e)) (snd e) (snd e')) cs cs' ->
      Renamed size new k (Node (Info n d h r kd ty) cs) (Node (Info n' d h r kd ty) cs').
