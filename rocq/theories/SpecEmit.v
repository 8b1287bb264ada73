(** Vocabulary about the generated module: conditions on the data and what it means that no name is missing. *)
From Coq Require Import Ascii String List Arith Sorting.
From Verif Require Import PyStr SpecNames Values SpecData SpecTypes Imports Emit.
Import ListNotations.
Local Open Scope string_scope.

(** No class name and no numpy dtype of the data contains an equals sign. *)
Definition plain_texts (v : pyval) : Prop := forall x, sub x v ->
  match x with VClass _ n => ~ In "="%char (chars n) | VNdarray _ d => ~ In "="%char (chars d) | _ => True end.

(** The classes of all keys are built in ones. *)
Definition builtin_keys (v : pyval) : Prop := forall k, key_in k v -> In (ty_name (key_type k)) builtin_classes.

(** Letters and digits (including the superscripts and fractions that [str.isalnum] accepts) only. *)
Definition alnum_char (c : ascii) : Prop :=
  (id_continue c /\ code c <> 183 \/ In (code c) [178; 179; 185; 188; 189; 190]) /\ code c <> 95.
Definition solid (s : string) : Prop := Forall alnum_char (chars s).
Definition solid_types (v : pyval) : Prop :=
  (forall x, sub x v -> solid (ty_name (type_of x))) /\ (forall k, key_in k v -> solid (ty_name (key_type k))).
(** A class name such as [MyClass]. *)
Definition camel_name (s : string) : Prop :=
  solid s /\ exists c r, s = String c r /\ in_range 65 90 c.

(** A keyword of the import table provides a name. *)
Definition provides (kw x : string) : Prop :=
  (exists p, In (kw, (p, x)) PACKAGE) \/ (kw = "pandas" /\ x = "pd.Series").
Definition imported (kws : list string) (x : string) : Prop := exists kw, In kw kws /\ provides kw x.

(** Every name a declaration mentions is declared before, built in or imported. *)
Definition names_resolved (kws : list string) (ds : list decl) : Prop :=
  forall a d b, ds = (a ++ d :: b)%list -> forall x, In x (mentioned d) ->
    In x (map declared a) \/ In x builtin_classes \/ imported kws x.

(** ** Unions *)

(** [u] is the canonical union of the types spelled [l]. *)
Definition spelled (ms : list string) : string :=
  match ms with [x] => x | _ => String.append "Union[" (String.append (PyStr.join ", " ms) "]") end.
Definition canonical_union (l : list string) (u : string) : Prop :=
  (l = [] /\ u = "Any") \/
  (l <> [] /\ exists ms, StronglySorted (fun a b => String.leb a b = true) ms /\ NoDup ms /\
     (forall x, In x ms <-> In x l /\ (x = "int" -> ~ In "float" l)) /\ u = spelled ms).

(** ** Typed dicts *)

(** How a field is wrapped. *)
Definition wrapped (read_only optional : bool) (t : ty) : ty :=
  let u := if optional then TApp "NotRequired" [t] else t in if read_only then TApp "ReadOnly" [u] else u.

(** The inside of a double-quoted Python string literal and the string it denotes (the escapes of the backslash and
    of the double quote only). *)
Inductive reads : string -> string -> Prop :=
  | r_nil : reads "" ""
  | r_char : forall c t s, ~ In (code c) [34; 92; 10; 13] -> reads t s -> reads (String c t) (String c s)
  | r_bs : forall t s, reads t s -> reads (String (ascii_of_nat 92) (String (ascii_of_nat 92) t)) (String (ascii_of_nat 92) s)
  | r_dq : forall t s, reads t s -> reads (String (ascii_of_nat 92) (String (ascii_of_nat 34) t)) (String (ascii_of_nat 34) s).
(** A key that can stand between double quotes as it is. *)
Definition quotable (k : string) : Prop := forall c, In c (chars k) -> ~ In (code c) [34; 92; 10; 13].

(** ** Functions *)

(** The text of a signature: parameters and an optional return annotation. *)
Definition signature (params : string) (ret : option string) : string :=
  String.append "(" (String.append params (String.append ")"
    (match ret with Some r => String.append " -> " r | None => "" end))).
