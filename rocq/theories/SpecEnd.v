(** What it means that the text of a class file describes data: how the text is read, and what its declarations say. *)
From Coq Require Import Ascii String List Bool Arith.
From Verif Require Import Exc PyStr Strategies Values Tree Build Emit SpecNames SpecData SpecTypes SpecEmit SpecImports SpecModules SpecSound SpecUnique SpecClear Live PropsOutput.
Import ListNotations.
Local Open Scope string_scope.
Local Open Scope nat_scope.

(** A statement: the module, the names that are imported from it, and the text. *)
Definition stmt : Type := string * list string * string.
Definition s_module (x : stmt) : string := fst (fst x).
Definition s_names (x : stmt) : list string := snd (fst x).
Definition s_text (x : stmt) : string := snd x.
(** A statement that Python 3.8 accepts. *)
Definition importable (x : stmt) : Prop :=
  Statement (s_module x) (s_names x) (s_text x) /\
  (module_import (s_text x) \/ ~ whole_module (s_module x) /\ s_names x <> [] /\ incl (s_names x) (offers (s_module x))).
(** One statement per line or lines, possibly with an empty line after the first one. *)
Definition import_block (stmts : list stmt) (block : string) : Prop :=
  Forall importable stmts /\
  (Joined newline (map s_text stmts) block \/ exists h t, map s_text stmts = h :: t /\ Joined newline ((h ++ newline) :: t) block).
(** The names that the statements bring. *)
Definition brought (stmts : list stmt) (x : string) : Prop :=
  exists st n, In st stmts /\ In n (s_names st) /\ (x = n \/ s_module st = "pandas" /\ x = "pd.Series").

(** The text is a block of imports and declarations. *)
Definition Reads (text : string) (stmts : list stmt) (ds : list decl) : Prop :=
  exists block, import_block stmts block /\ Forall readable ds /\ Layout (block :: map print_decl ds) text.

(** The declarations can be executed in order, declare every name once, and the class [c] is a type of [v]. *)
Definition Describes (text c : string) (v : pyval) : Prop :=
  exists stmts ds, Reads text stmts ds /\ NoDup (map declared ds) /\
    (forall a d b, ds = (a ++ d :: b)%list -> forall x, In x (mentioned d) -> In x (map declared a) \/ In x builtin_classes \/ brought stmts x) /\
    accepts ds (TName c) v.

(** The conditions of C09 on data and the name of its class. *)
Record describable (s : strategies) (c : string) (v : pyval) : Prop := Describable {
  de_tidy : tidy s v;
  de_clear : clear_data s v;
  de_names : names_ok s v c;
  de_letters : letter_types v;
  de_apart : name_apart c v;
  de_plain : plain c;
  de_identifier : identifier c;
  de_letter : has_letter_or_digit c }.

(** The text that [LazyTypeHint.from_data(data, class_name).to_string()] returns, by the model of the generator. *)
Definition class_text (s : strategies) (ord : set_order) (v : pyval) (c : string) : exc string :=
  match Build.from_data s ord v c with
  | Ok t => match to_string s t true with Some x => Val x | None => Raise ValueError end
  | _ => Raise ValueError
  end.

(** The data that a history gives for a class. *)
Definition gives (o : @op pyval) (c : string) (v : pyval) : Prop :=
  match o with Use _ v' c' => v' = v /\ c' = c | Crash v' c' _ _ => v' = v /\ c' = c | _ => False end.
Definition given (os : list (@op pyval)) (c : string) (v : pyval) : Prop := exists o, In o os /\ gives o c v.
