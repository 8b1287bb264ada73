(** What a block of import statements is, independently of how the tool builds it. *)
From Coq Require Import Ascii String List Arith.
Import ListNotations.
Local Open Scope string_scope.

Definition newline : string := String (ascii_of_nat 10) "".

(** [x1 sep x2 sep ... xn]. *)
Inductive Joined (sep : string) : list string -> string -> Prop :=
  | Joined_nil : Joined sep [] ""
  | Joined_one : forall x, Joined sep [x] x
  | Joined_cons : forall x y l s, Joined sep (y :: l) s -> Joined sep (x :: y :: l) (x ++ sep ++ s).

(** Keys of the modules that are imported as a whole. *)
Definition whole_module (p : string) : Prop := p = "pandas" \/ p = "npt" \/ p = "numpy".

(** [Statement p ns s]: the statement [s] imports the symbols [ns] from package [p]. *)
Inductive Statement : string -> list string -> string -> Prop :=
  | St_pandas : Statement "pandas" ["pandas"] "import pandas as pd"
  | St_npt : Statement "npt" ["npt"] "import numpy.typing as npt"
  | St_numpy : Statement "numpy" ["numpy"] "import numpy as np"
  | St_line : forall p ns s, ~ whole_module p -> ns <> [] -> Joined ", " ns s -> Statement p ns ("from " ++ p ++ " import " ++ s)
  | St_block : forall p ns s, ~ whole_module p -> ns <> [] -> Joined ("," ++ newline ++ "    ") ns s ->
      Statement p ns ("from " ++ p ++ " import (" ++ newline ++ "    " ++ s ++ "," ++ newline ++ ")").
