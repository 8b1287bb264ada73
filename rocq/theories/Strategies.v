(** Model of lazy_type_hint/strategies.py. *)
From Coq Require Import ZArith String List Bool.
From Verif Require Import PyStr.
Import ListNotations.
Local Open Scope string_scope.

(** strategies.py:10-20: the arguments as the caller gives them (any string, any integer).
    Simplification: values of another Python type than the annotated one are not modelled. *)
Record raw_strategies : Type := Raw {
  r_list : string;
  r_tuple : string;
  r_dict : string;
  r_pandas : string;
  r_min_height : Z;
  r_key_doc : string;
  r_merge : Z;
  r_read_only : bool;
  r_max_n : option Z
}.

(** strategies.py:4-7. *)
Definition LIST_STRATEGIES := ["Sequence"; "list"].
Definition TUPLE_SIZE_STRATEGIES := ["fixed"; "any size"].
Definition MAPPING_STRATEGIES := ["TypedDict"; "Mapping"; "dict"].
Definition PANDAS_STRATEGIES :=
  ["Full type hint"; "Type hint only for autocomplete"; "Do not type hint columns"].

Inductive strategy_error :=
  | InvalidLiteral (field : string)
  | MinHeightNegative
  | MergeNotPositive
  | MergeAbove100
  | MaxNNotPositive.

(** strategies.py:22-43 [__post_init__]; [None] means that the object is constructed.
    The loop over [fields] visits the fields in declaration order; only the four literal fields
    have string-valued [get_args]. *)
Definition post_init (s : raw_strategies) : option strategy_error :=
  if negb (mem (r_list s) LIST_STRATEGIES) then Some (InvalidLiteral "list_strategy")
  else if negb (mem (r_tuple s) TUPLE_SIZE_STRATEGIES) then Some (InvalidLiteral "tuple_size_strategy")
  else if negb (mem (r_dict s) MAPPING_STRATEGIES) then Some (InvalidLiteral "dict_strategy")
  else if negb (mem (r_pandas s) PANDAS_STRATEGIES) then Some (InvalidLiteral "pandas_strategies")
  else if Z.ltb (r_min_height s) 0 then Some MinHeightNegative
  else if Z.leb (r_merge s) 0 then Some MergeNotPositive
  else if Z.ltb 100 (r_merge s) then Some MergeAbove100
  else match r_max_n s with
       | Some n => if negb (Z.eqb n 0) && Z.leb n 0 then Some MaxNNotPositive else None
       | None => None
       end.

(** The validated strategies, as the rest of the code sees them. *)
Inductive list_strategy := LSequence | LList.
Inductive tuple_strategy := TFixed | TAnySize.
Inductive dict_strategy := DTypedDict | DMapping | DDict.
Inductive pandas_strategy := PFull | PAutocomplete | PNoColumns.

Record strategies : Type := Strategies {
  s_list : list_strategy;
  s_tuple : tuple_strategy;
  s_dict : dict_strategy;
  s_pandas : pandas_strategy;
  s_min_height : nat;
  s_key_doc : string;
  s_merge : nat;
  s_read_only : bool;
  s_max_n : option nat
}.

(** strategies.py:12-20: the default values. *)
Definition default_strategies : strategies :=
  Strategies LList TFixed DTypedDict PFull 1 "" 50 false (Some 500).

(** Translation of accepted arguments. *)
Definition validated (s : raw_strategies) : option strategies :=
  match post_init s with
  | Some _ => None
  | None =>
      Some (Strategies
        (if String.eqb (r_list s) "Sequence" then LSequence else LList)
        (if String.eqb (r_tuple s) "fixed" then TFixed else TAnySize)
        (if String.eqb (r_dict s) "TypedDict" then DTypedDict
         else if String.eqb (r_dict s) "Mapping" then DMapping else DDict)
        (if String.eqb (r_pandas s) "Full type hint" then PFull
         else if String.eqb (r_pandas s) "Type hint only for autocomplete" then PAutocomplete else PNoColumns)
        (Z.to_nat (r_min_height s)) (r_key_doc s) (Z.to_nat (r_merge s)) (r_read_only s)
        (option_map Z.to_nat (r_max_n s)))
  end.

(** The code tests the limit with [if n_elements_to_check and idx >= n_elements_to_check]
    (set_and_sequence_operations.py:49), so 0 means the same as None. *)
Definition effective_limit (s : strategies) : option nat :=
  match s_max_n s with Some (S n) => Some (S n) | _ => None end.
