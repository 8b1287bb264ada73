(** Model of [__repr__] and [print_all_children] (data_type_tree/data_type_tree.py:291-292, 310-316). *)
From Coq Require Import Ascii String List Bool Arith.
From Verif Require Import PyStr Exc Dispatch Values Tree.
Import ListNotations.
Local Open Scope string_scope.
Local Open Scope nat_scope.

(** [type(self).__name__] *)
Definition class_name (k : nkind) : string :=
  match k with
  | NInst => "InstanceDataTypeTree"
  | NFun _ => "FunctionDataTypeTree"
  | NClass _ => "TypeDataTypeTree"
  | NModule => "ModuleTypeDataTypeTree"
  | NIO => "IoDataTypeTree"
  | NNumpy _ => "NumpyDataTypeTree"
  | NSeq KList => "ListDataTypeTree"
  | NSeq KTuple => "TupleDataTypeTree"
  | NSeq KSet => "SetDataTypeTree"
  | NSeq KIter => "IteratorDataTypeTree"
  | NSeq KSeries => "PandasSeriesDataTypeTree"
  | NProxy => "MappingProxyDataTypeTree"
  | NDict _ _ => "DictDataTypeTree"
  end.
Definition tree_repr (t : tree) : string := class_name (tkind t) ++ "-" ++ tname t.

(** The lines printed.  The argument [recursive] is only passed on.  [for child in self] stops at a child under the key [None]. *)
Fixpoint print_all_children (recursive : bool) (t : tree) {struct t} : list string :=
  (str_repeat (i_depth (ti t)) "    " ++ tree_repr t) ::
  match t with
  | Node _ cs => (fix go (cs : list (key * nat * tree)) : list string :=
      match cs with
      | [] => []
      | (k, _, c) :: r => match k with KNone => [] | _ => (print_all_children recursive c ++ go r)%list end
      end) cs
  end.
