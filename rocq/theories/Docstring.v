(** Model of lazy_type_hint/utils/docstring_formatter.py. *)
From Coq Require Import Ascii String List Bool Arith.
From Verif Require Import PyStr.
Import ListNotations.
Local Open Scope string_scope.

Definition is_nl (c : ascii) : bool := Nat.eqb (ord c) 10.

(** docstring_formatter.py:20-33: the loop over the words of one line; [cur] is [current_substring]. *)
Fixpoint wrap (max : nat) (cur : string) (words : list string) : list string :=
  match words with
  | [] => match cur with "" => [] | _ => [cur] end
  | w :: ws =>
      if Nat.leb (String.length cur + String.length w + 1) max
      then wrap max (match cur with "" => w | _ => cur ++ " " ++ w end) ws
      else match cur with
           | "" => wrap max w ws
           | _ => cur :: wrap max w ws
           end
  end.

(** docstring_formatter.py:17-33: one line of the input ([""] for an empty line). *)
Definition split_line (max : nat) (line : string) : list string :=
  (match line with "" => [""] | _ => [] end ++ wrap max "" (split_ws line))%list.

(** docstring_formatter.py:4-34 [_split_string]. *)
Definition split_string (max : nat) (s : string) : list string :=
  flat_map (split_line max) (split_char (chr 10) s).

(** docstring_formatter.py:49-51: final period. *)
Definition with_period (s : string) : string :=
  let s := rstrip_by is_nl s in
  if endswith "." s then s else s ++ ".".

(** docstring_formatter.py:37-60 [format_string_as_docstring]. *)
Definition format_docstring (max : nat) (indentation s : string) : string :=
  let s := with_period s in
  let docstring := tq ++ s ++ tq in
  let multi := contains nl docstring in
  if Nat.leb (String.length docstring) max && negb multi then indentation ++ docstring
  else
    let substrings := split_string max s in
    if Nat.eqb (List.length substrings) 1 && negb multi then indentation ++ docstring
    else indentation ++ tq ++ nl ++ join nl (map (fun x => indentation ++ x) substrings)
         ++ nl ++ indentation ++ tq.
