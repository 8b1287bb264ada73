(** Model of [PyFileModifier] (lazy_type_hint/file_modifiers/py_file_modifier.py:8-289).

    The object is its list of lines.  As in the code, one element of the list may hold several lines of
    text: [add_line] joins a sequence with line feeds and inserts one element.
    [remove_all_method_bodies] (166-184) is modelled on syntax trees in Bodies.v.
    Indexes are integers: negative ones count from the end, as in Python.  The loops of the code are
    bounded by fuel; [NoFuel] never results ([no_fuel_*] in PyFileFacts.v). *)
From Coq Require Import Ascii String List Bool Arith ZArith.
From Verif Require Import PyStr Exc.
Import ListNotations.
Local Open Scope string_scope.
Local Open Scope nat_scope.

Definition dquote_char : ascii := ascii_of_nat 34.
Definition squote_char : ascii := ascii_of_nat 39.
Definition eq_char : ascii := ascii_of_nat 61.
Definition is_quote (c : ascii) : bool := Ascii.eqb c dquote_char || Ascii.eqb c squote_char.

(** __init__ (11-12), __str__ (14-15) *)
Definition py_read (text : string) : list string := splitlines text.
Definition py_str (lines : list string) : string := join nl lines.

(** [line.split(keyword)[0]]; an empty separator is a ValueError. *)
Definition before (keyword line : string) : exc string :=
  match keyword with
  | "" => Raise ValueError
  | _ => match find_str keyword line with Some i => Val (take i line) | None => Val line end
  end.

(** it_is_string (94-98) *)
Definition it_is_string (line keyword : string) : exc bool :=
  andthen (before keyword line) (fun b => Val (str_exists is_quote b)).

(** [l[-1]] of [line.split("=")] *)
Definition last_field (line : string) : string := last (split_char eq_char line) "".

(** Lines 43-45: [value[0]] is an IndexError for an empty value; quotes are stripped by [value[1:-1]]. *)
Definition assigned_value (line : string) : exc string :=
  let value := strip (last_field line) in
  match value with
  | "" => Raise IndexError
  | String c r => Val (if is_quote c then take (String.length r - 1) r else value)
  end.

(** The condition of line 42. *)
Definition assigns (variable line : string) : exc bool :=
  if contains variable line && contains "=" line
  then andthen (it_is_string line variable) (fun b => Val (negb b))
  else Val false.

(** search_assignment (28-50), from line number [idx] on. *)
Fixpoint search_assignment_from (idx : nat) (variable : string) (lines : list string) : exc (list (nat * string)) :=
  match lines with
  | [] => Val []
  | line :: rest =>
      andthen (assigns variable line) (fun b =>
      if (b : bool)
      then andthen (assigned_value line) (fun v =>
           andthen (search_assignment_from (S idx) variable rest) (fun l => Val ((idx, v) :: l)))
      else search_assignment_from (S idx) variable rest)
  end.
Definition search_assignment (variable : string) (lines : list string) : exc (list (nat * string)) :=
  search_assignment_from 0 variable lines.

Definition line_at (lines : list string) (i : Z) : exc string := of_option IndexError (py_nth lines i).

(** The loop of lines 89-90: the first index, going up, whose line above has no "@". *)
Fixpoint walk_up (fuel : nat) (lines : list string) (idx : Z) : exc Z :=
  match fuel with
  | O => NoFuel
  | S f => andthen (line_at lines (idx - 1)) (fun l =>
           if contains "@" l then walk_up f lines (idx - 1)%Z else Val idx)
  end.

(** The condition of line 87. *)
Definition defines (name line : string) : exc bool :=
  if startswith ("def " ++ name) (strip line)
  then andthen (it_is_string line name) (fun b => Val (negb b))
  else Val false.

(** search_method (73-92) *)
Fixpoint search_method_from (above : bool) (idx : nat) (name : string) (all lines : list string) : exc (list Z) :=
  match lines with
  | [] => Val []
  | line :: rest =>
      andthen (defines name line) (fun b =>
      if (b : bool)
      then andthen (if above then walk_up (idx + List.length all + 1) all (Z.of_nat idx) else Val (Z.of_nat idx)) (fun i =>
           andthen (search_method_from above (S idx) name all rest) (fun l => Val (i :: l)))
      else search_method_from above (S idx) name all rest)
  end.
Definition search_method (above : bool) (name : string) (lines : list string) : exc (list Z) :=
  search_method_from above 0 name lines lines.

(** search_decorator (52-71): the inner loop ends after one round. *)
Definition search_decorator (decorator name : string) (lines : list string) : exc (list Z) :=
  andthen (search_method false name lines) (fun idxs =>
  andthen (exc_map (fun idx =>
      andthen (line_at lines (idx - 1)) (fun l =>
      Val (if contains "@" l && contains ("@" ++ decorator) l then [(idx - 1)%Z] else []))) idxs)
    (fun ls => Val (concat ls))).

(** add_line (100-111) *)
Definition add_line (idx : Z) (line : string) (lines : list string) : list string := py_insert idx line lines.
Definition add_lines (idx : Z) (new : list string) (lines : list string) : list string :=
  py_insert idx (join nl new) lines.

(** search_line (113-126) *)
Fixpoint search_line_from (idx : nat) (keyword : string) (lines : list string) : exc nat :=
  match lines with
  | [] => Raise ValueError
  | line :: rest => if contains keyword line then Val idx else search_line_from (S idx) keyword rest
  end.
Definition search_line (keyword : string) (lines : list string) : exc nat := search_line_from 0 keyword lines.

(** [lines[idx] = line] *)
Definition set_line (idx : Z) (line : string) (lines : list string) : exc (list string) :=
  match py_index (List.length lines) idx with
  | Some k => Val (set_nth k line lines)
  | None => Raise IndexError
  end.

(** replace_line (128-136) *)
Definition replace_line (idx : Z) (line : string) (lines : list string) : exc (list string) := set_line idx line lines.

(** Lines 159-164. *)
Definition with_value (line value : string) : string :=
  join "=" (removelast (split_char eq_char line) ++ [value])%list.
Definition replace_assignment_at (idx : Z) (value : string) (lines : list string) : exc (list string) :=
  andthen (line_at lines idx) (fun line =>
  if contains "=" line then set_line idx (with_value line value) lines else Raise ValueError).

(** replace_assignement (138-164) with a label; [replace_assignment_at] is the call with an index. *)
Definition replace_assignment (label value : string) (lines : list string) : exc (list string) :=
  andthen (search_assignment label lines) (fun found =>
  match found with
  | [(idx, _)] => replace_assignment_at (Z.of_nat idx) value lines
  | _ => Raise ValueError
  end).

(** add_imports (250-269); a single string is a sequence of one. *)
Definition add_imports (new : list string) (in_block : bool) (lines : list string) : exc (list string) :=
  if in_block
  then andthen (search_line "if TYPE_CHECKING:" lines) (fun i =>
       Val (fold_left (fun ls x => insert_at (S i) x ls) (rev (map (fun x => TAB ++ x) new)) lines))
  else Val (fold_left (fun ls x => insert_at 0 x ls) (rev new) lines).

(** get_signature (271-289): the text, and the bounds of the slice. *)
Fixpoint walk_down (fuel : nat) (lines : list string) (idx : Z) : exc Z :=
  match fuel with
  | O => NoFuel
  | S f => andthen (line_at lines idx) (fun l =>
           if contains ")" l || contains ":" l then Val idx else walk_down f lines (idx + 1)%Z)
  end.

(** [l[i:j]] for any integers. *)
Definition clamp (len : nat) (i : Z) : nat :=
  if (0 <=? i)%Z then Nat.min (Z.to_nat i) len else Z.to_nat (Z.max 0 (Z.of_nat len + i)).
Definition slice {A} (i j : Z) (l : list A) : list A :=
  let a := clamp (List.length l) i in
  firstn (clamp (List.length l) j - a) (skipn a l).

(** [l[-1]]: IndexError for the empty list. *)
Definition last_of (l : list Z) : exc Z := match rev l with [] => Raise IndexError | x :: _ => Val x end.

Definition get_signature (name : string) (lines : list string) : exc string :=
  andthen (search_method true name lines) (fun idxs =>
  andthen (last_of idxs) (fun upper =>
  andthen (walk_down (2 * List.length lines + 1) lines upper) (fun bottom =>
  Val (join nl (slice upper (bottom + 1) lines))))).

(** ** Removal of private methods (186-233) *)

(** [sorted(l)[::-1]] *)
Fixpoint insert_desc (x : Z) (l : list Z) : list Z :=
  match l with
  | [] => [x]
  | y :: r => if (y <=? x)%Z then x :: l else y :: insert_desc x r
  end.
Fixpoint sort_desc (l : list Z) : list Z :=
  match l with [] => [] | x :: r => insert_desc x (sort_desc r) end.

Definition pop (lines : list string) (idx : Z) : exc (list string) :=
  match py_index (List.length lines) idx with
  | Some k => Val (del_nth k lines)
  | None => Raise IndexError
  end.
Fixpoint pops (idxs : list Z) (lines : list string) : exc (list string) :=
  match idxs with
  | [] => Val lines
  | i :: r => andthen (pop lines i) (pops r)
  end.

Definition is_private (line : string) : bool :=
  startswith "def _" (strip line) && negb (startswith "def __" (strip line)).

(** Lines 203-205: the decorators above, nearest first. *)
Fixpoint decorators_above (fuel : nat) (lines : list string) (idx : Z) : exc (list Z) :=
  match fuel with
  | O => NoFuel
  | S f => andthen (line_at lines idx) (fun l =>
           if contains "@" l then andthen (decorators_above f lines (idx - 1)%Z) (fun r => Val (idx :: r))
           else Val [])
  end.

(** Lines 212-214: the remaining lines of the signature. *)
Fixpoint rest_of_signature (fuel : nat) (lines : list string) (idx : Z) : exc (list Z * Z) :=
  match fuel with
  | O => NoFuel
  | S f => andthen (line_at lines idx) (fun l =>
           if contains "):" l || contains "->" l then Val ([], idx)
           else andthen (rest_of_signature f lines (idx + 1)%Z) (fun r => Val ((idx + 1)%Z :: fst r, snd r)))
  end.

(** Lines 218-223 *)
Fixpoint leading_spaces (s : string) : nat :=
  match s with "" => 0 | String c r => if is_space c then S (leading_spaces r) else 0 end.

(** Lines 225-230, on the lines from [idx] on: the body and one line after it. *)
Definition deeper (spaces : nat) (line : string) : bool :=
  match str_nth line spaces with Some c => is_space c | None => false end.
Fixpoint body_after (spaces idx : nat) (rest : list string) : list Z :=
  match rest with
  | [] => []
  | l :: r => if deeper spaces l then Z.of_nat idx :: body_after spaces (S idx) r else [Z.of_nat idx]
  end.

Definition lines_of_private (lines : list string) (idx : nat) (line : string) : exc (list Z) :=
  andthen (decorators_above (idx + List.length lines + 1) lines (Z.of_nat idx - 1)) (fun decs =>
  andthen (rest_of_signature (List.length lines + 1) lines (Z.of_nat idx)) (fun sig =>
  let next := S (Z.to_nat (snd sig)) in
  Val (decs ++ [Z.of_nat idx] ++ fst sig ++ body_after (leading_spaces line) next (skipn next lines))%list)).

Fixpoint private_lines_from (idx : nat) (all lines : list string) : exc (list Z) :=
  match lines with
  | [] => Val []
  | line :: rest =>
      if is_private line
      then andthen (lines_of_private all idx line) (fun a =>
           andthen (private_lines_from (S idx) all rest) (fun b => Val (a ++ b)%list))
      else private_lines_from (S idx) all rest
  end.

Definition remove_all_private_methods (lines : list string) : exc (list string) :=
  andthen (private_lines_from 0 lines lines) (fun idxs => pops (sort_desc idxs) lines).

(** remove_all_instance_variables (235-248) *)
Fixpoint pop_range (idxs : list nat) (lines : list string) : exc (list string) :=
  match idxs with
  | [] => Val lines
  | i :: r =>
      andthen (line_at lines (Z.of_nat i)) (fun l =>
      andthen (if contains "classes_created" l then Val l else line_at lines (Z.of_nat i - 1)) (fun l' =>
      if contains "classes_created" l' then pop_range r lines
      else andthen (pop lines (Z.of_nat i)) (pop_range r)))
  end.
Definition remove_all_instance_variables (class_name : string) (lines : list string) : exc (list string) :=
  andthen (search_line ("class " ++ class_name ++ "(") lines) (fun up =>
  andthen (search_method true "__init__" lines) (fun idxs =>
  andthen (last_of idxs) (fun low =>
  pop_range (rev (seq (S up) (Z.to_nat low - S up))) lines))).
