(** Model of lazy_type_hint/file_modifiers/yaml_file_modifier.py.

    The text of the file is what [Path.read_text] returned (decoding and newline translation
    are not modelled).  Only the three documented comment positions are modelled. *)
From Coq Require Import Ascii String List Bool Arith ZArith.
From Verif Require Import PyStr Exc.
Import ListNotations.
Local Open Scope string_scope.
Local Open Scope nat_scope.

Definition hash_c : ascii := chr 35.
Definition colon_c : ascii := chr 58.
Definition dash_c : ascii := chr 45.
Definition dot_c : ascii := chr 46.
Definition squote_c : ascii := chr 39.
Definition dquote_c : ascii := chr 34.
Definition tab_c : ascii := chr 9.
Definition space_c : ascii := chr 32.

(** yaml_file_modifier.py:21 *)
Inductive position : Type := Above | Below | Side.
Inductive indentation : Type := Spaces | Tabs | Unclear.

(** yaml_file_modifier.py:25-33 *)
Record comment : Type := Comment {
  full_string : string;
  for_key : string;
  key_line : nat;
  spacing_kind : indentation;
  spacing_count : nat;
  replaces_dash : bool }.

(** yaml_file_modifier.py:35-42: [lst[-2] = "-"] raises IndexError for fewer than two elements. *)
Definition indent_unit (i : indentation) : string :=
  match i with Tabs => String tab_c "" | _ => " " end.
Definition spacing (c : comment) : exc string :=
  let u := indent_unit (spacing_kind c) in
  let n := spacing_count c in
  if replaces_dash c then
    if Nat.ltb n 2 then Raise IndexError
    else Val (str_repeat (n - 2) u ++ "-" ++ u)
  else Val (str_repeat n u).

(** yaml_file_modifier.py:56 *)
Definition hidden_prefix : string := "___docstring_hidden_key_".

(** The [comments_are] argument: one position or a sequence. *)
Inductive positions_arg : Type := One (p : position) | Many (ps : list position).
Definition positions_of (a : positions_arg) : list position :=
  match a with One p => [p] | Many ps => ps end.

Definition position_eqb (p q : position) : bool :=
  match p, q with Above, Above | Below, Below | Side, Side => true | _, _ => false end.
Definition pos_mem (p : position) (l : list position) : bool := existsb (position_eqb p) l.

(** [Path.suffix] of a file name (pathlib): from the last dot, provided the dot is neither the
    first nor the last character. *)
Fixpoint rfind_char_aux (c : ascii) (s : string) (i : nat) (last : option nat) : option nat :=
  match s with
  | "" => last
  | String d r => rfind_char_aux c r (S i) (if Ascii.eqb c d then Some i else last)
  end.
Definition rfind_char (c : ascii) (s : string) : option nat := rfind_char_aux c s 0 None.
Definition path_suffix (name : string) : string :=
  match rfind_char dot_c name with
  | Some i => if Nat.ltb 0 i && Nat.ltb i (String.length name - 1) then drop i name else ""
  | None => ""
  end.

Record yaml : Type := Yaml { y_name : string; y_lines : list string; y_positions : list position }.

(** yaml_file_modifier.py:63-85; the path is given by its last component, [text] is the file. *)
Definition yaml_init (name : string) (arg : positions_arg) (text : string) : exc yaml :=
  if pos_mem Above (positions_of arg) && pos_mem Below (positions_of arg) then Raise YamlError
  else if negb (endswith ".yaml" (path_suffix name) || endswith ".yml" (path_suffix name)) then Raise YamlError
  else Val (Yaml name (splitlines text) (positions_of arg)).

(** yaml_file_modifier.py:87-92 *)
Definition capitalize_first (s : string) : string :=
  match s with "" => "" | String c r => upper_char c ++ r end.

(** yaml_file_modifier.py:94-99 *)
Definition remove_spacing (line : string) : string :=
  join "" (map lstrip (split_char tab_c line)).

(** yaml_file_modifier.py:101-150.  [joined] is the loop of lines 118-145; [idx > 0] is [negb first]. *)
Definition is_empty (s : string) : bool := match s with "" => true | _ => false end.
Fixpoint drop_empty (l : list string) : list string :=
  match l with
  | "" :: r => drop_empty r
  | _ => l
  end.
Definition starts_upper (s : string) : bool :=
  match s with "" => false | String c _ => is_upper c end.
Definition ends_dot (s : string) : bool := endswith "." s.
Definition ends_nl (s : string) : bool := endswith nl s.
Definition join_step (first : bool) (result line : string) : string :=
  if is_empty line then result ++ nl ++ nl
  else if first then result ++ strip line
  else if starts_upper line then
    if ends_dot result then result ++ " " ++ strip line
    else if ends_nl result then result ++ capitalize_first (strip line)
    else result ++ ". " ++ strip line
  else
    if ends_dot result then result ++ " " ++ capitalize_first (strip line)
    else if ends_nl result then result ++ capitalize_first (strip line)
    else result ++ " " ++ strip line.
Fixpoint joined (first : bool) (result : string) (l : list string) : string :=
  match l with
  | [] => result
  | x :: r => joined false (join_step first result x) r
  end.
Definition join_comments (lines : list string) : string :=
  match rev (drop_empty (rev (drop_empty lines))) with
  | [] => ""
  | l => let result := joined true "" l in
         if is_empty result then result
         else if ends_dot result then result else result ++ "."
  end.

(** yaml_file_modifier.py:218-240; both quote characters toggle the same flag. *)
Definition is_quote (c : ascii) : bool := Ascii.eqb c squote_c || Ascii.eqb c dquote_c.
Fixpoint find_unquoted_aux (occ : ascii) (quoted : bool) (i : nat) (line : string) : option nat :=
  match line with
  | "" => None
  | String c r =>
      if is_quote c then find_unquoted_aux occ (negb quoted) (S i) r
      else if Ascii.eqb c occ && negb quoted then Some i
      else find_unquoted_aux occ quoted (S i) r
  end.
Definition find_unquoted (occ : ascii) (line : string) : option nat := find_unquoted_aux occ false 0 line.

(** [if not idx]: [None] and 0 are both false. *)
Definition truthy_index (o : option nat) : option nat :=
  match o with Some (S i) => Some (S i) | _ => None end.

(** yaml_file_modifier.py:152-171 *)
Definition side_comment (line : string) : string :=
  match truthy_index (find_unquoted hash_c line) with
  | None => ""
  | Some idx =>
      match str_nth line (idx - 1) with
      | Some c =>
          if Ascii.eqb c space_c then
            let comment := rstrip (strip (drop (idx + 1) line)) in
            if negb (is_empty comment) && negb (ends_dot comment) then comment ++ "." else comment
          else ""
      | None => ""
      end
  end.

(** yaml_file_modifier.py:204-207: the loop; [None] when the model's fuel runs out. *)
Fixpoint block_lines (fuel : nat) (lines : list string) (col : nat) (i step : Z) : option (list string) :=
  match fuel with
  | O => None
  | S fuel' =>
      match py_nth lines i with
      | None => Some []
      | Some l =>
          match str_nth l col with
          | Some c =>
              if Ascii.eqb c hash_c
              then option_map (cons (strip (drop (col + 1) l))) (block_lines fuel' lines col (i + step) step)
              else Some []
          | None => Some []
          end
      end
  end.

Definition sq3 : string := String squote_c (String squote_c (String squote_c "")).

(** yaml_file_modifier.py:173-216; [above] is [comments_are == "above"]. *)
Definition block_comment (lines : list string) (idx : nat) (above : bool) : exc string :=
  match nth_error lines idx with
  | None => Val ""
  | Some line =>
      match truthy_index (find_unquoted colon_c line) with
      | None => Val ""
      | Some _ =>
          match strip (remove_char dash_c (strip line)) with
          | "" => Raise IndexError
          | String c _ =>
              let col := match find_str (String c "") line with Some i => i | None => 0 end in
              let step := if above then (-1)%Z else 1%Z in
              match block_lines (S (2 * List.length lines)) lines col (Z.of_nat idx + step) step with
              | None => NoFuel
              | Some [] => Val ""
              | Some ls =>
                  let string := join_comments (if above then rev ls else ls) in
                  Val (replace tq "" (replace sq3 "" string))
              end
          end
      end
  end.

(** yaml_file_modifier.py:242-265 *)
Definition strip_char (c : ascii) (s : string) : string := strip_by (Ascii.eqb c) s.
Definition key_of_line (line0 : string) : exc string :=
  match remove_spacing line0 with
  | "" => Raise IndexError
  | String c r =>
      let line := if Ascii.eqb c dash_c then String space_c r else String c r in
      match strip line with
      | "" => Raise IndexError
      | String f _ =>
          let first := match find_str (String f "") line with Some i => i | None => 0 end in
          match truthy_index (find_unquoted colon_c line) with
          | None => Val ""
          | Some last =>
              let k := drop first (take last line) in
              if startswith dq k && endswith dq k then Val (strip_char dquote_c k)
              else if startswith (String squote_c "") k && endswith (String squote_c "") k
              then Val (strip_char squote_c k)
              else Val k
          end
      end
  end.

(** yaml_file_modifier.py:267-290 *)
Definition detect_indentation (lines : list string) : indentation :=
  let tabs := existsb (contains (String tab_c "")) lines in
  let spaces := existsb (contains " ") lines in
  if tabs && spaces then Unclear else if tabs then Tabs else if spaces then Spaces else Unclear.

(** yaml_file_modifier.py:292-313 *)
Fixpoint leading (p : ascii -> bool) (s : string) : nat :=
  match s with
  | "" => 0
  | String c r => if p c then S (leading p r) else 0
  end.
Definition is_indent (c : ascii) : bool := Ascii.eqb c space_c || Ascii.eqb c tab_c.
Definition dash_to_space (c : ascii) : ascii := if Ascii.eqb c dash_c then space_c else c.
Definition count_indent (line : string) (i : indentation) : option nat :=
  match i with
  | Tabs => if contains "-" line then None else Some (leading is_indent (str_map dash_to_space line))
  | _ => Some (leading is_indent (str_map dash_to_space line))
  end.

(** yaml_file_modifier.py:341-360: the comments of one line. *)
Definition comment_at (lines : list string) (idx : nat) (line : string) (p : position) : exc string :=
  match p with
  | Above => andthen (block_comment lines idx true) (fun c => Val (capitalize_first c))
  | Below => andthen (block_comment lines idx false) (fun c => Val (capitalize_first c))
  | Side => Val (side_comment line)
  end.
Fixpoint line_comments (lines : list string) (ind : indentation) (idx : nat) (line key : string) (n : nat)
    (dash : bool) (ps : list position) : exc (list comment) :=
  match ps with
  | [] => Val []
  | p :: r =>
      andthen (comment_at lines idx line p) (fun c =>
      andthen (line_comments lines ind idx line key n dash r) (fun cs =>
      Val (if is_empty c then cs else Comment c key idx ind n dash :: cs)))
  end.

(** yaml_file_modifier.py:330-339 *)
Definition comments_of_line (y : yaml) (ind : indentation) (idx : nat) (line : string) : exc (list comment) :=
  match remove_spacing line with
  | "" => Val []
  | String c _ =>
      if is_alpha c || Ascii.eqb c dash_c then
        match count_indent line ind with
        | None => Val []
        | Some n =>
            andthen (key_of_line line) (fun key =>
            if is_empty key then Val []
            else line_comments (y_lines y) ind idx line key n (Ascii.eqb c dash_c) (y_positions y))
        end
      else Val []
  end.
Fixpoint comments_from (y : yaml) (ind : indentation) (idx : nat) (rest : list string) : exc (list comment) :=
  match rest with
  | [] => Val []
  | line :: r =>
      andthen (comments_of_line y ind idx line) (fun cs =>
      andthen (comments_from y ind (S idx) r) (fun cs' => Val (cs ++ cs')%list))
  end.

(** yaml_file_modifier.py:379-404 *)
Fixpoint group_add (c : comment) (gs : list (nat * list comment)) : list (nat * list comment) :=
  match gs with
  | [] => [(key_line c, [c])]
  | (k, l) :: r => if Nat.eqb k (key_line c) then (k, (l ++ [c])%list) :: r else (k, l) :: group_add c r
  end.
Definition group_comments (cs : list comment) : list (nat * list comment) :=
  fold_left (fun gs c => group_add c gs) cs [].
Definition merge_group (g : nat * list comment) : exc comment :=
  match snd g with
  | [] => Raise IndexError
  | c :: _ => Val (Comment (join (nl ++ nl) (map full_string (snd g))) (for_key c) (key_line c)
                     (spacing_kind c) (spacing_count c) (existsb replaces_dash (snd g)))
  end.
Definition merge_comments (cs : list comment) : exc (list comment) := exc_map merge_group (group_comments cs).

(** yaml_file_modifier.py:315-362 *)
Definition extract_comments (y : yaml) : exc (list comment) :=
  match detect_indentation (y_lines y) with
  | Unclear => Val []
  | ind => andthen (comments_from y ind 0 (y_lines y)) merge_comments
  end.

(** yaml_file_modifier.py:364-377 *)
Definition format_comment (c : comment) : string :=
  join (nl ++ str_repeat (spacing_count c + 1) (indent_unit (spacing_kind c)))
    ("" :: splitlines (full_string c)).

(** [sorted(comments, key=key_line, reverse=True)]: stable, descending. *)
Fixpoint insert_desc (c : comment) (l : list comment) : list comment :=
  match l with
  | [] => [c]
  | d :: r => if Nat.leb (key_line d) (key_line c) then c :: l else d :: insert_desc c r
  end.
Fixpoint sort_desc (l : list comment) : list comment :=
  match l with [] => [] | c :: r => insert_desc c (sort_desc r) end.

(** yaml_file_modifier.py:411-416 *)
Definition doc_entry (c : comment) : exc string :=
  andthen (spacing c) (fun sp => Val (sp ++ (hidden_prefix ++ for_key c) ++ ": |" ++ format_comment c)).
Definition insert_comment (c : comment) (lines : list string) : exc (list string) :=
  andthen (doc_entry c) (fun entry =>
  andthen (if replaces_dash c
           then andthen (of_option IndexError (nth_error lines (key_line c))) (fun l =>
                Val (set_nth (key_line c) (replace_first dash_c " " l) lines))
           else Val lines) (fun lines' =>
  Val (insert_at (key_line c) entry lines'))).
Fixpoint insert_comments (cs : list comment) (lines : list string) : exc (list string) :=
  match cs with
  | [] => Val lines
  | c :: r => andthen (insert_comment c lines) (insert_comments r)
  end.

(** yaml_file_modifier.py:406-417 *)
Definition rewritten_lines (y : yaml) : exc (list string) :=
  andthen (extract_comments y) (fun cs => insert_comments (sort_desc cs) (y_lines y)).
Definition temporary_string (y : yaml) : exc string :=
  andthen (rewritten_lines y) (fun ls => Val (join nl ls)).
