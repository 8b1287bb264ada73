(** Python [str] operations used by lazy_type_hint.

    A Python string is a Coq [string]; each [ascii] is the Unicode code point of
    the same number (0-255, i.e. the Latin-1 range).  The character predicates are
    those of CPython's Unicode database restricted to that range.  Code points
    above 255 are not modelled. *)
From Coq Require Import Ascii String List Bool Arith Lia.
From Coq Require Import Decimal DecimalString.
Import ListNotations.
Local Open Scope string_scope.

(** Code point of a character. *)
Definition ord (c : ascii) : nat := nat_of_ascii c.
Definition chr (n : nat) : ascii := ascii_of_nat n.

Definition between (a b n : nat) : bool := Nat.leb a n && Nat.leb n b.

(** [str.isupper] of one character: A-Z, U+00C0-U+00DE without the multiplication sign. *)
Definition is_upper (c : ascii) : bool :=
  let n := ord c in between 65 90 n || between 192 214 n || between 216 222 n.

(** [str.isalpha] of one character. *)
Definition is_alpha (c : ascii) : bool :=
  let n := ord c in
  between 65 90 n || between 97 122 n || Nat.eqb n 170 || Nat.eqb n 181 || Nat.eqb n 186
  || between 192 214 n || between 216 246 n || between 248 255 n.

(** [str.isdecimal], which is also what the regular expression [\d] accepts. *)
Definition is_decimal (c : ascii) : bool := between 48 57 (ord c).

(** [str.isnumeric]: decimal digits, superscripts one/two/three, vulgar fractions. *)
Definition is_numeric (c : ascii) : bool :=
  let n := ord c in
  is_decimal c || Nat.eqb n 178 || Nat.eqb n 179 || Nat.eqb n 185 || Nat.eqb n 188 || Nat.eqb n 189 || Nat.eqb n 190.

Definition is_alnum_char (c : ascii) : bool := is_alpha c || is_numeric c.

(** [str.isspace] of one character; also the regular expression [\s]. *)
Definition is_space (c : ascii) : bool :=
  let n := ord c in between 9 13 n || between 28 32 n || Nat.eqb n 133 || Nat.eqb n 160.

(** Regular expression [\w]. *)
Definition is_word_char (c : ascii) : bool := is_alnum_char c || Nat.eqb (ord c) 95.

(** Line boundaries recognised by [str.splitlines]. *)
Definition is_linebreak (c : ascii) : bool :=
  let n := ord c in between 10 13 n || between 28 30 n || Nat.eqb n 133.

(** [str.lower] of one character. *)
Definition lower_char (c : ascii) : ascii := if is_upper c then chr (ord c + 32) else c.

(** [str.upper] of one character.  The micro sign (181) and y-diaeresis (255) have
    upper case forms outside of Latin-1; the model leaves them alone. *)
Definition upper_char (c : ascii) : string :=
  let n := ord c in
  if Nat.eqb n 223 then "SS"
  else if between 97 122 n || between 224 246 n || between 248 254 n
  then String (chr (n - 32)) "" else String c "".

Fixpoint str_map (f : ascii -> ascii) (s : string) : string :=
  match s with "" => "" | String c r => String (f c) (str_map f r) end.

Definition lower (s : string) : string := str_map lower_char s.

Fixpoint upper (s : string) : string :=
  match s with "" => "" | String c r => upper_char c ++ upper r end.

(** [str.capitalize]: the title case of sharp s is "Ss". *)
Definition capitalize (s : string) : string :=
  match s with
  | "" => ""
  | String c r => (if Nat.eqb (ord c) 223 then "Ss" else upper_char c) ++ lower r
  end.

Fixpoint str_forall (p : ascii -> bool) (s : string) : bool :=
  match s with "" => true | String c r => p c && str_forall p r end.

Fixpoint str_exists (p : ascii -> bool) (s : string) : bool :=
  match s with "" => false | String c r => p c || str_exists p r end.

(** [str.isalnum]: false on the empty string. *)
Definition isalnum (s : string) : bool :=
  match s with "" => false | _ => str_forall is_alnum_char s end.

(** [s.replace(c, "")] for a single character. *)
Fixpoint remove_char (c : ascii) (s : string) : string :=
  match s with
  | "" => ""
  | String d r => if Ascii.eqb c d then remove_char c r else String d (remove_char c r)
  end.

(** [s.startswith(p)]. *)
Fixpoint startswith (p s : string) : bool :=
  match p, s with
  | "", _ => true
  | String c p', String d s' => Ascii.eqb c d && startswith p' s'
  | _, _ => false
  end.

(** [s[n:]] *)
Fixpoint drop (n : nat) (s : string) : string :=
  match n, s with
  | O, _ => s
  | S n', String _ r => drop n' r
  | S _, "" => ""
  end.

(** [s[:n]] *)
Fixpoint take (n : nat) (s : string) : string :=
  match n, s with
  | O, _ => ""
  | S n', String c r => String c (take n' r)
  | S _, "" => ""
  end.

(** [s.endswith(p)]. *)
Definition endswith (p s : string) : bool :=
  Nat.leb (String.length p) (String.length s) && String.eqb (drop (String.length s - String.length p) s) p.

(** [sub in s]. *)
Fixpoint contains (sub s : string) : bool :=
  startswith sub s || match s with "" => false | String _ r => contains sub r end.

(** [s.find(sub)], [None] for -1. *)
Fixpoint find_str (sub s : string) : option nat :=
  if startswith sub s then Some 0
  else match s with "" => None | String _ r => option_map S (find_str sub r) end.

(** [s.split(c)] for a single character separator: never empty. *)
Fixpoint split_char (c : ascii) (s : string) : list string :=
  match s with
  | "" => [""]
  | String d r =>
      if Ascii.eqb c d then "" :: split_char c r
      else match split_char c r with
           | [] => [String d ""]
           | h :: t => String d h :: t
           end
  end.

(** [s.replace(old, new)] for a non-empty [old], scanning left to right without overlap. *)
Fixpoint replace_fuel (fuel : nat) (old new s : string) : string :=
  match fuel with
  | O => s
  | S fuel' =>
      match s with
      | "" => ""
      | String c r =>
          if startswith old s then new ++ replace_fuel fuel' old new (drop (String.length old) s)
          else String c (replace_fuel fuel' old new r)
      end
  end.
Definition replace (old new s : string) : string := replace_fuel (String.length s) old new s.

(** [s.lstrip] with the characters given by a predicate. *)
Fixpoint lstrip_by (p : ascii -> bool) (s : string) : string :=
  match s with
  | "" => ""
  | String c r => if p c then lstrip_by p r else s
  end.

(** [s.rstrip] with the characters given by a predicate. *)
Fixpoint rstrip_by (p : ascii -> bool) (s : string) : string :=
  match s with
  | "" => ""
  | String c r =>
      match rstrip_by p r with
      | "" => if p c then "" else String c ""
      | r' => String c r'
      end
  end.

Definition strip_by (p : ascii -> bool) (s : string) : string := rstrip_by p (lstrip_by p s).
Definition strip (s : string) : string := strip_by is_space s.
Definition lstrip (s : string) : string := lstrip_by is_space s.
Definition rstrip (s : string) : string := rstrip_by is_space s.

(** [sep.join(l)]. *)
Fixpoint join (sep : string) (l : list string) : string :=
  match l with
  | [] => ""
  | [x] => x
  | x :: r => x ++ sep ++ join sep r
  end.

(** [s.split()]: maximal runs of non-space characters. *)
Fixpoint split_ws_aux (s : string) (acc : string) : list string :=
  match s with
  | "" => match acc with "" => [] | _ => [acc] end
  | String c r =>
      if is_space c
      then match acc with "" => split_ws_aux r "" | _ => acc :: split_ws_aux r "" end
      else split_ws_aux r (acc ++ String c "")
  end.
Definition split_ws (s : string) : list string := split_ws_aux s "".

(** [s.splitlines()]. *)
Fixpoint splitlines_aux (s : string) (acc : string) : list string :=
  match s with
  | "" => match acc with "" => [] | _ => [acc] end
  | String c r =>
      if is_linebreak c
      then match r with
           | String d r' =>
               if Nat.eqb (ord c) 13 && Nat.eqb (ord d) 10 then acc :: splitlines_aux r' ""
               else acc :: splitlines_aux r ""
           | "" => [acc]
           end
      else splitlines_aux r (acc ++ String c "")
  end.
Definition splitlines (s : string) : list string := splitlines_aux s "".

(** [str(n)] for a natural number. *)
Definition str_of_nat (n : nat) : string := NilEmpty.string_of_uint (Nat.to_uint n).

(** Number of occurrences of a character: [s.count(c)]. *)
Fixpoint count_char (c : ascii) (s : string) : nat :=
  match s with
  | "" => 0
  | String d r => (if Ascii.eqb c d then 1 else 0) + count_char c r
  end.

(** Membership of a string in a list of strings ([x in xs]). *)
Definition mem (x : string) (l : list string) : bool := existsb (String.eqb x) l.

(** [sorted]: insertion sort for the code point order. *)
Fixpoint insert (x : string) (l : list string) : list string :=
  match l with
  | [] => [x]
  | y :: r => if String.leb x y then x :: l else y :: insert x r
  end.
Fixpoint sort (l : list string) : list string :=
  match l with [] => [] | x :: r => insert x (sort r) end.

(** [list(dict.fromkeys(l))]: first occurrences, in order. *)
Fixpoint dedup (l : list string) : list string :=
  match l with
  | [] => []
  | x :: r => x :: filter (fun y => negb (String.eqb x y)) (dedup r)
  end.

Definition nl : string := String (chr 10) "".
Definition TAB : string := "    ".
Definition dquote : ascii := chr 34.
Definition dq : string := String dquote "".
Definition tq : string := dq ++ dq ++ dq.
