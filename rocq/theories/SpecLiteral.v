(** String literals of Python between three double quotes (The Python Language Reference 2.4.1, version 3.8): the text, the value and what follows.
    Simplifications: the text has line feeds only at the ends of lines; the escapes [\N], [\u] and [\U] and octal numbers over 255 are left out, as they mostly stand for characters outside of the model. *)
From Coq Require Import Ascii String List Arith.
From Verif Require Import SpecNames SpecText SpecDoc.
Import ListNotations.
Local Open Scope string_scope.
Local Open Scope nat_scope.

Definition backslash (c : ascii) : Prop := code c = 92.
Definition octal (c : ascii) : Prop := 48 <= code c <= 55.
Definition hex (c : ascii) (n : nat) : Prop :=
  (48 <= code c <= 57 /\ n = code c - 48) \/ (65 <= code c <= 70 /\ n = code c - 55) \/ (97 <= code c <= 102 /\ n = code c - 87).
Definition digit8 (c : ascii) : nat := code c - 48.
(** Letters and signs that stand for one character: backslash, quotes, bell, backspace, form feed, line feed, carriage return, tabs. *)
Definition simple_escapes : list (nat * nat) := [(92, 92); (39, 39); (34, 34); (97, 7); (98, 8); (102, 12); (110, 10); (114, 13); (116, 9); (118, 11)].
Definition no_octal (r : string) : Prop := forall c t, r = String c t -> ~ octal c.
(** What follows a backslash: the text, the value and the rest of the text. *)
Inductive Escape : string -> string -> string -> Prop :=
  | esc_line : forall c r, code c = 10 -> Escape (String c r) "" r
  | esc_simple : forall c w r, In (code c, code w) simple_escapes -> Escape (String c r) (String w "") r
  | esc_octal1 : forall a w r, octal a -> no_octal r -> code w = digit8 a -> Escape (String a r) (String w "") r
  | esc_octal2 : forall a b w r, octal a -> octal b -> no_octal r -> code w = 8 * digit8 a + digit8 b -> Escape (String a (String b r)) (String w "") r
  | esc_octal3 : forall a b c w r, octal a -> octal b -> octal c -> code w = 64 * digit8 a + 8 * digit8 b + digit8 c -> Escape (String a (String b (String c r))) (String w "") r
  | esc_hex : forall x a b w r n m, code x = 120 -> hex a n -> hex b m -> code w = 16 * n + m -> Escape (String x (String a (String b r))) (String w "") r
  | esc_other : forall b c r, backslash b -> code c <> 10 -> (forall w, ~ In (code c, w) simple_escapes) -> ~ octal c -> ~ In (code c) [120; 78; 117; 85] ->
      Escape (String c r) (String b (String c "")) r.
(** After the first three quotes. *)
Inductive Long : string -> string -> string -> Prop :=
  | long_end : forall r, Long (quotes3 ++ r) "" r
  | long_char : forall c s v r, ~ backslash c -> (forall t, String c s <> quotes3 ++ t) -> Long s v r -> Long (String c s) (String c v) r
  | long_escape : forall b s w s' v r, backslash b -> Escape s w s' -> Long s' v r -> Long (String b s) (w ++ v) r.
Definition Literal (s v r : string) : Prop := exists t, s = quotes3 ++ t /\ Long t v r.

(** Text without three quotes in a row and without backslashes. *)
Definition without_quotes3 (s : string) : Prop := forall a b, s <> a ++ quotes3 ++ b.
Definition without_backslash (s : string) : Prop := Forall (fun c => ~ backslash c) (chars s).
