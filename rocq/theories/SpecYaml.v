(** What rewriting a YAML file should mean, without reference to the model of the tool. *)
From Coq Require Import Ascii String List Arith.
From Verif Require Import SpecNames SpecText SpecImports.
Import ListNotations.
Local Open Scope string_scope.
Local Open Scope nat_scope.

Definition char (n : nat) : ascii := ascii_of_nat n.
Definition lf : string := String (char 10) "".

(** ** Quoted scalars: a quoted scalar ends at the next occurrence of the quote that opened it. *)
Definition quote (c : ascii) : Prop := code c = 39 \/ code c = 34.

(** [outside a]: after reading [a] one is not inside a quoted scalar. *)
Inductive outside : string -> Prop :=
  | outside_nil : outside ""
  | outside_plain : forall c r, ~ quote c -> outside r -> outside (String c r)
  | outside_quoted : forall q w r, quote q -> ~ In q (chars w) -> outside r ->
      outside (String q (w ++ String q r)).

(** [i] is the index of the first [c] of the line that is not inside quotes. *)
Definition first_outside (c : ascii) (line : string) (i : nat) : Prop :=
  exists a b, line = a ++ String c b /\ String.length a = i /\ outside a /\
  forall a' b', line = a' ++ String c b' -> outside a' -> String.length a <= String.length a'.

(** Lines in which no quoted scalar contains the other quote character; the last scalar may be open. *)
Inductive simple_quotes : string -> Prop :=
  | simple_nil : simple_quotes ""
  | simple_plain : forall c r, ~ quote c -> simple_quotes r -> simple_quotes (String c r)
  | simple_scalar : forall q w r, quote q -> (forall c, In c (chars w) -> ~ quote c) -> simple_quotes r ->
      simple_quotes (String q (w ++ String q r))
  | simple_open : forall q w, quote q -> (forall c, In c (chars w) -> ~ quote c) -> simple_quotes (String q w).

(** [even_quotes a]: the quote characters of [a], of both kinds, can be grouped in pairs. *)
Inductive even_quotes : string -> Prop :=
  | even_nil : even_quotes ""
  | even_plain : forall c r, ~ quote c -> even_quotes r -> even_quotes (String c r)
  | even_pair : forall p w q r, quote p -> quote q -> (forall c, In c (chars w) -> ~ quote c) -> even_quotes r ->
      even_quotes (String p (w ++ String q r)).
(** [i] is the index of the first [c] of the line with an even number of quote characters before it. *)
Definition first_even (c : ascii) (line : string) (i : nat) : Prop :=
  exists a b, line = a ++ String c b /\ String.length a = i /\ even_quotes a /\
  forall a' b', line = a' ++ String c b' -> even_quotes a' -> String.length a <= String.length a'.

(** ** Rewriting *)
Definition indent (s : string) : Prop := Forall (fun c => code c = 32 \/ code c = 9) (chars s).

(** [Entry dash key e]: [e] is a block scalar entry ("|") for the documentation of [key]; its lines are
    indented more deeply than the entry itself; [dash]: the entry starts a list item. *)
Inductive Entry : bool -> string -> string -> Prop :=
  | Entry_plain : forall sp key deep texts,
      indent sp -> indent deep -> String.length sp < String.length deep ->
      Entry false key (sp ++ "___docstring_hidden_key_" ++ key ++ ": |" ++
                       String.concat "" (map (fun t => lf ++ deep ++ t) texts))
  | Entry_dash : forall sp u key deep texts,
      indent sp -> indent u -> String.length u = 1 -> indent deep ->
      String.length sp + 2 < String.length deep ->
      Entry true key (sp ++ "-" ++ u ++ "___docstring_hidden_key_" ++ key ++ ": |" ++
                      String.concat "" (map (fun t => lf ++ deep ++ t) texts)).

(** [KeyOf dash key line]: [key] is the mapping key written on the line (possibly quoted), which is
    the first thing of the line after white space and, when [dash], one list dash. *)
Definition KeyOf (dash : bool) (key line : string) : Prop :=
  exists sp item q1 q2 rest,
    line = sp ++ item ++ q1 ++ key ++ q2 ++ ":" ++ rest /\
    blank sp /\
    (if dash then exists sp', item = "-" ++ sp' /\ blank sp' else item = "") /\
    Forall quote (chars q1) /\ Forall quote (chars q2).

(** [Rewritten old new]: the new lines are the old ones in order, some of them with an entry directly
    above; a line whose entry took over the list dash has a space in place of that dash. *)
Inductive Rewritten : list string -> list string -> Prop :=
  | Rewritten_nil : Rewritten [] []
  | Rewritten_keep : forall l old new, Rewritten old new -> Rewritten (l :: old) (l :: new)
  | Rewritten_doc : forall key e l old new,
      Entry false key e -> (~ In (char 9) (chars l) -> KeyOf false key l) ->
      Rewritten old new -> Rewritten (l :: old) (e :: l :: new)
  | Rewritten_dash : forall key e sp r old new,
      Entry true key e -> blank sp -> (~ In (char 9) (chars (sp ++ "-" ++ r)) -> KeyOf true key (sp ++ "-" ++ r)) ->
      Rewritten old new -> Rewritten ((sp ++ "-" ++ r) :: old) (e :: (sp ++ " " ++ r) :: new).

(** ** Block comments *)
(** [t] is [s] without white space at both ends. *)
Definition Trimmed (s t : string) : Prop :=
  exists a b, s = a ++ t ++ b /\ blank a /\ blank b /\
  (t = "" \/ exists c r, t = String c r /\ ~ white c) /\ (t = "" \/ exists r c, t = r ++ String c "" /\ ~ white c).

(** The line has a [#] in column [col] and the text [t] after it. *)
Definition hash_at (col : nat) (line t : string) : Prop :=
  exists a b, line = a ++ "#" ++ b /\ String.length a = col /\ Trimmed b t.

(** The column of the key of a line: the first character that is neither white space nor a dash. *)
Definition key_column (line : string) (col : nat) : Prop :=
  exists a c b, line = a ++ String c b /\ String.length a = col /\
  Forall (fun d => white d \/ code d = 45) (chars a) /\ ~ white c /\ code c <> 45.

(** [block]: the maximal run of lines directly above line [idx] with a [#] in column [col];
    [texts]: what they say, top to bottom. *)
Definition block_above (lines : list string) (idx col : nat) (block texts : list string) : Prop :=
  Forall2 (hash_at col) block texts /\
  exists pre, firstn idx lines = (pre ++ block)%list /\
  (pre = [] \/ exists pre' l, pre = (pre' ++ [l])%list /\ forall t, ~ hash_at col l t).
Definition block_below (lines : list string) (idx col : nat) (block texts : list string) : Prop :=
  Forall2 (hash_at col) block texts /\
  exists post, skipn (S idx) lines = (block ++ post)%list /\
  (post = [] \/ exists post' l, post = l :: post' /\ forall t, ~ hash_at col l t).

(** ** Words of a comment: the first letter may be capitalised and a period may be appended. *)
Definition upper_of (c : ascii) (u : string) : Prop :=
  u = String c "" \/ (exists d, u = String d "" /\ code d + 32 = code c) \/ (code c = 223 /\ u = "SS").
Inductive kept : string -> string -> Prop :=
  | kept_intro : forall c u t d, upper_of c u -> d = "" \/ d = "." -> kept (String c t) (u ++ t ++ d).

Definition triple_free (s : string) : Prop :=
  forall q a b, quote q -> s <> a ++ String q (String q (String q b)).

(** [Doc texts s]: [s] is a docstring made from the comment lines [texts]. *)
Definition Doc (texts : list string) (s : string) : Prop :=
  (s = "" \/ exists u, s = u ++ ".") /\
  (Forall triple_free texts -> exists wss ws', Forall2 Words texts wss /\ Words s ws' /\ Forall2 kept (List.concat wss) ws').
