(** How the text of a YAML file is read, for the part of YAML that configuration files mostly use: block mappings with plain keys, block
    sequences with one space after the dash, values in one line, literal and folded texts ([|] and [>]) and comments.  Nothing here
    refers to the tool.

    What stands in one line after a colon or a dash (numbers, quoted texts, flow sequences, comments behind them) is read by a parameter
    [inline].  Simplifications: keys without quotes; texts below a key, that begin with a line
    that is not empty; no tabs, anchors, tags, documents, indentation indicators, and no other values that go on in the next line. *)
From Coq Require Import Ascii String List Bool Arith.
From Verif Require Import SpecNames SpecText SpecYaml SpecLines Dispatch Values.
Import ListNotations.
Local Open Scope string_scope.
Local Open Scope nat_scope.

Fixpoint pad (n : nat) : string := match n with 0 => "" | S m => " " ++ pad m end.

(** The characters that YAML admits, of the first 256, without the tabulator and the ends of lines. *)
Definition printable (c : ascii) : Prop := 32 <= code c <= 126 \/ 160 <= code c.

(** Lines without contents: blank lines and comments. *)
Definition idle (l : string) : Prop := exists n r, l = pad n ++ r /\ (r = "" \/ exists t, r = "#" ++ t).

(** Plain keys: a letter or underscore, then anything but quotes and colons; spaces only inside and not before a hash. *)
Definition ascii_letter (c : ascii) : Prop := 65 <= code c <= 90 \/ 97 <= code c <= 122.
Definition key_name (k : string) : Prop :=
  (exists c r, k = String c r /\ (ascii_letter c \/ code c = 95)) /\
  Forall (fun c => (code c = 32 \/ ~ white c) /\ ~ quote c /\ code c <> 58) (chars k) /\
  (forall a, k <> a ++ " ") /\ (forall a b, k <> a ++ " #" ++ b).

(** After the colon of a key comes a space or the end of the line. *)
Definition spaced (rest : string) : Prop := rest = "" \/ exists r, rest = " " ++ r.
(** A literal or folded text begins. *)
Definition header (rest : string) : Prop := exists n r, rest = pad n ++ "|" ++ r \/ rest = pad n ++ ">" ++ r.
(** Nothing but a comment. *)
Definition bare (rest : string) : Prop := exists n r, rest = pad n ++ r /\ (r = "" \/ (0 < n /\ exists t, r = "#" ++ t)).
(** The only thing of a list item, in one line. *)
Definition single (rest : string) : Prop :=
  (exists c r, rest = String c r /\ ~ white c /\ code c <> 35 /\ ~ (code c = 45 /\ spaced r)) /\ ~ header rest /\ ~ In (char 58) (chars rest).

(** The line of a key in column [column n dash]. *)
Definition bullet (dash : bool) : string := if dash then "- " else "".
Definition key_at (n : nat) (dash : bool) (key rest : string) : string := pad n ++ bullet dash ++ key ++ ":" ++ rest.
Definition column (n : nat) (dash : bool) : nat := if dash then n + 2 else n.

(** ** Texts of several lines *)
(** Literal or folded, and what becomes of the ends of the last lines: removed ([-]), only one kept, or all kept ([+]). *)
Inductive chomp : Type := Removed | Single | All.
Definition sign (ch : chomp) : string := match ch with Removed => "-" | Single => "" | All => "+" end.
Definition text_header (folded : bool) (ch : chomp) (rest : string) : Prop :=
  exists n r, rest = pad (S n) ++ (if folded then ">" else "|") ++ sign ch ++ r /\ bare r.
(** A line of a text indented by [m] and what it adds to the text. *)
Definition content (m : nat) (l c : string) : Prop := l = pad m ++ c \/ (c = "" /\ exists k, k < m /\ l = pad k).
Fixpoint newlines (n : nat) : string := match n with 0 => "" | S m => lf ++ newlines m end.
(** Folding: a single end of a line becomes a space, of more the first is left out, except next to lines that are indented further. *)
Definition flush (l : string) : bool := match l with String c _ => negb (Nat.eqb (code c) 32) | "" => false end.
Fixpoint folding (before : string) (gap : nat) (ls : list string) : string :=
  match ls with
  | [] => ""
  | "" :: more => folding before (S gap) more
  | l :: more => (if flush before && flush l then match gap with 0 => " " | _ => newlines gap end else newlines (S gap)) ++ l ++ folding l 0 more
  end.
Definition body_text (folded : bool) (first : string) (more : list string) : string :=
  if folded then first ++ folding first 0 more else String.concat lf (first :: more).
(** [n] ends of lines from the last line with contents on, before the empty lines [empty] and the rest [ls] of the file; [E]: the last line
    of the file has an end. *)
Definition breaks (E : Prop) (empty ls : list string) (n : nat) : Prop :=
  ((E \/ ls <> []) /\ n = S (List.length empty)) \/ (~ E /\ ls = [] /\ n = List.length empty).
Definition ending (ch : chomp) (n : nat) : string :=
  match ch with Removed => "" | Single => match n with 0 => "" | _ => lf end | All => newlines n end.
(** The first line gives the indentation. *)
Definition block_text (E : Prop) (folded : bool) (ch : chomp) (m : nat) (body ls : list string) (text : string) : Prop :=
  exists first more empty n, Forall2 (content m) body ((first :: more) ++ empty)%list /\ (exists c r, first = String c r /\ code c <> 32) /\
    Forall (eq "") empty /\ last (first :: more) "" <> "" /\ breaks E empty ls n /\ text = body_text folded first more ++ ending ch n.
(** What follows a text: nothing, or a line that is indented less. *)
Definition dedented (m : nat) (ls : list string) : Prop :=
  ls = [] \/ exists k c r ls', ls = (pad k ++ String c r) :: ls' /\ k < m /\ code c <> 32.

(** A line that does not look like a key, with or without a dash. *)
Definition quiet (l : string) : Prop := exists n r, l = pad n ++ r /\
  (r = "" \/ (exists c t, r = String c t /\ ~ white c /\ code c <> 45 /\ ((code c < 128 /\ ~ ascii_letter c) \/ ~ In (char 58) (chars l))) \/
   (exists c t, r = "- " ++ String c t /\ ~ white c /\ ~ In (char 58) (chars l))).

(** ** Tokens, with the numbers of their lines *)
Inductive token : Type :=
  | TKey (line col : nat) (key rest : string)
  | TText (line col : nat) (key text : string)
  | TDash (col : nat)
  | TItem (col : nat) (rest : string).
Definition bullets (n : nat) (dash : bool) : list token := if dash then [TDash n] else [].

(** [E]: the last line of the file has an end.  [P]: a condition on the lines of texts and on lines with more than one dash. *)
Inductive Tokens (E : Prop) (P : string -> Prop) : nat -> list string -> list token -> Prop :=
  | tk_nil : forall i, Tokens E P i [] []
  | tk_idle : forall i l ls ts, idle l -> Tokens E P (S i) ls ts -> Tokens E P i (l :: ls) ts
  | tk_key : forall i n dash key rest ls ts, key_name key -> spaced rest -> ~ header rest -> Tokens E P (S i) ls ts ->
      Tokens E P i (key_at n dash key rest :: ls) (bullets n dash ++ TKey i (column n dash) key rest :: ts)
  | tk_text : forall i n dash key rest folded ch m body text ls ts, key_name key -> text_header folded ch rest ->
      block_text E folded ch m body ls text -> Forall P body -> column n dash < m -> dedented m ls ->
      Tokens E P (S (i + List.length body)) ls ts ->
      Tokens E P i (key_at n dash key rest :: (body ++ ls)) (bullets n dash ++ TText i (column n dash) key text :: ts)
  | tk_nested : forall i n rest ls ts, P (pad n ++ "- - " ++ rest) -> Tokens E P i ((pad (n + 2) ++ "- " ++ rest) :: ls) ts ->
      Tokens E P i ((pad n ++ "- - " ++ rest) :: ls) (TDash n :: ts)
  | tk_item : forall i n rest ls ts, single rest -> Tokens E P (S i) ls ts -> Tokens E P i ((pad n ++ "- " ++ rest) :: ls) (TItem n rest :: ts).

(** The tokens of a file; it may begin with the line "---", after empty lines and comments. *)
Definition marker : string := "---".
Inductive Contents (E : Prop) (P : string -> Prop) : list string -> list token -> Prop :=
  | cs_bare : forall ls ts, Tokens E P 0 ls ts -> Contents E P ls ts
  | cs_marked : forall pre ls ts, Forall idle pre -> Tokens E P (S (List.length pre)) ls ts -> Contents E P (pre ++ marker :: ls)%list ts.

(** ** Structure *)
Definition col_of (t : token) : nat := match t with TKey _ c _ _ | TText _ c _ _ | TDash c | TItem c _ => c end.
(** Inside of the value of a key in column [c]; a sequence may be in the same column. *)
Definition within (c : nat) (t : token) : Prop :=
  c < col_of t \/ match t with TDash d | TItem d _ => d = c | _ => False end.

Section Structure.
  Variable inline : string -> pyval -> Prop.

  Inductive Entries : nat -> list token -> list (key * pyval) -> Prop :=
    | en_nil : forall c, Entries c [] []
    | en_inline : forall c i k rest v ts d, inline rest v -> Entries c ts d -> Entries c (TKey i c k rest :: ts) ((KStr k, v) :: d)
    | en_text : forall c i k text ts d, Entries c ts d -> Entries c (TText i c k text :: ts) ((KStr k, VStr text) :: d)
    | en_null : forall c i k rest ts d, bare rest -> Entries c ts d -> Entries c (TKey i c k rest :: ts) ((KStr k, VInst ty_none) :: d)
    | en_block : forall c i k rest body v ts d, bare rest -> Forall (within c) body -> Collection body v -> Entries c ts d ->
        Entries c (TKey i c k rest :: (body ++ ts)) ((KStr k, v) :: d)
  with Items : nat -> list token -> list pyval -> Prop :=
    | it_nil : forall c, Items c [] []
    | it_inline : forall c rest v ts l, inline rest v -> Items c ts l -> Items c (TItem c rest :: ts) (v :: l)
    | it_map : forall c body v ts l, Forall (fun t => c < col_of t) body -> Collection body v -> Items c ts l ->
        Items c (TDash c :: (body ++ ts)) (v :: l)
  with Collection : list token -> pyval -> Prop :=
    | co_map : forall c ts d, ts <> [] -> Entries c ts d -> NoDup (map fst d) -> Collection ts (VMap MDict ty_dict d)
    | co_seq : forall c ts l, ts <> [] -> Items c ts l -> Collection ts (VSeq KList ty_list l).

  (** A file with the lines [lines] (without their ends) means [v]. *)
  Definition Document (E : Prop) (P : string -> Prop) (lines : list string) (v : pyval) : Prop :=
    Forall (fun l => Forall printable (chars l)) lines /\ exists ts, Contents E P lines ts /\ Collection ts v.
  (** The same if the last line has no end. *)
  Definition Lasting (E : Prop) (P : string -> Prop) (lines : list string) (v : pyval) : Prop :=
    Forall (fun l => Forall printable (chars l)) lines /\ exists ts, Contents E P lines ts /\ Contents False P lines ts /\ Collection ts v.
End Structure.
(** The last line of a text has an end. *)
Definition terminated (text : string) : Prop := exists a c, text = a ++ String c "" /\ ends_line c.
Scheme Entries_mind := Induction for Entries Sort Prop
  with Items_mind := Induction for Items Sort Prop
  with Collection_mind := Induction for Collection Sort Prop.
Combined Scheme structure_ind from Entries_mind, Items_mind, Collection_mind.

(** ** Documentation keys *)
(** [text i key t]: [t] is the documentation of the key in line [i], if any.  The tokens of a file with documentation: a text
    directly before each documented key and in its column; the numbers of the lines may be others. *)
Definition doc_name (k : string) : string := "___docstring_hidden_key_" ++ k.
Inductive Annotated (text : nat -> string -> option string -> Prop) : list token -> list token -> Prop :=
  | an_nil : Annotated text [] []
  | an_dash : forall c ts ts', Annotated text ts ts' -> Annotated text (TDash c :: ts) (TDash c :: ts')
  | an_item : forall c r ts ts', Annotated text ts ts' -> Annotated text (TItem c r :: ts) (TItem c r :: ts')
  | an_key : forall i i' c k r ts ts', text i k None -> Annotated text ts ts' -> Annotated text (TKey i c k r :: ts) (TKey i' c k r :: ts')
  | an_key_doc : forall i i' j c k r t ts ts', text i k (Some t) -> Annotated text ts ts' ->
      Annotated text (TKey i c k r :: ts) (TText j c (doc_name k) t :: TKey i' c k r :: ts')
  | an_text : forall i i' c k x ts ts', text i k None -> Annotated text ts ts' -> Annotated text (TText i c k x :: ts) (TText i' c k x :: ts')
  | an_text_doc : forall i i' j c k x t ts ts', text i k (Some t) -> Annotated text ts ts' ->
      Annotated text (TText i c k x :: ts) (TText j c (doc_name k) t :: TText i' c k x :: ts').
