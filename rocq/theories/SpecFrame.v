(** What the properties of data frames mean. *)
From Coq Require Import Ascii String List Bool Arith ZArith.
From Verif Require Import Values Frame.
Import ListNotations.
Local Open Scope string_scope.

(** Labels that Python takes for equal. *)
Inductive same : atom -> atom -> Prop :=
  | same_str : forall x, same (AStr x) (AStr x)
  | same_bool : forall b, same (ABool b) (ABool b)
  | same_int : forall z, same (AInt z) (AInt z)
  | same_one : same (ABool true) (AInt 1)
  | same_one' : same (AInt 1) (ABool true)
  | same_zero : same (ABool false) (AInt 0)
  | same_zero' : same (AInt 0) (ABool false)
  | same_other : forall i x y, same (AOther i x) (AOther i y).

Inductive subsequence {A} : list A -> list A -> Prop :=
  | ss_nil : forall l, subsequence [] l
  | ss_take : forall x l m, subsequence l m -> subsequence (x :: l) (x :: m)
  | ss_skip : forall x l m, subsequence l m -> subsequence l (x :: m).

(** [r]: the different elements of [l], in the order in which they first occur. *)
Record first_ones (l r : list atom) : Prop := FirstOnes {
  fo_order : subsequence r l;
  fo_different : ForallOrdPairs (fun a b => ~ same a b) r;
  fo_all : forall a, In a l -> exists b, In b r /\ same b a;
  fo_first : forall a, In a r -> exists l1 l2, l = (l1 ++ a :: l2)%list /\ forall b, In b l1 -> ~ same a b }.

(** str, bool or int. *)
Definition simple (a : atom) : Prop := match a with AOther _ _ => False | _ => True end.

(** All columns are simple labels ([Plain]), or tuples of at least two labels the first of which is simple ([Nested]). *)
Inductive well_labelled : frame -> list atom -> Prop :=
  | wl_plain : forall cols heads, cols <> [] -> map fst cols = map LAtom heads -> Forall simple heads -> well_labelled (Flat cols) heads
  | wl_nested : forall cols heads, cols <> [] -> Forall2 (fun c a => exists b r, fst c = a :: b :: r) cols heads -> Forall simple heads ->
      well_labelled (Multi cols) heads.

(** Some column cannot be written as a literal. *)
Definition has_odd_column (f : frame) : Prop :=
  exists l, In l (columns f) /\ (exists i t, l = LAtom (AOther i t) \/ exists r, l = LTuple (AOther i t :: r)).

Definition labelled (l : label) : Prop := match l with LAtom a => simple a | LTuple (a :: _) => simple a | LTuple [] => False end.

(** A label occurs twice in a plain index, possibly after choosing labels of upper levels. *)
Inductive repeats : frame -> Prop :=
  | rep_here : forall cols a b l1 l2 l3, Forall labelled (map fst cols) -> map fst cols = (l1 ++ LAtom a :: l2 ++ LAtom b :: l3)%list -> same a b ->
      repeats (Flat cols)
  | rep_below : forall cols a r g, Forall labelled (columns (Multi cols)) -> In (LTuple (a :: r)) (columns (Multi cols)) ->
      (exists x y z, In (LTuple (x :: y :: z)) (columns (Multi cols))) ->
      get (Multi cols) (LAtom a) = Some (AFrame g) -> repeats g -> repeats (Multi cols).

(** All columns of a multi index have the same number of levels. *)
Definition uniform (f : frame) : Prop := match f with Flat _ => True | Multi cols => exists n, forall c, In c cols -> List.length (fst c) = n end.

(** No column occurs twice. *)
Definition different_labels (f : frame) : Prop :=
  match f with
  | Flat cols => forall l1 l2 l3 a b, map fst cols = (l1 ++ LAtom a :: l2 ++ LAtom b :: l3)%list -> ~ same a b
  | Multi cols => forall l1 l2 l3 a b, map fst cols = (l1 ++ a :: l2 ++ b :: l3)%list -> ~ Forall2 same a b
  end.

(** ** Literals *)

(** The value of a Python string literal with the quote [q], after the opening quote. *)
Definition from_hex (c : ascii) : option nat :=
  let n := nat_of_ascii c in
  if Nat.leb 48 n && Nat.leb n 57 then Some (n - 48) else if Nat.leb 97 n && Nat.leb n 102 then Some (n - 87)
  else if Nat.leb 65 n && Nat.leb n 70 then Some (n - 55) else None.
Definition push (c : ascii) (r : option string) : option string := match r with Some s => Some (String c s) | None => None end.
Fixpoint unquote (q : ascii) (s : string) : option string :=
  match s with
  | EmptyString => None
  | String c r =>
      if Ascii.eqb c q then match r with EmptyString => Some "" | _ => None end
      else if Ascii.eqb c (ascii_of_nat 10) || Ascii.eqb c (ascii_of_nat 13) then None
      else if Ascii.eqb c (ascii_of_nat 92) then
        match r with
        | EmptyString => None
        | String e r1 =>
            if Ascii.eqb e (ascii_of_nat 92) || Ascii.eqb e (ascii_of_nat 39) || Ascii.eqb e (ascii_of_nat 34) then push e (unquote q r1)
            else if Ascii.eqb e (ascii_of_nat 110) then push (ascii_of_nat 10) (unquote q r1)
            else if Ascii.eqb e (ascii_of_nat 114) then push (ascii_of_nat 13) (unquote q r1)
            else if Ascii.eqb e (ascii_of_nat 116) then push (ascii_of_nat 9) (unquote q r1)
            else if Ascii.eqb e (ascii_of_nat 120) then
              match r1 with
              | String h1 (String h2 r2) =>
                  match from_hex h1, from_hex h2 with Some x, Some y => push (ascii_of_nat (16 * x + y)) (unquote q r2) | _, _ => None end
              | _ => None
              end
            else None
        end
      else push c (unquote q r)
  end.
Definition string_value (s : string) : option string :=
  match s with
  | String q r => if Ascii.eqb q (ascii_of_nat 39) || Ascii.eqb q (ascii_of_nat 34) then unquote q r else None
  | EmptyString => None
  end.

(** The value of a decimal number. *)
Fixpoint digits_value (acc : Z) (s : string) : option Z :=
  match s with
  | EmptyString => Some acc
  | String c r => let n := nat_of_ascii c in if Nat.leb 48 n && Nat.leb n 57 then digits_value (10 * acc + Z.of_nat (n - 48)) r else None
  end.
Definition int_value (s : string) : option Z :=
  match s with
  | EmptyString => None
  | String c r => if Ascii.eqb c "-" then match r with EmptyString => None | _ => option_map Z.opp (digits_value 0 r) end else digits_value 0 s
  end.

(** [denotes text a]: the Python expression [text] evaluates to the label. *)
Definition denotes (text : string) (a : atom) : Prop :=
  match a with
  | AStr x => string_value text = Some x
  | ABool true => text = "True"
  | ABool false => text = "False"
  | AInt z => int_value text = Some z
  | AOther _ _ => False
  end.

(** ** Text *)
Definition eol : string := String (ascii_of_nat 10) "".
(** The overload of [__getitem__] for one literal. *)
Definition overload_text (key rtype : string) : string :=
  "    @overload  # type: ignore" ++ eol ++ "    def __getitem__(self, key: Literal[" ++ key ++ "]) -> " ++ rtype ++ ":" ++ eol ++ "        ..." ++ eol.
