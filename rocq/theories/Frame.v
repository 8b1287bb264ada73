(** Model of data_type_tree/generic_type/pandas_data_frame_data_type_tree.py for a data frame given to [from_data].
    Simplifications: the labels of an index are strings, booleans, integers or other hashables; tuples occur as labels of a multi index
    and, mixed with other labels, of a plain index; the labels of one level are not tuples themselves.  Data frames inside of other
    containers are not modelled, nor functions without a signature inside of cells. *)
From Coq Require Import Ascii String List Bool Arith ZArith.
From Verif Require Import PyStr Utils Strategies Imports Dispatch Values Tree Build Emit.
Import ListNotations.
Local Open Scope string_scope.
Local Open Scope nat_scope.

(** ** Labels *)
Inductive atom : Type := AStr (s : string) | ABool (b : bool) | AInt (z : Z) | AOther (id : nat) (text : string).
Inductive label : Type := LAtom (a : atom) | LTuple (l : list atom).

(** Python's [==]: booleans are integers. *)
Definition number (a : atom) : option Z := match a with ABool b => Some (Z.b2z b) | AInt z => Some z | _ => None end.
Definition atom_eqb (a b : atom) : bool :=
  match number a, number b with
  | Some x, Some y => Z.eqb x y
  | None, None => match a, b with AStr x, AStr y => String.eqb x y | AOther i _, AOther j _ => Nat.eqb i j | _, _ => false end
  | _, _ => false
  end.
Fixpoint atoms_eqb (l m : list atom) : bool :=
  match l, m with [], [] => true | a :: l, b :: m => atom_eqb a b && atoms_eqb l m | _, _ => false end.
Definition label_eqb (a b : label) : bool :=
  match a, b with LAtom x, LAtom y => atom_eqb x y | LTuple l, LTuple m => atoms_eqb l m | _, _ => false end.

(** [repr] of a string of code points below 256. *)
Definition hex (n : nat) : string := String (chr (if Nat.ltb n 10 then 48 + n else 87 + n)) "".
Definition printable (c : ascii) : bool :=
  let n := nat_of_ascii c in (Nat.leb 32 n && Nat.leb n 126) || (Nat.leb 161 n && negb (Nat.eqb n 173)).
Definition repr_char (q c : ascii) : string :=
  if Ascii.eqb c (chr 92) then String (chr 92) (String (chr 92) "")
  else if Ascii.eqb c q then String (chr 92) (String q "")
  else if Ascii.eqb c (chr 9) then String (chr 92) "t"
  else if Ascii.eqb c (chr 10) then String (chr 92) "n"
  else if Ascii.eqb c (chr 13) then String (chr 92) "r"
  else if printable c then String c ""
  else String (chr 92) "x" ++ hex (nat_of_ascii c / 16) ++ hex (nat_of_ascii c mod 16).
Fixpoint repr_chars (q : ascii) (s : string) : string :=
  match s with EmptyString => "" | String c r => repr_char q c ++ repr_chars q r end.
Definition repr_str (s : string) : string :=
  let q := if contains (String (chr 39) "") s && negb (contains (String (chr 34) "") s) then chr 34 else chr 39 in
  String q "" ++ repr_chars q s ++ String q "".

Definition str_of_Z (z : Z) : string :=
  match z with Z0 => "0" | Zpos p => str_of_nat (Pos.to_nat p) | Zneg p => "-" ++ str_of_nat (Pos.to_nat p) end.
Definition str_atom (a : atom) : string :=
  match a with AStr s => s | ABool true => "True" | ABool false => "False" | AInt z => str_of_Z z | AOther _ t => t end.
Definition repr_atom (a : atom) : string := match a with AStr s => repr_str s | _ => str_atom a end.
Definition str_label (l : label) : string :=
  match l with
  | LAtom a => str_atom a
  | LTuple [a] => "(" ++ repr_atom a ++ ",)"
  | LTuple l => "(" ++ join ", " (map repr_atom l) ++ ")"
  end.

(** ** Data frames *)

(** The columns with their values: a plain index or a multi index (all columns are tuples of the same length). *)
Inductive frame : Type :=
  | Flat (cols : list (label * list pyval))
  | Multi (cols : list (list atom * list pyval)).

Definition columns (f : frame) : list label :=
  match f with Flat cols => map fst cols | Multi cols => map (fun c => LTuple (fst c)) cols end.

(** The columns that remain when the first level was chosen. *)
Definition lower (cols : list (list atom * list pyval)) : frame :=
  if forallb (fun c => Nat.eqb (List.length (fst c)) 1) cols
  then Flat (flat_map (fun c => match fst c with [a] => [(LAtom a, snd c)] | _ => [] end) cols)
  else Multi cols.

Inductive access : Type := ASeries (values : list pyval) | AFrame (f : frame).

(** pandas, [DataFrame._getitem_multilevel]: a single remaining column whose label is empty stands for the column itself. *)
Fixpoint peel (rest : list atom) (values : list pyval) : access :=
  match rest with
  | [] => ASeries values
  | AStr "" :: rest => peel rest values
  | _ => AFrame (lower [(rest, values)])
  end.

(** pandas, [DataFrame.__getitem__] with one label: the column if the label occurs once, the data frame of all columns with
    the label if it occurs several times; the columns below the label of a multi index.  [None]: KeyError.
    The only level of a multi index cannot be dropped. *)
Definition get (f : frame) (l : label) : option access :=
  match f with
  | Flat cols =>
      match filter (fun c => label_eqb l (fst c)) cols with
      | [] => None
      | [c] => Some (ASeries (snd c))
      | cs => Some (AFrame (Flat cs))
      end
  | Multi cols =>
      match l with
      | LTuple _ => None
      | LAtom a =>
          let cs := filter (fun c => match fst c with b :: _ => atom_eqb a b | [] => false end) cols in
          match cs with
          | [] => None
          | _ =>
            if forallb (fun c => Nat.eqb (List.length (fst c)) 1) cs then Some (AFrame (Multi cs))
            else match cs with
                 | [(_ :: rest, vs)] => Some (peel rest vs)
                 | _ => Some (AFrame (lower (map (fun c => (tl (fst c), snd c)) cs)))
                 end
          end
      end
  end.

(** ** Construction *)

(** pandas_data_frame_data_type_tree.py:111-113. *)
Definition literal (a : atom) : bool := match a with AOther _ _ => false | _ => true end.
Definition is_tuple (l : label) : bool := match l with LTuple _ => true | _ => false end.
(** 115-123 [are_all_columns_literal_compatible]; the empty tuple has no first element and is not a label of a multi index. *)
Definition literal_label (l : label) : bool :=
  match l with LAtom a => literal a | LTuple (a :: _) => literal a | LTuple [] => false end.
Definition literal_columns (cols : list label) : bool := forallb literal_label cols.
Definition one_tuple (l : label) : bool := match l with LTuple [_] => true | _ => false end.

(** 135-156: the labels that are looked up, in order.  [seen] is [columns_processed]. *)
Fixpoint first_levels (cols : list label) (seen : list atom) : list atom :=
  match cols with
  | [] => []
  | LTuple (a :: _) :: r =>
      if existsb (atom_eqb a) seen then first_levels r seen
      else if literal a then a :: first_levels r (a :: seen) else first_levels r seen
  | _ :: r => first_levels r seen
  end.
Definition looked_up (cols : list label) : list label :=
  if forallb is_tuple cols then map LAtom (first_levels cols []) else cols.

Inductive ferror : Type := FName (n : string) | FKey (l : label).
Inductive fres (A : Type) : Type := FOk (a : A) | FErr (e : ferror) | FOut.
Arguments FOk {A}. Arguments FErr {A}. Arguments FOut {A}.
Definition fbind {A B} (r : fres A) (f : A -> fres B) : fres B := match r with FOk a => f a | FErr e => FErr e | FOut => FOut end.

(** Nodes: series are nodes of the other model; the columns of a data frame and its children. *)
Inductive ftree : Type :=
  | FLeaf (t : tree)
  | FNode (name : string) (depth : nat) (cols : list label) (cs : list (label * ftree)).

(** A dict: an equal key keeps its place and its first spelling. *)
Fixpoint lset {A} (k : label) (v : A) (d : list (label * A)) : list (label * A) :=
  match d with
  | [] => [(k, v)]
  | (k', v') :: r => if label_eqb k k' then (k', v) :: r else (k', v') :: lset k v r
  end.

Definition ty_series : pytype := PyType t_Series "Series".

(** 125-135 [_create_child]. *)
Definition column_suffix (l : label) : string := match to_camel_case (str_label l) with "" => "WSpace" | x => x end.

Definition build_series (s : strategies) (ord : set_order) (name : string) (depth : nat) (values : list pyval) : fres ftree :=
  let v := VSeq KSeries ty_series values in
  match build s ord (S (vdepth v)) name depth false v with
  | Ok t => FOk (FLeaf t)
  | Err (BadName n) => FErr (FName n)
  | OutOfFuel => FOut
  end.

(** 141-156: one child per label. *)
Fixpoint build_columns (child : label -> fres ftree) (ls : list label) (cs : list (label * ftree)) : fres (list (label * ftree)) :=
  match ls with
  | [] => FOk cs
  | l :: r => fbind (child l) (fun c => build_columns child r (lset l c cs))
  end.

Fixpoint build_frame (s : strategies) (ord : set_order) (fuel : nat) (name : string) (depth : nat) (f : frame) {struct fuel} : fres ftree :=
  if negb (is_compatible name) then FErr (FName name) else
  if negb (literal_columns (columns f)) then FOk (FNode name depth (columns f) []) else
  if forallb one_tuple (columns f) then FOk (FNode name depth (columns f) []) else
  match fuel with
  | O => FOut
  | S n =>
      fbind (build_columns (fun l =>
               match get f l with
               | None => FErr (FKey l)
               | Some (ASeries vs) => build_series s ord (name ++ column_suffix l) (S depth) vs
               | Some (AFrame g) => build_frame s ord n (name ++ column_suffix l) (S depth) g
               end) (looked_up (columns f)) [])
            (fun cs => FOk (FNode name depth (columns f) cs))
  end.

(** ** Declarations *)

Fixpoint fheight (t : ftree) : nat :=
  match t with FLeaf t => theight t | FNode _ _ _ cs => S (maxl (map (fun c => fheight (snd c)) cs)) end.
Definition fname (t : ftree) : string := match t with FLeaf t => tname t | FNode n _ _ _ => n end.

(** 78-98 [permission_to_be_created_as_type_alias]. *)
Definition fperm (s : strategies) (t : ftree) : bool :=
  match t with
  | FLeaf t => perm s t
  | FNode _ depth cols _ =>
      (if forallb is_tuple cols then literal_columns cols else forallb (fun l => match l with LAtom a => literal a | _ => false end) cols)
      || Nat.eqb depth 0 || Nat.ltb (s_min_height s) (fheight t)
  end.

(** 22-26 [LITERAL_OVERLOAD_TEMPLATE]. *)
Definition overload (literal rtype : string) : string :=
  "    @overload  # type: ignore" ++ nl ++ "    def __getitem__(self, key: Literal[" ++ literal ++ "]) -> " ++ rtype ++ ":" ++ nl ++ "        ..." ++ nl.
(** 31-62 [TEMPLATE] after the overloads. *)
Definition general_item (allowed : string) : string :=
  "    def __getitem__(" ++ nl ++ "        self," ++ nl ++ "        key: Union[" ++ nl
  ++ "            ""pd.Series[bool]""," ++ nl ++ "            " ++ allowed ++ "," ++ nl
  ++ "            pd.DataFrame," ++ nl ++ "            pd.Index," ++ nl ++ "            npt.NDArray[np.bool_]," ++ nl
  ++ "            npt.NDArray[np.str_]," ++ nl ++ "            List[Union[Scalar, Tuple[Hashable, ...]]]," ++ nl ++ "        ]," ++ nl
  ++ "    ) -> Union[pd.Series, pd.DataFrame]:" ++ nl.
Definition template_end (allowed : string) : string :=
  "    @overload" ++ nl ++ general_item allowed ++ "        ..." ++ nl ++ nl ++ general_item allowed ++ "        return super().__getitem__(key)".
(** 64-76 [TEMPLATE_NO_PD] after the overloads. *)
Definition template_no_pd_end (allowed : string) : string :=
  "    def __getitem__(" ++ nl ++ "        self," ++ nl ++ "        key: Union[" ++ nl ++ "            " ++ allowed ++ "," ++ nl
  ++ "            npt.NDArray[np.bool_]," ++ nl ++ "            npt.NDArray[np.str_]," ++ nl
  ++ "            List[Union[Scalar, Tuple[Hashable, ...]]]," ++ nl ++ "        ]," ++ nl
  ++ "    ) -> Union[pd.Series, pd.DataFrame]:" ++ nl ++ "        return super().__getitem__(key)".

Definition frame_imports : list string := ["overload"; "Union"; "Literal"; "npt"; "tuple"; "list"; "Hashable"; "numpy"; "pd.Scalar"].

(** 164-211 [_get_str_top_node].  [not pandas_strategies] is never true: the strategies are non-empty strings. *)
Fixpoint ftop (s : strategies) (t : ftree) : out :=
  match t with
  | FLeaf t => top s t
  | FNode name depth cols cs =>
      match cs with
      | [] => (alias name "pd.DataFrame", ["pandas"; "TypeAlias"])
      | _ =>
          let parts := flat_map (fun c =>
            match fst c with
            | LAtom a => if literal a
                         then [(overload (repr_atom a) (if fperm s (snd c) then fname (snd c) else without_lvalue (fst (ftop s (snd c)))),
                                if fperm s (snd c) then [] else snd (ftop s (snd c)))]
                         else []
            | LTuple _ => []
            end) cs in
          let literals := flat_map (fun c => match fst c with LAtom a => if literal a then [repr_atom a] else [] | _ => [] end) cs in
          let extra := if forallb (fun c => match fst c with LAtom a => literal a | _ => false end) cs then "" else ", Hashable" in
          ("class " ++ name ++ "(pd.DataFrame):" ++ nl ++ nl ++ join nl (map fst parts) ++ nl
           ++ match s_pandas s with
              | PFull => template_no_pd_end ("Literal[" ++ join ", " literals ++ "]" ++ extra)
              | _ => template_end "str"
              end,
           ("pandas" :: frame_imports ++ flat_map snd parts)%list)
      end
  end.

(** data_type_tree.py:246-264. *)
Fixpoint fcollect (s : strategies) (t : ftree) : list ftree :=
  match t with
  | FLeaf t => map FLeaf (collect s t)
  | FNode _ depth _ cs =>
      match cs with
      | [] => if Nat.eqb depth 0 && fperm s t then [t] else []
      | _ => (flat_map (fun c => fcollect s (snd c) ++ (if fperm s (snd c) then [snd c] else [])) cs ++ (if fperm s t then [t] else []))%list
      end
  end.
Definition frame_declarations (s : strategies) (t : ftree) : list string :=
  oset_as_list (oset_adds String.eqb (map (fun n => fst (ftop s n)) (fcollect s t)) oset_empty).
Definition frame_recorded (s : strategies) (t : ftree) : list string :=
  imp_adds (flat_map (fun n => snd (ftop s n)) (fcollect s t)) [].
Definition frame_text (s : strategies) (t : ftree) : option string :=
  option_map (fun i => format_node_strings (i :: frame_declarations s t)) (format_imports 90 (frame_recorded s t)).

(** lazy_type_hint_abc.py:78-89 [from_data]; the fuel stands for the stack of Python. *)
Definition from_frame (s : strategies) (ord : set_order) (fuel : nat) (f : frame) (class_name : string) : fres ftree :=
  if is_compatible class_name then build_frame s ord fuel class_name 0 f else FErr (FName class_name).
