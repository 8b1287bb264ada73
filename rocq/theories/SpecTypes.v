(** A small language of type expressions and declarations, and how Python source spells them.  Independent of
    how the tool generates its text. *)
From Coq Require Import Ascii String List Bool Arith.
From Verif Require Import PyStr Docstring.
Import ListNotations.
Local Open Scope string_scope.

(** [TName]: a (dotted) name; [TStr]: a quoted forward reference; [TApp]: a subscripted name; [TArgs]: the list of
    arguments inside Callable; [TDots]: the ellipsis inside Tuple. *)
Inductive ty : Type :=
  | TName (n : string)
  | TStr (s : string)
  | TApp (h : string) (args : list ty)
  | TArgs (args : list ty)
  | TDots.

Fixpoint print_ty (t : ty) : string :=
  match t with
  | TName n => n
  | TStr s => dq ++ s ++ dq
  | TApp h args => h ++ "[" ++ join ", " (map print_ty args) ++ "]"
  | TArgs args => "[" ++ join ", " (map print_ty args) ++ "]"
  | TDots => "..."
  end.

(** The names written outside of quotes in a type. *)
Fixpoint names_in (t : ty) : list string :=
  match t with
  | TName n => [n]
  | TStr _ => []
  | TApp h args => h :: flat_map names_in args
  | TArgs args => flat_map names_in args
  | TDots => []
  end.

Record field : Type := Field { fd_key : string; fd_type : ty; fd_doc : option string }.

(** [n: TypeAlias = t]; a TypedDict in class or functional syntax; a Protocol with one [__call__]. *)
Inductive decl : Type :=
  | DAlias (n : string) (t : ty)
  | DTyped (n : string) (functional : bool) (fields : list field) (doc : option string)
  | DProto (n : string) (sig : string).

Definition declared (d : decl) : string := match d with DAlias n _ => n | DTyped n _ _ _ => n | DProto n _ => n end.

Definition opt_list {A} (o : option A) : list A := match o with Some a => [a] | None => [] end.

Definition print_field (f : field) : string :=
  TAB ++ fd_key f ++ ": " ++ print_ty (fd_type f)
  ++ match fd_doc f with Some d => nl ++ format_docstring 90 TAB d | None => "" end.

Definition print_item (f : field) : string := TAB ++ TAB ++ dq ++ fd_key f ++ dq ++ ": " ++ print_ty (fd_type f) ++ ",".

Definition print_decl (d : decl) : string :=
  match d with
  | DAlias n t => n ++ ": TypeAlias = " ++ print_ty t
  | DTyped n false fields doc =>
      join nl (("class " ++ n ++ "(TypedDict):")
               :: app (map (fun d => format_docstring 90 TAB d ++ nl) (opt_list doc))
                      (match fields with [] => [TAB ++ "..."] | _ => map print_field fields end))
  | DTyped n true fields doc =>
      join nl ((n ++ " = TypedDict(") :: (TAB ++ dq ++ n ++ dq ++ ",") :: (TAB ++ "{")
               :: app (match fields with [] => [""] | _ => map print_item fields end)
                      ((TAB ++ "},") :: ")" :: map (format_docstring 90 "") (opt_list doc)))
  | DProto n sig => "class " ++ n ++ "(Protocol):" ++ nl ++ TAB ++ "def __call__" ++ sig ++ ": ..."
  end.

(** The names a declaration mentions. *)
Definition mentioned (d : decl) : list string :=
  match d with
  | DAlias _ t => "TypeAlias" :: names_in t
  | DTyped _ _ fields _ => "TypedDict" :: flat_map (fun f => names_in (fd_type f)) fields
  | DProto _ _ => ["Protocol"]
  end.
