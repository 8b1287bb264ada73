(** Model of [LazyTypeHintLive] (lazy_type_hint/generators/lazy_type_hint_live.py:44-251).

    The disk holds the stub file and the directory [build] of class files.  An object holds the lines of
    the stub and the mode.  Every file that is written is logged: a crash of the process is a prefix of
    the log.  State survives exceptions, as in Python.
    Parameters: the lines left by [remove_all_method_bodies] on the module itself ([ast.unparse], not
    modelled), and the text generated for a value ([get_str_all_nodes], modelled in Emit.v), which may
    be an exception.
    Simplifications: a write of a file is one step; encodings are ignored; the class is
    [LazyTypeHintLive] itself, not a subclass of it; a class file of another case of letters is another file. *)
From Coq Require Import Ascii String List Bool Arith ZArith.
From Verif Require Import PyStr Utils Exc PyFile.
Import ListNotations.
Local Open Scope string_scope.
Local Open Scope nat_scope.

(** [Path.read_text] in text mode: carriage returns are translated. *)
Fixpoint universal (s : string) : string :=
  match s with
  | "" => ""
  | String c r =>
      if Nat.eqb (ord c) 13
      then match r with
           | String d r' => if Nat.eqb (ord d) 10 then String d (universal r') else String (chr 10) (universal r)
           | "" => String (chr 10) ""
           end
      else String c (universal r)
  end.

(** [s.rfind(sub)] for a non-empty [sub], [None] for -1. *)
Fixpoint rfind_str (sub s : string) : option nat :=
  match s with
  | "" => None
  | String _ r => match rfind_str sub r with
                  | Some i => Some (S i)
                  | None => if startswith sub s then Some 0 else None
                  end
  end.

(** [re.findall(r'"(.*?)"', s)]: "." does not match a line feed. *)
Fixpoint quoted_words (s : string) (open : option string) : list string :=
  match s with
  | "" => []
  | String c r =>
      match open with
      | None => quoted_words r (if Ascii.eqb c dquote_char then Some "" else None)
      | Some w =>
          if Ascii.eqb c dquote_char then w :: quoted_words r None
          else if Nat.eqb (ord c) 10 then quoted_words r None
          else quoted_words r (Some (w ++ String c ""))
      end
  end.

(** ** Disk *)
Record disk : Type := Disk { d_stub : option string; d_build : list (string * string) }.

Fixpoint lookup (c : string) (b : list (string * string)) : option string :=
  match b with
  | [] => None
  | (n, t) :: r => if String.eqb c n then Some t else lookup c r
  end.
Fixpoint store (c text : string) (b : list (string * string)) : list (string * string) :=
  match b with
  | [] => [(c, text)]
  | (n, t) :: r => if String.eqb c n then (n, text) :: r else (n, t) :: store c text r
  end.

Inductive write : Type := WClass (name text : string) | WStub (text : string).
Definition apply_write (d : disk) (w : write) : disk :=
  match w with
  | WClass n t => Disk (d_stub d) (store n t (d_build d))
  | WStub t => Disk (Some t) (d_build d)
  end.
Definition apply_writes (d : disk) (ws : list write) : disk := fold_left apply_write ws d.

(** ** A state monad with exceptions *)
Record state : Type := State { s_lines : list string; s_disk : disk; s_log : list write }.
Definition M (A : Type) : Type := state -> exc A * state.
Definition ret {A} (a : A) : M A := fun s => (Val a, s).
Definition mbind {A B} (m : M A) (f : A -> M B) : M B := fun s =>
  match m s with
  | (Val a, s') => f a s'
  | (Raise e, s') => (Raise e, s')
  | (NoFuel, s') => (NoFuel, s')
  end.
(** A computation on the lines that does not change them. *)
Definition query {A} (f : list string -> exc A) : M A := fun s => (f (s_lines s), s).
(** A computation that changes the lines, unless it raises. *)
Definition modify (f : list string -> exc (list string)) : M unit := fun s =>
  match f (s_lines s) with
  | Val l => (Val tt, State l (s_disk s) (s_log s))
  | Raise e => (Raise e, s)
  | NoFuel => (NoFuel, s)
  end.
Definition write_file (f : list string -> write) : M unit := fun s =>
  let w := f (s_lines s) in (Val tt, State (s_lines s) (apply_write (s_disk s) w) (s_log s ++ [w])%list).
Definition throw {A} (e : py_error) : M A := fun s => (Raise e, s).

(** _update_this_file_pyi (249-251) *)
Definition update_stub : M unit := write_file (fun l => WStub (py_str l)).

(** _get_classes_added (79-98); the caller only tests membership. *)
Definition registered (lines : list string) : exc (list string) :=
  andthen (search_assignment "classes_created" lines) (fun values =>
  match values with
  | [] => Raise LiveError
  | (_, v) :: _ => Val (if String.eqb v "Any" then [] else quoted_words v None)
  end).
Definition get_classes_added : M (list string) := fun s =>
  match registered (s_lines s) with
  | Val cs => (if forallb (fun c => match lookup c (d_build (s_disk s)) with Some _ => true | None => false end) cs
               then Val cs else Raise LiveError, s)
  | Raise e => (Raise e, s)
  | NoFuel => (NoFuel, s)
  end.

(** _add_class_created_to_this_file_pyi (232-247) *)
Definition new_value (value c : string) : string :=
  if String.eqb value "Any" then "Union[Literal[""" ++ c ++ """], Any]"
  else replace "], Any]" (", """ ++ c ++ """], Any]") value.
Definition add_class_created (c : string) : M unit :=
  mbind (query (search_assignment "classes_created")) (fun values =>
  match values with
  | [] => throw IndexError
  | (_, "") :: _ => throw LiveError
  | (_, v) :: _ => mbind (modify (replace_assignment "classes_created" (new_value v c))) (fun _ => update_stub)
  end).

(** _add_import_to_this_file_pyi (189-196) *)
Definition import_statement (c : string) : string :=
  "from lazy_type_hint.generators.build." ++ c ++ " import " ++ c.
Definition add_import (c : string) : M unit :=
  mbind (modify (add_imports [import_statement c] false)) (fun _ => update_stub).

(** Lines 218-219: index of the first "," or ")" at or after [i]. *)
Fixpoint scan_sep (s : string) (i : nat) : exc nat :=
  match s with
  | "" => Raise IndexError
  | String c r => if Nat.eqb (ord c) 44 || Nat.eqb (ord c) 41 then Val i else scan_sep r (S i)
  end.

(** Lines 212-226. *)
Definition edit_signature (argument c signature : string) : exc string :=
  match find_str argument signature with
  | None => Raise LiveError
  | Some i =>
      let first := i + String.length argument in
      andthen (scan_sep (drop first signature) first) (fun last =>
      let s := take (first + 1) signature ++ (" Literal[""" ++ c ++ """]") ++ drop last signature in
      let head := match rfind_str "->" s with Some j => take (j + 2 + 1) s | None => take 2 s end in
      let tail := match rfind_str ":" s with Some j => drop j s | None => drop (String.length s - 1) s end in
      Val (head ++ c ++ tail))
  end.

(** _add_overload_to_this_file_pyi (198-230) *)
Definition last_method (name : string) (lines : list string) : exc Z :=
  andthen (search_method true name lines) last_of.
Definition ensure_decorator (name : string) (lines : list string) : exc (list string) :=
  andthen (search_decorator "overload" name lines) (fun found =>
  match found with
  | [] => andthen (search_method true name lines) (fun idxs =>
          match idxs with
          | [] => Raise LiveError
          | _ => andthen (last_of idxs) (fun i => Val (add_line i (TAB ++ "@overload") lines))
          end)
  | _ => Val lines
  end).
Definition insert_overload (name c : string) (lines : list string) : exc (list string) :=
  andthen (get_signature name lines) (fun signature =>
  andthen (edit_signature "class_name" c signature) (fun new =>
  andthen (last_method name lines) (fun i => Val (add_line i new lines)))).
Definition add_overload (name c : string) : M unit :=
  mbind (modify (ensure_decorator name)) (fun _ =>
  mbind (modify (insert_overload name c)) (fun _ => update_stub)).

(** _add_new_class_to_loader_pyi (182-187) *)
Definition add_new_class (c : string) : M unit :=
  mbind (add_class_created c) (fun _ =>
  mbind (add_import c) (fun _ =>
  mbind (add_overload "from_data" c) (fun _ => add_overload "from_yaml_file" c))).

(** _remove_docstrings (147-155) *)
Definition triple_quote : string := String dquote_char (String dquote_char (String dquote_char "")).
Definition remove_docstrings (s : string) : string :=
  if contains triple_quote s
  then join nl (map (fun l => if contains triple_quote l then "" else l) (splitlines s))
  else s.

Definition create_class_file (c text : string) : M unit := write_file (fun _ => WClass c text).

Section Live.
  Context {D : Type}.
  Variable unparsed : list string.
  Variable generate : D -> string -> exc string.

  (** _generate_this_file_pyi (165-173) *)
  Definition initial_lines : exc (list string) :=
    andthen (remove_all_private_methods unparsed) (remove_all_instance_variables "LazyTypeHintLive").

  (** __init__ (66-77): the lines of the new object. *)
  Definition open_live (d : disk) : exc (list string) :=
    match d_stub d with
    | None => initial_lines
    | Some text => Val (py_read (universal text))
    end.

  (** from_data (112-145): the value returned is the argument. *)
  Definition from_data (validate : bool) (data : D) (c : string) : M D :=
    if negb (is_compatible c) then throw LiveError
    else
      mbind get_classes_added (fun cs =>
      mbind (query (fun _ => generate data c)) (fun text =>
      mbind (fun s =>
        if mem c cs && validate
        then match lookup c (d_build (s_disk s)) with
             | None => (Raise (OtherError 0), s)   (* FileNotFoundError *)
             | Some old => (if String.eqb (remove_docstrings text) (remove_docstrings (universal old))
                            then Val tt else Raise LiveError, s)
             end
        else (Val tt, s)) (fun _ =>
      mbind (create_class_file c text) (fun _ =>
      mbind get_classes_added (fun cs' =>
      if mem c cs' then ret data
      else mbind (add_new_class c) (fun _ => ret data)))))).

  (** reset (157-163) *)
  Definition reset (d : disk) : disk := Disk None [].

  (** ** Histories: several objects over one disk.  A call that raises leaves what it did before. *)
  Record object : Type := Object { o_lines : list string; o_validate : bool }.
  Record world : Type := World { w_disk : disk; w_objects : list object }.

  Inductive op : Type :=
    | New (validate : bool)
    | Use (k : nat) (data : D) (c : string)    (* from_data of the object number [k] *)
    | Crash (data : D) (c : string) (k n : nat) (* the process dies in such a call, after [n] writes *)
    | Reset.

  (** The result of one operation: [None] if it is not a call of [from_data]. *)
  Definition step (w : world) (o : op) : option (exc D) * world :=
    match o with
    | New v =>
        match open_live (w_disk w) with
        | Val l => (None, World (w_disk w) (w_objects w ++ [Object l v])%list)
        | _ => (None, w)
        end
    | Use k data c =>
        match nth_error (w_objects w) k with
        | None => (None, w)
        | Some ob =>
            match from_data (o_validate ob) data c (State (o_lines ob) (w_disk w) []) with
            | (r, s) => (Some r, World (s_disk s) (set_nth k (Object (s_lines s) (o_validate ob)) (w_objects w)))
            end
        end
    | Crash data c k n =>
        match nth_error (w_objects w) k with
        | None => (None, w)
        | Some ob =>
            match from_data (o_validate ob) data c (State (o_lines ob) (w_disk w) []) with
            | (_, s) => (None, World (apply_writes (w_disk w) (firstn n (s_log s))) [])
            end
        end
    | Reset => (None, World (reset (w_disk w)) (w_objects w))
    end.

  Fixpoint steps (w : world) (os : list op) : list (option (exc D)) * world :=
    match os with
    | [] => ([], w)
    | o :: r => let (x, w1) := step w o in let (xs, w2) := steps w1 r in (x :: xs, w2)
    end.

  Definition clean : world := World (Disk None []) [].
End Live.
