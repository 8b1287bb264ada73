(** Model of Tree.to_file (generators/lazy_type_hint.py:24-41), of [rename_declaration] and of the option
    [make_parent_class_inherit_from_original_type] (data_type_tree/data_type_tree.py:208-245). *)
From Coq Require Import Ascii String List Bool Arith.
From Verif Require Import PyStr Utils Strategies Imports Values Tree Build Emit.
Import ListNotations.
Local Open Scope string_scope.

(** ** Files *)

(** Components of a path below the working directory; no links, no "..". *)
Definition path : Type := list string.
Definition path_eqb (p q : path) : bool := if list_eq_dec string_dec p q then true else false.
Inductive entry : Type := Dir | File (text : string).
Definition fsys : Type := path -> option entry.
Definition put (p : path) (e : entry) (fs : fsys) : fsys := fun q => if path_eqb p q then Some e else fs q.

Inductive problem : Type := NotPermitted | NotADirectory | IsADirectory | NoText.

(** [os.makedirs]: the missing directories on the way, from the outermost on.  The directories made before an exception stay. *)
Fixpoint makedirs (fs : fsys) (base : path) (rest : list string) : fsys * option problem :=
  match rest with
  | [] => (fs, None)
  | c :: r =>
      let p := (base ++ [c])%list in
      match fs p with
      | Some Dir => makedirs fs p r
      | Some (File _) => (fs, Some NotADirectory)
      | None => makedirs (put p Dir fs) p r
      end
  end.

(** [Path.write_text]. *)
Definition write_text (fs : fsys) (p : path) (text : string) : fsys * option problem :=
  match fs (removelast p) with
  | Some Dir => match fs p with Some Dir => (fs, Some IsADirectory) | _ => (put p (File text) fs, None) end
  | _ => (fs, Some NotADirectory)
  end.

(** lazy_type_hint.py:32-41 [to_file].  The text is generated last; the attribute is the cache of the tree.
    A call that raises caches nothing, the model stores the failure; as failures do not depend on the argument
    (PropsText.v, [C88_text]) later calls give the same. *)
Definition to_file (strs : bool -> option (list string)) (attr : option (option (list string))) (fs : fsys) (p : path) (create : bool)
  : option (option (list string)) * (fsys * option problem) :=
  let made := match fs (removelast p) with
              | None => if create then makedirs fs [] (removelast p) else (fs, Some NotPermitted)
              | Some _ => (fs, None)
              end in
  match snd made with
  | Some e => (attr, (fst made, Some e))
  | None =>
      let (r, attr') := cached_call strs attr true in
      match option_map format_node_strings r with
      | None => (attr', (fst made, Some NoText))
      | Some text => (attr', write_text (fst made) p text)
      end
  end.

(** A history of calls on one tree: [to_string include_imports] and [to_file path create]. *)
Inductive op : Type := OString (include_imports : bool) | OFile (p : path) (create : bool).
Fixpoint run (strs : bool -> option (list string)) (attr : option (option (list string))) (fs : fsys) (ops : list op) : fsys :=
  match ops with
  | [] => fs
  | OString b :: r => run strs (snd (cached_call strs attr b)) fs r
  | OFile p c :: r => let x := to_file strs attr fs p c in run strs (fst x) (fst (snd x)) r
  end.

(** ** Renaming of declarations *)

Fixpoint word_prefix (s : string) : string :=
  match s with String c r => if is_word_char c then String c (word_prefix r) else "" | EmptyString => "" end.

(** [re.match(r"class\s+(\w+)\b", s)]: the group and the rest of the string. *)
Definition match_class (s : string) : option (string * string) :=
  if startswith "class" s then
    let r := drop 5 s in
    if String.eqb (lstrip r) r then None
    else match word_prefix (lstrip r) with "" => None | w => Some (w, drop (String.length w) (lstrip r)) end
  else None.
(** [re.search]. *)
Fixpoint search_class (s : string) : option string :=
  match match_class s with
  | Some (w, _) => Some w
  | None => match s with "" => None | String _ r => search_class r end
  end.
(** [re.sub(pattern, f"class {new}", s)], for a name [new] without backslashes. *)
Fixpoint sub_class (fuel : nat) (new s : string) : string :=
  match fuel with
  | O => s
  | S n =>
      match match_class s with
      | Some (_, rest) => "class " ++ new ++ sub_class n new rest
      | None => match s with "" => "" | String c r => String c (sub_class n new r) end
      end
  end.

(** data_type_tree.py:228-244 [rename_declaration]; [new] is [new_name.format(name=...)] as a function of the old name. *)
Definition rename_declaration (declaration : string) (new : string -> string) : string * string :=
  if contains "=" declaration then
    let parts := split_char (chr 61) declaration in
    let old := strip (hd "" parts) in
    (new old ++ " =" ++ String.concat "" (tl parts), old)
  else if startswith "class " declaration then
    match search_class declaration with
    | Some old => (sub_class (String.length declaration) (new old) declaration, old)
    | None => (declaration, "")
    end
  else (declaration, "").

(** data_type_tree.py:210-226 with [make_parent_class_inherit_from_original_type=True]. *)
Definition inheriting (l : list string) : list string :=
  let (renamed, old) := rename_declaration (last l "") (fun n => "_" ++ n) in
  app (removelast l) [renamed; "class " ++ old ++ "(_" ++ old ++ "):" ++ nl ++ TAB ++ "..."].
Definition get_strs_inheriting (s : strategies) (t : tree) (include_imports : bool) : option (list string) :=
  option_map inheriting (get_strs s t include_imports).
