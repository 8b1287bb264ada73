(** Objects of subclasses of LazyTypeHintLive.  lazy_type_hint_live.py:66-77 and 165-173: the name of the class of the object, [type(self).__name__], is
    the name that remove_all_instance_variables looks for; [Live.initial_lines] is the case of the class itself.  The methods are final or inherited, nothing else depends on the class.
    Simplification: a subclass that overrides a method that is not final is not considered. *)
From Coq Require Import String List.
From Verif Require Import PyStr Exc PyFile Live.
Import ListNotations.
Local Open Scope string_scope.

(** _generate_this_file_pyi (165-173), [cls] is [type(self).__name__] *)
Definition lines_for (unparsed : list string) (cls : string) : exc (list string) :=
  andthen (remove_all_private_methods unparsed) (remove_all_instance_variables cls).
(** __init__ (66-77) *)
Definition open_as (unparsed : list string) (cls : string) (d : disk) : exc (list string) :=
  match d_stub d with
  | None => lines_for unparsed cls
  | Some text => Val (py_read (universal text))
  end.
