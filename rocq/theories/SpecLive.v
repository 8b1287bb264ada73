(** What the stub of [LazyTypeHintLive] should look like, without reference to the model of the tool. *)
From Coq Require Import Ascii String List Bool Arith Permutation.
From Verif Require Import PyStr.
Import ListNotations.
Local Open Scope string_scope.

(** The parts of the stub as first generated.  A method is its one-line definition

      def <name><args1>class_name: str<args2>-> <result>:<end> *)
Record method : Type := Method { m_args1 : string; m_args2 : string; m_result : string; m_end : string }.
Record template : Type := Template {
  t_head : list string;      (* lines above the registry *)
  t_indent : string; t_type : string;   (* "<indent>classes_created<type>= Any" *)
  t_mid1 : list string;
  t_yaml : method;           (* from_yaml_file *)
  t_mid2 : list string;
  t_data : method;           (* from_data *)
  t_tail : list string }.

Definition def_line (name : string) (m : method) (annotation result : string) : string :=
  "    def " ++ name ++ m_args1 m ++ "class_name:" ++ annotation ++ m_args2 m ++ "-> " ++ result ++ ":" ++ m_end m.
Definition plain_def (name : string) (m : method) : string := def_line name m " str" (m_result m).

(** The line that a class [c] adds to a method. *)
Definition literal (c : string) : string := " Literal[""" ++ c ++ """]".
Definition overload_def (name : string) (m : method) (c : string) : string := def_line name m (literal c) c.

Definition import_line (c : string) : string := "from lazy_type_hint.generators.build." ++ c ++ " import " ++ c.

(** The registry of the classes: [Any], or [Union[Literal["A", "B"], Any]]. *)
Definition quoted (c : string) : string := """" ++ c ++ """".
Definition registry_value (cs : list string) : string :=
  match cs with
  | [] => " Any"
  | _ => "Union[Literal[" ++ join ", " (map quoted cs) ++ "], Any]"
  end.
Definition registry (t : template) (cs : list string) : string :=
  t_indent t ++ "classes_created" ++ t_type t ++ "=" ++ registry_value cs.

Definition overload_line : string := "    @overload".
Definition override_line : string := "    @override".

Definition template_lines (t : template) : list string :=
  t_head t ++ [registry t []] ++ t_mid1 t ++ [override_line; plain_def "from_yaml_file" (t_yaml t)] ++
  t_mid2 t ++ [override_line; plain_def "from_data" (t_data t)] ++ t_tail t.

(** [Overloads name m cs ls]: one overload for each of [cs], decorated at least once with "@overload". *)
Inductive Overloads (name : string) (m : method) : list string -> list string -> Prop :=
  | Overloads_nil : Overloads name m [] []
  | Overloads_cons : forall k c cs ls,
      Overloads name m cs ls ->
      Overloads name m (c :: cs) (repeat overload_line (S k) ++ override_line :: overload_def name m c :: ls).

(** All the definitions of one method: the overloads, in some order, and the plain one. *)
Definition MethodPart (name : string) (m : method) (cs ls : list string) : Prop :=
  exists cs' over k, Permutation cs cs' /\ Overloads name m cs' over /\
    (cs = [] \/ 1 <= k) /\
    ls = (over ++ repeat overload_line k ++ [override_line; plain_def name m])%list.

(** The lines of a stub: [imports], [cs], [ys], [ds] are the classes with an import line, in the registry,
    and with overloads of the two methods. *)
Definition Stub (t : template) (imports cs ys ds : list string) (ls : list string) : Prop :=
  exists py pd tail,
    MethodPart "from_yaml_file" (t_yaml t) ys py /\ MethodPart "from_data" (t_data t) ds pd /\
    (exists e, t_tail t = (tail ++ e)%list /\ Forall (fun l => l = "") e) /\
    ls = (map import_line imports ++ t_head t ++ [registry t cs] ++ t_mid1 t ++ py ++ t_mid2 t ++ pd ++ tail)%list.

(** ** Conditions on the first stub *)
Definition one_line (s : string) : bool := str_forall (fun c => negb (is_linebreak c)) s.
Definition no_at (s : string) : bool := negb (contains "@" s).

(** A line that has nothing to do with the classes. *)
Definition neutral (l : string) : bool :=
  one_line l && negb (contains "classes_created" l) &&
  negb (startswith "def from_data" (strip l)) && negb (startswith "def from_yaml_file" (strip l)) &&
  negb (startswith "from lazy_type_hint.generators.build." l).

Definition ends_gap (ls : list string) : bool := match rev ls with [] => false | l :: _ => no_at l end.

Definition good_method (name : string) (m : method) : bool :=
  one_line (m_args1 m) && one_line (m_args2 m) && one_line (m_result m) && one_line (m_end m) &&
  no_at (m_args1 m) && no_at (m_args2 m) && no_at (m_result m) && no_at (m_end m) &&
  (* "class_name" is the name of the argument and of nothing in front of it *)
  match find_str "class_name" (("    def " ++ name ++ m_args1 m) ++ "class_name") with
  | Some i => Nat.eqb i (String.length ("    def " ++ name ++ m_args1 m))
  | None => false
  end &&
  (startswith "," (m_args2 m) || startswith ")" (m_args2 m)) &&
  negb (contains ":" (m_result m)) && negb (contains ">" (m_result m)) &&
  negb (contains ":" (m_end m)) && negb (contains ">" (m_end m)) &&
  negb (contains "classes_created" (("    def " ++ name ++ m_args1 m) ++ "class_name: Literal[")) &&
  negb (contains "classes_created" (plain_def name m)).

Definition well_formed (t : template) : bool :=
  forallb neutral (t_head t ++ t_mid1 t ++ t_mid2 t ++ t_tail t) &&
  ends_gap (t_mid1 t) && ends_gap (t_mid2 t) &&
  str_forall (fun c => Nat.eqb (ord c) 32) (t_indent t) && one_line (t_type t) &&
  good_method "from_yaml_file" (t_yaml t) && good_method "from_data" (t_data t).
