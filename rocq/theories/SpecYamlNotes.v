(** A YAML file read together with its comments (C101): the value, and the value with the documentation of each key before it. *)
From Coq Require Import Ascii String List Arith.
From Verif Require Import SpecNames SpecText SpecYaml Dispatch Values SpecYamlDoc.
Import ListNotations.
Local Open Scope string_scope.
Local Open Scope nat_scope.

Definition doc_entry (k : string) (o : option string) : list (key * pyval) :=
  match o with Some t => [(KStr (doc_name k), VStr t)] | None => [] end.

(** As [Entries], [Items] and [Collection] of [SpecYamlDoc.v]; [text i k o]: [o] is the documentation of the key [k] in line [i], if any. *)
Section Commented.
  Variable inline : string -> pyval -> Prop.
  Variable text : nat -> string -> option string -> Prop.

  Inductive CEntries : nat -> list token -> list (key * pyval) -> list (key * pyval) -> Prop :=
    | ce_nil : forall c, CEntries c [] [] []
    | ce_inline : forall c i k o rest v ts d d', text i k o -> inline rest v -> CEntries c ts d d' ->
        CEntries c (TKey i c k rest :: ts) ((KStr k, v) :: d) (doc_entry k o ++ (KStr k, v) :: d')%list
    | ce_text : forall c i k o x ts d d', text i k o -> CEntries c ts d d' ->
        CEntries c (TText i c k x :: ts) ((KStr k, VStr x) :: d) (doc_entry k o ++ (KStr k, VStr x) :: d')%list
    | ce_null : forall c i k o rest ts d d', text i k o -> bare rest -> CEntries c ts d d' ->
        CEntries c (TKey i c k rest :: ts) ((KStr k, VInst ty_none) :: d) (doc_entry k o ++ (KStr k, VInst ty_none) :: d')%list
    | ce_block : forall c i k o rest body v v' ts d d', text i k o -> bare rest -> Forall (within c) body -> CCollection body v v' -> CEntries c ts d d' ->
        CEntries c (TKey i c k rest :: (body ++ ts)) ((KStr k, v) :: d) (doc_entry k o ++ (KStr k, v') :: d')%list
  with CItems : nat -> list token -> list pyval -> list pyval -> Prop :=
    | ci_nil : forall c, CItems c [] [] []
    | ci_inline : forall c rest v ts l l', inline rest v -> CItems c ts l l' -> CItems c (TItem c rest :: ts) (v :: l) (v :: l')
    | ci_map : forall c body v v' ts l l', Forall (fun t => c < col_of t) body -> CCollection body v v' -> CItems c ts l l' ->
        CItems c (TDash c :: (body ++ ts)) (v :: l) (v' :: l')
  with CCollection : list token -> pyval -> pyval -> Prop :=
    | cc_map : forall c ts d d', ts <> [] -> CEntries c ts d d' -> NoDup (map fst d) -> CCollection ts (VMap MDict ty_dict d) (VMap MDict ty_dict d')
    | cc_seq : forall c ts l l', ts <> [] -> CItems c ts l l' -> CCollection ts (VSeq KList ty_list l) (VSeq KList ty_list l').
End Commented.
Scheme CEntries_mind := Induction for CEntries Sort Prop
  with CItems_mind := Induction for CItems Sort Prop
  with CCollection_mind := Induction for CCollection Sort Prop.
Combined Scheme commented_ind from CEntries_mind, CItems_mind, CCollection_mind.

(** The line [i] of the key [k] of the mapping under the keys [p]: the keys of a mapping stand in the column of the first one, and what
    is under a key is what is inside of it ([within]) up to the next key. *)
Definition key_of (i c : nat) (k : string) (t : token) : Prop := match t with TKey i' c' k' _ | TText i' c' k' _ => i' = i /\ c' = c /\ k' = k | _ => False end.
Definition starts (c : nat) (ts : list token) : Prop := exists t r, ts = t :: r /\ col_of t = c.
Inductive line_of : list token -> list string -> string -> nat -> Prop :=
  | lo_here : forall c i k t ts, starts c ts -> In t ts -> key_of i c k t -> line_of ts [] k i
  | lo_in : forall c j key rest a body b p k i, starts c (a ++ TKey j c key rest :: (body ++ b)) -> Forall (within c) body ->
      (b = [] \/ exists t r, b = t :: r /\ ~ within c t) -> line_of body p k i ->
      line_of (a ++ TKey j c key rest :: (body ++ b)) (key :: p) k i.

(** What is under the keys [p] of nested dicts. *)
Inductive value_at : pyval -> list string -> pyval -> Prop :=
  | va_here : forall v, value_at v [] v
  | va_key : forall mk t d k x p y, In (KStr k, x) d -> value_at x p y -> value_at (VMap mk t d) (k :: p) y.

(** The tokens of item [m] of a sequence in column [c], when the item is written below or behind its dash. *)
Inductive item_at (c : nat) : list token -> nat -> list token -> Prop :=
  | ia_here : forall body b, Forall (fun t => c < col_of t) body -> (b = [] \/ exists t r, b = t :: r /\ col_of t <= c) -> item_at c (TDash c :: (body ++ b)) 0 body
  | ia_single : forall rest ts m body, item_at c ts m body -> item_at c (TItem c rest :: ts) (S m) body
  | ia_next : forall first b m body, Forall (fun t => c < col_of t) first -> item_at c b m body -> (exists t r, b = t :: r /\ col_of t <= c) ->
      item_at c (TDash c :: (first ++ b)) (S m) body.
(** The line [i] of the key [k] of the mapping that is item [m] of the sequence under the keys [p]. *)
Inductive item_line : list token -> list string -> nat -> string -> nat -> Prop :=
  | il_here : forall c ts m body k i, starts c ts -> item_at c ts m body -> line_of body [] k i -> item_line ts [] m k i
  | il_in : forall c j key rest a body b p m k i, starts c (a ++ TKey j c key rest :: (body ++ b)) -> Forall (within c) body ->
      (b = [] \/ exists t r, b = t :: r /\ ~ within c t) -> item_line body p m k i ->
      item_line (a ++ TKey j c key rest :: (body ++ b)) (key :: p) m k i.
