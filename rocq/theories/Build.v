(** Construction of trees: data_type_tree.py __init__, set_and_sequence_operations.py,
    mapping_data_type_tree.py, dict_data_type_tree.py. *)
From Coq Require Import Ascii String List Bool Arith ZArith.
From Coq Require Import Floats.SpecFloat.
From Verif Require Import PyStr Utils Strategies Dispatch Values Tree.
Import ListNotations.
Local Open Scope string_scope.

(** Result of a construction. *)
Inductive error : Type := BadName (n : string).
Inductive res (A : Type) : Type := Ok (a : A) | Err (e : error) | OutOfFuel.
Arguments Ok {A}. Arguments Err {A}. Arguments OutOfFuel {A}.
Definition bind {A B} (r : res A) (f : A -> res B) : res B :=
  match r with Ok a => f a | Err e => Err e | OutOfFuel => OutOfFuel end.

(** ** Names *)

(** The leading [^\d+] of a string is dropped: the rest. *)
Definition drop_digits (s : string) : string := lstrip_by is_decimal s.

(** mapping_data_type_tree.py:103-117: the loop; [up] tells whether the next kept character is put in
    upper case (it follows a removed one, or is the first one: line 119). *)
Fixpoint camel_loop (up : bool) (s : string) : string :=
  match s with
  | "" => ""
  | String c r =>
      if is_alpha c || is_numeric c
      then (if up then upper_char c else String c "") ++ camel_loop false r
      else camel_loop true r
  end.

(** mapping_data_type_tree.py:93-123 [_to_camel_case]. *)
Definition to_camel_case (s : string) : string :=
  let rest := drop_digits s in
  match rest with "" => s | _ => camel_loop true rest end.

(** set_and_sequence_operations.py:51-58: the numbering loop, [count] from 2 on.  The fuel is the
    number of names in use, which is enough (theorem [fresh_name_fresh]). *)
Fixpoint number_from (fuel count : nat) (name : string) (used : list string) : string :=
  let m := name ++ str_of_nat count in
  match fuel with
  | O => m
  | S f => if mem m used then number_from f (S count) name used else m
  end.
Definition fresh_name (name : string) (used : list string) : string :=
  if mem name used then number_from (List.length used) 2 name used else name.

(** set_and_sequence_operations.py:50. *)
Definition element_name (parent : string) (v : pyval) : string := parent ++ capitalize (ty_name (type_of v)).

(** mapping_data_type_tree.py:27, 32. *)
Definition value_name (parent : string) (k : key) : string :=
  parent ++ match k with KStr s => to_camel_case s | _ => ty_name (key_type k) end.

(** ** Metadata of dictionaries *)

(** dict_data_type_tree.py:70-81 [DictMetadata.__init__] with [_update_key_info(force...=True)]. *)
Definition init_meta (data : list (key * pyval)) : meta :=
  Meta data (map fst data)
       (map (fun k => (k, true)) (filter (fun k => negb (is_hidden k)) (map fst data))).

(** dict_data_type_tree.py:131-140, 142-176 [update] and [_update_key_info] of another metadata object
    (docstrings left out). *)
Definition update_meta (m other : meta) : meta :=
  let data := fold_left (fun d kv => if dmem (fst kv) d then d else dset (fst kv) (snd kv) d)
                        (m_data other) (m_data m) in
  let required := fold_left (fun r kv => if dmem (fst kv) r || is_hidden (fst kv) then r
                                         else dset (fst kv) false r) data (m_required m) in
  let introduced := m_initial other in
  let required :=
    match introduced with
    | [] => map (fun e => (fst e, false)) required
    | _ => fold_left (fun r k => if existsb (key_eqb k) introduced || is_hidden k then r else dset k false r)
                     (m_initial m) required
    end in
  Meta data (m_initial m) required.

(** dict_data_type_tree.py:83-89 [get_keys] of a typed dict: the visible keys. *)
Definition visible_keys (d : list (key * pyval)) : list key :=
  filter (fun k => negb (is_hidden k)) (map fst d).

(** ** Similarity *)

(** dict_data_type_tree.py:41-46 [percentage_similarity]: [int(100 * (common / total))] in binary64. *)
Definition float_of_nat (n : nat) : spec_float := binary_normalize 53 1024 (Z.of_nat n) 0 false.
Definition int_of_float (f : spec_float) : nat :=
  match f with
  | S754_finite false m e =>
      Z.to_nat (if (e <? 0)%Z then Z.shiftr (Zpos m) (- e) else Z.shiftl (Zpos m) e)
  | _ => 0
  end.
Definition percentage (common total : nat) : nat :=
  if Nat.eqb total 0 then 0
  else int_of_float (SFmul 53 1024 (float_of_nat 100) (SFdiv 53 1024 (float_of_nat common) (float_of_nat total))).

(** dict_data_type_tree.py:98-100: sets of common and of all keys, as duplicate free lists. *)
Definition common_keys (ks : list (list key)) : list key :=
  match ks with
  | [] => []
  | k :: r => filter (fun x => forallb (existsb (key_eqb x)) r) k
  end.
Fixpoint add_keys (new acc : list key) : list key :=
  match new with
  | [] => acc
  | k :: r => add_keys r (if existsb (key_eqb k) acc then acc else (acc ++ [k])%list)
  end.
Definition total_keys (ks : list (list key)) : list key := fold_left (fun acc k => add_keys k acc) ks [].

(** dict_data_type_tree.py:102-108: the runtime types seen under each key. *)
Definition add_type (t : pytype) (seen : list nat) : list nat :=
  let seen := if Nat.eqb (ty_id t) t_float then filter (fun x => negb (Nat.eqb x t_int)) seen else seen in
  if existsb (Nat.eqb (ty_id t)) seen then seen else (seen ++ [ty_id t])%list.
Definition value_types (ms : list meta) : list (key * list nat) :=
  fold_left (fun vt kv =>
               dset (fst kv) (add_type (type_of (snd kv)) (match dget (fst kv) vt with Some l => l | None => [] end)) vt)
            (flat_map m_data ms) [].

(** dict_data_type_tree.py:91-109, 38-50 and set_and_sequence_operations.py:110-114: does the
    comparison of these metadata objects lead to a merge? *)
Definition should_merge (s : strategies) (ms : list meta) : bool :=
  let ks := map (fun m => visible_keys (m_data m)) ms in
  let common := List.length (common_keys ks) in
  let total := List.length (total_keys ks) in
  negb (Nat.ltb (percentage common (common + (total - common))) (s_merge s))
  && forallb (fun e => Nat.eqb (List.length (snd e)) 1) (value_types ms).

Definition metas_of (s : strategies) (ts : list tree) : list meta :=
  flat_map (fun t => match tkind t with NDict _ m => if is_typed_dict s m then [m] else [] | _ => [] end) ts.

(** dict_data_type_tree.py:346-348 [update_data_and_metadata]. *)
Definition update_node (t other : tree) : tree :=
  match tkind t, tkind other with
  | NDict _ m, NDict _ m' =>
      let m'' := update_meta m m' in
      Node (Info (tname t) (i_depth (ti t)) (theight t) (i_root (ti t)) (NDict (m_data m'') m'') (i_type (ti t))) (tcs t)
  | _, _ => t
  end.

Definition node_data (t : tree) : list (key * pyval) := match tkind t with NDict d _ => d | _ => [] end.
Definition node_meta (t : tree) : meta := match tkind t with NDict _ m => m | _ => Meta [] [] [] end.

(** [min] of strings. *)
Definition str_min (a b : string) : string := if String.ltb b a then b else a.

(** Replace the metadata of a dict node (dict_data_type_tree.py:423). *)
Definition set_meta (m : meta) (t : tree) : tree :=
  match tkind t with
  | NDict d _ => Node (Info (tname t) (i_depth (ti t)) (theight t) (i_root (ti t)) (NDict d m) (i_type (ti t))) (tcs t)
  | _ => t
  end.

(** dict_data_type_tree.py:386-424 [from_multiple_dict_data_type_trees]; [bld] builds a dict node from
    a name and its data. *)
Definition from_multiple (bld : string -> list (key * pyval) -> res tree) (trees : list tree) : res tree :=
  let merged := fold_left (fun d t => dupdate d (node_data t)) trees [] in
  match trees with
  | [] => Err (BadName "")   (* check_same raises ValueError; unreachable: similarity is 0 *)
  | first :: _ =>
      let m := fold_left (fun m t => update_meta m (node_meta t)) trees (node_meta first) in
      let name := fold_left (fun n t => str_min n (tname t)) trees (tname first) in
      bind (bld name merged) (fun t => Ok (set_meta m t))
  end.

(** The order in which a Python [set] of nodes is iterated: any function that permutes its argument.
    The number tells the place in the code: 0 for the set itself, 1 for its copy
    (set_and_sequence_operations.py:134), 2 for the set after the merge (142). *)
Definition set_order : Type := nat -> list tree -> list tree.

Definition limit {A} (s : strategies) (l : list A) : list A :=
  match effective_limit s with Some n => firstn n l | None => l end.

(** set_and_sequence_operations.py:85-97, 71-79: adding a child to the set of children. *)
Definition add_child (s : strategies) (child : tree) (name : string) (st : list tree * list string)
  : list tree * list string :=
  let (children, names) := st in
  if existsb (teq s child) children
  then if node_is_typed_dict s child
       then (map (fun c => if teq s child c then update_node c child else c) children, names)
       else st
  else ((children ++ [child])%list, (names ++ [name])%list).

(** set_and_sequence_operations.py:48-80, list and set case; [names] are the values of [names_added]. *)
Fixpoint build_set (s : strategies) (bld : string -> pyval -> res tree) (parent : string)
  (els : list pyval) (st : list tree * list string) : res (list tree) :=
  match els with
  | [] => Ok (fst st)
  | v :: r =>
      let name := fresh_name (element_name parent v) (snd st) in
      bind (bld name v) (fun child => build_set s bld parent r (add_child s child name st))
  end.

(** set_and_sequence_operations.py:48-73, tuple case; [added] is [names_added]. *)
Definition lookup_tree (s : strategies) (t : tree) (added : list (tree * string)) : option string :=
  option_map snd (find (fun e => teq s t (fst e)) added).
Fixpoint build_list (s : strategies) (bld : string -> pyval -> res tree) (parent : string)
  (els : list pyval) (children : list tree) (added : list (tree * string)) : res (list tree) :=
  match els with
  | [] => Ok children
  | v :: r =>
      let name := fresh_name (element_name parent v) (map snd added) in
      bind (bld name v) (fun child =>
        match lookup_tree s child added with
        | Some n => build_list s bld parent r (children ++ [rename n child])%list added
        | None => build_list s bld parent r (children ++ [child])%list (added ++ [(child, tname child)])%list
        end)
  end.

Definition is_td (s : strategies) (t : tree) : bool := node_is_typed_dict s t.
Definition no_sharing (ts : list tree) : list (key * nat * tree) := map (fun t => (no_key, 1, t)) ts.

(** set_and_sequence_operations.py:99-142 [_merge_similar_typed_dicts] for sets. *)
Definition merge_set (s : strategies) (ord : set_order) (bld_dict : string -> list (key * pyval) -> res tree)
  (children : list tree) : res (list (key * nat * tree)) :=
  if should_merge s (metas_of s (ord 0 children))
  then bind (from_multiple bld_dict (filter (is_td s) (ord 1 children)))
            (fun merged =>
               let rest := filter (fun c => negb (is_td s c)) children in
               Ok (no_sharing (ord 2 (if existsb (teq s merged) rest then rest else (rest ++ [merged])%list))))
  else Ok (no_sharing (ord 0 children)).

(** The same for the list of children of a fixed size tuple: one merged node in several places. *)
Definition merge_list (s : strategies) (bld_dict : string -> list (key * pyval) -> res tree)
  (children : list tree) : res (list (key * nat * tree)) :=
  if should_merge s (metas_of s children)
  then bind (from_multiple bld_dict (filter (is_td s) children))
            (fun merged =>
               let n := List.length (filter (is_td s) children) in
               Ok (map (fun c => if is_td s c then (no_key, n, merged) else (no_key, 1, c)) children))
  else Ok (no_sharing children).

(** mapping_data_type_tree.py:26-40: one node per visible key. *)
Fixpoint build_values (bld : string -> pyval -> res tree) (parent : string) (kvs : list (key * pyval))
  : res (list (key * tree)) :=
  match kvs with
  | [] => Ok []
  | (k, v) :: r =>
      if is_hidden k then build_values bld parent r
      else bind (bld (value_name parent k) v) (fun c =>
             bind (build_values bld parent r) (fun cs => Ok ((k, c) :: cs)))
  end.

(** mapping_data_type_tree.py:24, 39: [children_info], groups of keys with equal nodes in order of first
    occurrence. *)
Fixpoint add_group (s : strategies) (k : key) (c : tree) (gs : list (tree * list key)) : list (tree * list key) :=
  match gs with
  | [] => [(c, [k])]
  | (t, ks) :: r => if teq s c t then (t, (ks ++ [k])%list) :: r else (t, ks) :: add_group s k c r
  end.
Definition groups_of (s : strategies) (cs : list (key * tree)) : list (tree * list key) :=
  fold_left (fun gs kc => add_group s (fst kc) (snd kc) gs) cs [].

(** mapping_data_type_tree.py:52-64: renaming of the groups with several keys; [last] is
    [last_name_added]. *)
Definition group_name (parent : string) (t : tree) (last : list (nat * nat)) : string :=
  parent ++ capitalize (ty_name (i_type (ti t)))
  ++ match find (fun e => Nat.eqb (fst e) (ty_id (i_type (ti t)))) last with
     | Some e => str_of_nat (snd e + 1)
     | None => ""
     end.
Fixpoint bump (id : nat) (last : list (nat * nat)) : list (nat * nat) :=
  match last with
  | [] => [(id, 1)]
  | (i, n) :: r => if Nat.eqb i id then (i, S n) :: r else (i, n) :: bump id r
  end.
Fixpoint rename_groups (parent : string) (gs : list (tree * list key)) (last : list (nat * nat))
  : list (tree * list key) :=
  match gs with
  | [] => []
  | (t, ks) :: r =>
      if Nat.ltb 1 (List.length ks)
      then (rename (group_name parent t last) t, ks) :: rename_groups parent r (bump (ty_id (i_type (ti t))) last)
      else (t, ks) :: rename_groups parent r last
  end.

(** mapping_data_type_tree.py:43-64 [_assign_same_data_type_tree_to_keys_with_same_value_type].  The
    multiplicity counts the keys of the group that iteration visits. *)
Definition share_groups (s : strategies) (parent : string) (cs : list (key * tree)) : list (key * nat * tree) :=
  let gs := rename_groups parent (groups_of s cs) [] in
  let visited := map fst (before_none fst cs) in
  map (fun kc =>
         match find (fun g => existsb (key_eqb (fst kc)) (snd g)) gs with
         | Some (t, ks) => (fst kc, List.length (filter (fun k => existsb (key_eqb k) visited) ks), t)
         | None => (fst kc, 1, snd kc)
         end) cs.

(** ** Construction *)

(** data_type_tree.py:129-134 [_get_height] of generic nodes. *)
Definition height_of (cs : list (key * nat * tree)) : nat :=
  S (maxl (map (fun e => theight (etree e)) (iter_entries cs))).

(** data_type_tree.py:77-102 [__init__], 136-140 [_validate_name] for a node without children. *)
Definition leaf (name : string) (depth : nat) (root : bool) (k : nkind) (t : pytype) : res tree :=
  if is_compatible name then Ok (Node (Info name depth 0 root k t) []) else Err (BadName name).

Definition inner (name : string) (depth : nat) (root : bool) (k : nkind) (t : pytype)
  (cs : list (key * nat * tree)) : tree :=
  Node (Info name depth (height_of cs) root k t) cs.

(** factory.py:239-250 and data_type_tree.py:77-102.  Names are not validated for dicts
    (dict_data_type_tree.py:212-216). *)
Fixpoint build (s : strategies) (ord : set_order) (fuel : nat) (name : string) (depth : nat) (root : bool)
  (v : pyval) {struct fuel} : res tree :=
  match v with
  | VStr _ | VInst _ => leaf name depth root NInst (type_of v)
  | VFun f => leaf name depth root (NFun f) (type_of v)
  | VClass _ n => leaf name depth root (NClass n) (type_of v)
  | VModule _ => leaf name depth root NModule (type_of v)
  | VIO _ => leaf name depth root NIO (type_of v)
  | VNdarray _ d => leaf name depth root (NNumpy d) (type_of v)
  | VSeq k t l =>
      if negb (is_compatible name) then Err (BadName name) else
      match fuel with
      | O => OutOfFuel
      | S f =>
          let bld := fun n x => build s ord f n (S depth) false x in
          let bld_dict := fun n d => build s ord f n (S depth) false (exhaust (VMap MDict ty_dict d)) in
          bind (match k, s_tuple s with
                | KTuple, TFixed =>
                    bind (build_list s bld name (limit s l) [] []) (merge_list s bld_dict)
                | _, _ =>
                    bind (build_set s bld name (limit s l) ([], [])) (merge_set s ord bld_dict)
                end)
               (fun cs => Ok (inner name depth root (NSeq k) t cs))
      end
  | VMap k t kvs =>
      match k with
      | MProxy => if negb (is_compatible name) then Err (BadName name) else
          match fuel with
          | O => OutOfFuel
          | S f =>
              bind (build_values (fun n x => build s ord f n (S depth) false x) name (limit s kvs))
                   (fun cs => Ok (inner name depth root NProxy t (share_groups s name cs)))
          end
      | MDict =>
          match fuel with
          | O => OutOfFuel
          | S f =>
              let data := if is_td_strategy s then kvs else limit s kvs in
              bind (build_values (fun n x => build s ord f n (S depth) false x) name data)
                   (fun cs => Ok (inner name depth root (NDict data (init_meta data)) t (share_groups s name cs)))
          end
      end
  end.

(** lazy_type_hint_abc.py:78-89 [from_data]. *)
Definition from_data (s : strategies) (ord : set_order) (v : pyval) (class_name : string) : res tree :=
  if is_compatible class_name then build s ord (S (vdepth v)) class_name 0 true v
  else Err (BadName class_name).
