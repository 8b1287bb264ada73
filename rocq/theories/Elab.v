(** The declaration (SpecTypes.v) that the string of a node spells. *)
From Coq Require Import Ascii String List Bool Arith.
From Verif Require Import PyStr Utils Strategies Docstring Imports Dispatch Values Tree Build Emit SpecTypes.
Import ListNotations.
Local Open Scope string_scope.

(** The first type of the list that is spelled like this. *)
Definition pick (l : list ty) (x : string) : ty :=
  match find (fun t => String.eqb (print_ty t) x) l with Some t => t | None => TName x end.
Definition tor_any (l : list ty) : list ty := match l with [] => [TName "Any"] | _ => l end.
Definition members (l : list ty) : list ty := map (pick l) (union_members (map print_ty l)).
Definition one_of (l : list ty) : ty := match l with [x] => x | _ => TApp "Union" l end.
Definition union_ty (l : list ty) : ty := one_of (members (tor_any l)).

Definition tuple_args (st : tuple_strategy) (l : list ty) : list ty :=
  let cts := match st with TFixed => tor_any l | TAnySize => members (tor_any l) end in
  if Nat.eqb (List.length cts) 1 && mem "Any" (map print_ty cts) then [TName "Any"; TDots]
  else match st with TFixed => cts | TAnySize => [one_of cts; TDots] end.

Definition class_ref (n : string) : ty := if is_builtin n then TName n else TStr n.

Definition key_ty (ks : list key) : ty :=
  match ks with
  | [] => TName "Any"
  | _ => one_of (members (map (fun k => TName (ty_name (key_type k))) ks))
  end.

Definition typed_ref (s : strategies) (c : tree) (inlined : ty) : ty :=
  if perm s c then TName (to_camel_case (tname c)) else inlined.

Definition wrap (s : strategies) (m : meta) (k : key) (t : ty) : ty :=
  match dget k (m_required m) with
  | None => t
  | Some required =>
      let v := if required then t else TApp "NotRequired" [t] in
      if s_read_only s then TApp "ReadOnly" [v] else v
  end.

Definition key_doc (m : meta) (k : string) : option string :=
  match dget (KStr (hidden_prefix ++ k)) (m_data m) with Some (VStr d) => Some d | _ => None end.

(** The right hand side of a node that is not a TypedDict nor a Protocol. *)
Fixpoint rhs (s : strategies) (t : tree) : ty :=
  match t with
  | Node i cs =>
      let visited := before_none fst
        (map (fun e => (fst (fst e), if perm s (snd e) then TName (tname (snd e)) else rhs s (snd e))) cs) in
      let inside := map snd visited in
      let dict_ty := TApp (fst (map_container s (i_kind i) (i_type i))) [key_ty (map (fun e => fst (fst e)) cs); union_ty inside] in
      match i_kind i with
      | NInst => if Nat.eqb (ty_id (i_type i)) t_NoneType then TApp "Optional" [TName "object"] else class_ref (ty_name (i_type i))
      | NFun f =>
          match f_sig f with
          | None => TName "Callable"
          | Some (_, n) => TApp "Callable" [TArgs (repeat (TName "Any") n); TName "Any"]
          end
      | NClass n => TApp "Type" [class_ref n]
      | NModule => TName "ModuleType"
      | NIO => TName "TextIO"
      | NNumpy d => TStr ("NDArray[np." ++ d ++ "]")
      | NSeq k =>
          TApp (fst (seq_container s k (i_type i)))
               (match k with KTuple => tuple_args (s_tuple s) inside | _ => [union_ty inside] end)
      | NProxy => dict_ty
      | NDict _ _ => dict_ty
      end
  end.

Definition typed_field (s : strategies) (m : meta) (e : key * nat * tree) : field :=
  Field (key_str (fst (fst e))) (wrap s m (fst (fst e)) (typed_ref s (snd e) (rhs s (snd e)))) (key_doc m (key_str (fst (fst e)))).

Definition fun_decl (name : string) (f : pyfun) (t : ty) : decl :=
  match f_sig f with
  | None => DAlias name t
  | Some (sig, n) =>
      if f_lambda f then DAlias name t
      else DProto name (if contains "->" sig then sig
                        else match f_return f with Some true => sig ++ " -> Any" | _ => sig ++ " -> None" end)
  end.

Definition visible_field (f : field) : bool := negb (startswith hidden_prefix (fd_key f)).

Definition decl_of (s : strategies) (t : tree) : decl :=
  match tkind t with
  | NFun f => fun_decl (tname t) f (rhs s t)
  | NDict data m =>
      if is_typed_dict s m
      then DTyped (tname t) (functional_syntax m)
             (filter visible_field (map (typed_field s m) (tcs t))) (class_doc s data)
      else DAlias (tname t) (rhs s t)
  | _ => DAlias (tname t) (rhs s t)
  end.
