(** The strings of the nodes spell the declarations of Elab.v. *)
From Coq Require Import Ascii String List Bool Arith Lia Sorting.Sorted Permutation.
From Verif Require Import PyStr PyStrFacts Utils Strategies Docstring Imports Dispatch Values Tree Build Emit.
From Verif Require Import TreeFacts SpecData BuildFacts TreeProofs SpecTypes Elab.
Import ListNotations.
Local Open Scope string_scope.

Lemma map_repeat {A B} (f : A -> B) x n : map f (repeat x n) = repeat (f x) n.
Proof. induction n; simpl; congruence. Qed.

(** ** Unions *)
Lemma pick_print l x : In x (map print_ty l) -> print_ty (pick l x) = x.
Proof.
  intros H. unfold pick. destruct (find _ l) eqn:E.
  - apply find_some in E as [_ E]. now apply String.eqb_eq.
  - apply in_map_iff in H as (t & <- & H). pose proof (find_none _ _ E _ H) as N. cbv beta in N. rewrite String.eqb_refl in N. discriminate.
Qed.
Lemma pick_In l x : In x (map print_ty l) -> In (pick l x) l.
Proof.
  intros H. unfold pick. destruct (find _ l) eqn:E.
  - now apply find_some in E as [E _].
  - apply in_map_iff in H as (t & <- & H). pose proof (find_none _ _ E _ H) as N. cbv beta in N. rewrite String.eqb_refl in N. discriminate.
Qed.
Lemma union_members_In x l : In x (union_members l) -> In x l.
Proof.
  unfold union_members. intros H. destruct (mem "float" l && mem "int" l).
  - apply filter_In in H as [H _]. apply (proj1 (dedup_In x l)), sort_In, H.
  - apply (proj1 (dedup_In x l)), sort_In, H.
Qed.
Lemma members_print l : map print_ty (members l) = union_members (map print_ty l).
Proof.
  unfold members. rewrite map_map. rewrite <- (map_id (union_members _)) at 2. apply map_ext_in.
  intros x H. apply pick_print. now apply union_members_In.
Qed.
Lemma members_In t l : In t (members l) -> In t l.
Proof. intros H. apply in_map_iff in H as (x & <- & H). apply pick_In. now apply union_members_In. Qed.
Lemma one_of_print l : print_ty (one_of l) = fst (format_types (map print_ty l)).
Proof. destruct l as [|a [|b l]]; reflexivity. Qed.
Lemma tor_any_print l : map print_ty (tor_any l) = or_any (map print_ty l).
Proof. destruct l; reflexivity. Qed.
Lemma union_ty_print l : print_ty (union_ty l) = fst (types_of (map print_ty l)).
Proof.
  unfold union_ty, types_of. rewrite one_of_print, members_print, tor_any_print.
  destruct (format_types _). reflexivity.
Qed.

Lemma filter_sorted (p : string -> bool) l : StronglySorted str_le l -> StronglySorted str_le (filter p l).
Proof.
  induction 1 as [|x l H IH F]; simpl; [constructor|]. destruct (p x); auto. constructor; auto.
  rewrite Forall_forall in *. intros y Hy. apply filter_In in Hy. apply F. tauto.
Qed.
Lemma union_members_sorted l : StronglySorted str_le (union_members l).
Proof.
  unfold union_members. destruct (mem "float" l && mem "int" l); [apply filter_sorted|]; apply sort_sorted.
Qed.
Lemma union_members_NoDup l : NoDup (union_members l).
Proof.
  unfold union_members. destruct (mem "float" l && mem "int" l); [apply NoDup_filter|]; apply sort_NoDup, dedup_NoDup.
Qed.
Lemma dedup_id l : NoDup l -> dedup l = l.
Proof.
  induction 1 as [|x l H Hl IH]; simpl; auto. rewrite IH. f_equal. clear IH Hl.
  induction l as [|y l IH]; simpl; auto. destruct (String.eqb x y) eqn:E.
  - apply String.eqb_eq in E. subst. exfalso. apply H. now left.
  - simpl. f_equal. apply IH. intros G. apply H. now right.
Qed.
Lemma tuple_args_print st l : join ", " (map print_ty (tuple_args st l)) = fst (tuple_types_of st (map print_ty l)).
Proof.
  unfold tuple_args, tuple_types_of.
  set (cts := match st with TFixed => tor_any l | TAnySize => members (tor_any l) end).
  assert (E : match st with TFixed => or_any (map print_ty l) | TAnySize => union_members (or_any (map print_ty l)) end = map print_ty cts).
  { destruct st; unfold cts; [symmetry; apply tor_any_print|]. now rewrite members_print, tor_any_print. }
  rewrite E, map_length. destruct (Nat.eqb (List.length cts) 1 && mem "Any" (map print_ty cts)); [reflexivity|].
  destruct st; [reflexivity|].
  assert (N : NoDup (map print_ty cts)) by (rewrite <- E; apply union_members_NoDup).
  assert (S : StronglySorted str_le (map print_ty cts)) by (rewrite <- E; apply union_members_sorted).
  rewrite (dedup_id _ N). cbn [map join]. rewrite one_of_print.
  destruct cts as [|a [|b cts]]; cbn [map fst]; try reflexivity.
  rewrite sort_sorted_id by exact S. cbn [map format_types fst]. rewrite app_assoc_s. cbn [String.append]. rewrite app_assoc_s. reflexivity.
Qed.

(** ** Equal signs and white space *)
Definition eqc : ascii := chr 61.
Definition no_eq (s : string) : Prop := no_char eqc s.
Lemma no_eq_app a b : no_eq (a ++ b) <-> no_eq a /\ no_eq b.
Proof. unfold no_eq, no_char. rewrite str_forall_app. apply andb_true_iff. Qed.
Lemma last_split c b a : no_char c b -> last (split_char c (a ++ String c b)) "" = b.
Proof.
  intros Hb. induction a as [|d a IH].
  - cbn [String.append split_char]. rewrite Ascii.eqb_refl, (split_char_single _ _ Hb). reflexivity.
  - cbn [String.append split_char]. pose proof (split_char_nonnil c (a ++ String c b)) as N.
    destruct (Ascii.eqb c d).
    + destruct (split_char c (a ++ String c b)); [contradiction|]. exact IH.
    + destruct (split_char c (a ++ String c b)) as [|h [|h2 t]] eqn:E; [contradiction| |exact IH].
      exfalso. assert (L : forall a, 2 <= List.length (split_char c (a ++ String c b))).
      { clear. induction a as [|d a IH]; cbn [String.append split_char].
        - rewrite Ascii.eqb_refl. simpl. pose proof (split_char_nonnil c b). destruct (split_char c b); simpl; [contradiction|lia].
        - destruct (Ascii.eqb c d); [simpl; lia|]. destruct (split_char c (a ++ String c b)); simpl in *; lia. }
      specialize (L a). rewrite E in L. simpl in L. lia.
Qed.
Definition tight (x : string) : Prop :=
  exists c r d q, x = String c r /\ x = q ++ String d "" /\ is_space c = false /\ is_space d = false.
Lemma rstrip_tight p q d : p d = false -> rstrip_by p (q ++ String d "") = q ++ String d "".
Proof.
  intros H. induction q as [|c q IH]; cbn [String.append rstrip_by].
  - now rewrite H.
  - rewrite IH. destruct (q ++ String d "") eqn:E; auto. now destruct q.
Qed.
Lemma strip_tight x : tight x -> strip (String (chr 32) x) = x.
Proof.
  intros (c & r & d & q & E1 & E2 & Hc & Hd). unfold strip, strip_by. cbn [lstrip_by].
  replace (is_space (chr 32)) with true by reflexivity. rewrite E1. cbn [lstrip_by]. rewrite Hc, <- E1, E2. now apply rstrip_tight.
Qed.
Lemma without_lvalue_spec pre x : no_eq x -> tight x -> without_lvalue (pre ++ "= " ++ x) = x.
Proof.
  intros H T. unfold without_lvalue. change ("= " ++ x) with (String eqc (String (chr 32) x)).
  change (chr 61) with eqc. rewrite last_split; [now apply strip_tight|].
  change (String (chr 32) x) with (" " ++ x). apply no_eq_app. split; [reflexivity | exact H].
Qed.

Lemma tight_ends a b x : is_space a = false -> is_space b = false -> tight (String a (x ++ String b "")).
Proof. intros Ha Hb. exists a, (x ++ String b ""), b, (String a x). repeat split; auto. Qed.

(** ** Trees without equal signs *)
Definition eq_free_node (n : tree) : Prop :=
  no_eq (tname n) /\ no_eq (ty_name (i_type (ti n))) /\
  match tkind n with NClass c => no_eq c | NNumpy d => no_eq d | _ => True end /\
  forall e, In e (tcs n) -> no_eq (ty_name (key_type (ekey e))).
Definition eq_free (t : tree) : Prop := forall n, node_of n t -> eq_free_node n.
Lemma eq_free_child i cs e : eq_free (Node i cs) -> In e cs -> eq_free (snd e).
Proof. intros H He n Hn. apply H. econstructor; eauto. Qed.

Lemma no_eq_join l : (forall x, In x l -> no_eq x) -> no_eq (join ", " l).
Proof. intros H. unfold no_eq, no_char. apply str_forall_join; [reflexivity|]. apply Forall_forall. intros x Hx. now apply H. Qed.
Lemma no_eq_app_ty h args : no_eq h -> (forall t, In t args -> no_eq (print_ty t)) -> no_eq (print_ty (TApp h args)).
Proof.
  intros Hh H. cbn [print_ty]. rewrite !no_eq_app. repeat split; auto; try reflexivity. apply no_eq_join.
  intros x Hx. apply in_map_iff in Hx as (t & <- & Ht). auto.
Qed.
Lemma no_eq_one_of l : (forall t, In t l -> no_eq (print_ty t)) -> no_eq (print_ty (one_of l)).
Proof.
  intros H. destruct l as [|a [|b l]].
  - apply no_eq_app_ty; [reflexivity | intros t []].
  - apply H. now left.
  - apply no_eq_app_ty; [reflexivity | exact H].
Qed.
Lemma tor_any_In t l : In t (tor_any l) -> t = TName "Any" \/ In t l.
Proof. destruct l; simpl; [intros [<-|[]]; auto | auto]. Qed.
Lemma no_eq_union l : (forall t, In t l -> no_eq (print_ty t)) -> no_eq (print_ty (union_ty l)).
Proof.
  intros H. apply no_eq_one_of. intros t Ht. apply members_In, tor_any_In in Ht as [->|Ht]; [reflexivity | auto].
Qed.
Lemma no_eq_tuple st l t : (forall t, In t l -> no_eq (print_ty t)) -> In t (tuple_args st l) -> no_eq (print_ty t).
Proof.
  intros H Ht. unfold tuple_args in Ht. destruct (_ && _).
  - destruct Ht as [<-|[<-|[]]]; reflexivity.
  - destruct st.
    + apply tor_any_In in Ht as [->|Ht]; [reflexivity | auto].
    + destruct Ht as [<-|[<-|[]]]; [|reflexivity]. apply no_eq_union. exact H.
Qed.
Lemma no_eq_class n : no_eq n -> no_eq (print_ty (class_ref n)).
Proof. intros H. unfold class_ref. destruct (is_builtin n); [exact H|]. cbn [print_ty]. rewrite !no_eq_app. repeat split; auto; reflexivity. Qed.
Lemma no_eq_keys ks : (forall k, In k ks -> no_eq (ty_name (key_type k))) -> no_eq (print_ty (key_ty ks)).
Proof.
  intros H. destruct ks as [|k ks]; [reflexivity|]. unfold key_ty. apply no_eq_one_of. intros t Ht.
  apply members_In in Ht. apply in_map_iff in Ht as (k' & <- & Hk). now apply H.
Qed.
Lemma seq_container_eq s k t : no_eq (fst (seq_container s k t)) /\ exists c r, fst (seq_container s k t) = String c r /\ is_space c = false.
Proof.
  unfold seq_container. destruct k; try destruct (s_list s); try destruct (Nat.eqb _ _); (split; [reflexivity | do 2 eexists; split; reflexivity]).
Qed.
Lemma map_container_eq s k t : no_eq (fst (map_container s k t)) /\ exists c r, fst (map_container s k t) = String c r /\ is_space c = false.
Proof.
  unfold map_container. destruct (String.eqb _ _); try destruct (s_dict s); (split; [reflexivity | do 2 eexists; split; reflexivity]).
Qed.
Lemma tight_app_ty h args c r : h = String c r -> is_space c = false -> tight (print_ty (TApp h args)).
Proof.
  intros -> H. cbn [print_ty]. change (String c r ++ ?x) with (String c (r ++ x)).
  rewrite <- (app_assoc_s "[" _ "]"), <- (app_assoc_s r). now apply tight_ends.
Qed.
Definition tightb (x : string) : bool :=
  match x with "" => false | String c _ => negb (is_space c) end && String.eqb (rstrip_by is_space x) x.
Lemma tightb_spec x : tightb x = true -> tight x.
Proof.
  unfold tightb. rewrite andb_true_iff, String.eqb_eq. intros [H1 H2]. destruct x as [|c r]; [discriminate|].
  apply negb_true_iff in H1.
  assert (L : forall y, rstrip_by is_space y = y -> y <> "" -> exists d q, y = q ++ String d "" /\ is_space d = false).
  { induction y as [|a y IH]; [congruence|]. cbn [rstrip_by]. intros E _. destruct (rstrip_by is_space y) as [|b y'] eqn:F.
    - destruct (is_space a) eqn:S; [discriminate|]. injection E as <-. exists a, "". auto.
    - injection E as E. assert (y <> "") by (rewrite <- E; discriminate). destruct (IH E) as (d & q & G & S); auto.
      exists d, (String a q). split; auto. cbn [String.append]. now rewrite <- G. }
  destruct (L _ H2) as (d & q & E & S); [discriminate|]. exists c, r, d, q. auto.
Qed.
Lemma tight_class n : tight (print_ty (class_ref n)).
Proof.
  unfold class_ref. destruct (is_builtin n) eqn:E.
  - apply mem_spec in E. assert (F : forallb tightb builtin_classes = true) by reflexivity. rewrite forallb_forall in F. apply tightb_spec, F, E.
  - cbn [print_ty]. apply (tight_ends dquote dquote n); reflexivity.
Qed.

(** The types of the children that iteration visits. *)
Definition child_ty (s : strategies) (c : tree) : ty := if perm s c then TName (tname c) else rhs s c.
Definition inside (s : strategies) (cs : list (key * nat * tree)) : list ty :=
  map (fun e => child_ty s (snd e)) (iter_entries cs).
Definition rhs_dict (s : strategies) (i : info) (cs : list (key * nat * tree)) : ty :=
  TApp (fst (map_container s (i_kind i) (i_type i))) [key_ty (map (fun e => fst (fst e)) cs); union_ty (inside s cs)].
Lemma rhs_inside s cs :
  map snd (before_none fst (map (fun e : key * nat * tree => (fst (fst e), if perm s (snd e) then TName (tname (snd e)) else rhs s (snd e))) cs))
  = inside s cs.
Proof. rewrite before_none_map, map_map. reflexivity. Qed.
Lemma rhs_node s i cs : rhs s (Node i cs) =
  match i_kind i with
  | NInst => if Nat.eqb (ty_id (i_type i)) t_NoneType then TApp "Optional" [TName "object"] else class_ref (ty_name (i_type i))
  | NFun f => match f_sig f with None => TName "Callable" | Some (_, n) => TApp "Callable" [TArgs (repeat (TName "Any") n); TName "Any"] end
  | NClass n => TApp "Type" [class_ref n]
  | NModule => TName "ModuleType"
  | NIO => TName "TextIO"
  | NNumpy d => TStr ("NDArray[np." ++ d ++ "]")
  | NSeq k => TApp (fst (seq_container s k (i_type i)))
               (match k with KTuple => tuple_args (s_tuple s) (inside s cs) | _ => [union_ty (inside s cs)] end)
  | NProxy | NDict _ _ => rhs_dict s i cs
  end.
Proof. cbn [rhs]. cbv zeta. rewrite rhs_inside. destruct (i_kind i); reflexivity. Qed.

Lemma rhs_clean s t : eq_free t -> no_eq (print_ty (rhs s t)) /\ tight (print_ty (rhs s t)).
Proof.
  induction t as [i cs IH] using tree_ind'. intros H. rewrite Forall_forall in IH. rewrite rhs_node.
  assert (Hn : eq_free_node (Node i cs)) by (apply H; constructor). destruct Hn as (N1 & N2 & N3 & N4). cbn [tname tkind ti tcs] in *.
  assert (Hin : forall t, In t (inside s cs) -> no_eq (print_ty t)).
  { intros t Ht. apply in_map_iff in Ht as (e & <- & He). apply before_none_In in He. unfold child_ty.
    pose proof (eq_free_child _ _ _ H He) as He'. destruct (perm s (snd e)).
    - cbn [print_ty]. apply (He' (snd e)). constructor.
    - now apply IH. }
  assert (Hd : no_eq (print_ty (rhs_dict s i cs)) /\ tight (print_ty (rhs_dict s i cs))).
  { destruct (map_container_eq s (i_kind i) (i_type i)) as (A & c & r & B & C). split; [|unfold rhs_dict; eapply tight_app_ty; eauto].
    apply no_eq_app_ty; auto. intros t [<-|[<-|[]]]; [|now apply no_eq_union]. apply no_eq_keys. intros k Hk.
    apply in_map_iff in Hk as (e & <- & He). now apply N4. }
  unfold tkind in N3. cbn [ti] in N3. destruct (i_kind i) as [|f|n| | |d|k| |data m] eqn:K; auto.
  - destruct (Nat.eqb _ _); [split; [reflexivity | apply tightb_spec; reflexivity]|]. split; [now apply no_eq_class | apply tight_class].
  - destruct (f_sig f) as [[sig n]|]; [|split; [reflexivity | apply tightb_spec; reflexivity]]. split; [|eapply tight_app_ty; reflexivity].
    apply no_eq_app_ty; [reflexivity|]. intros t [<-|[<-|[]]]; [|reflexivity]. cbn [print_ty]. rewrite !no_eq_app. repeat split; try reflexivity.
    apply no_eq_join. intros x Hx. apply in_map_iff in Hx as (t & <- & Ht). apply repeat_spec in Ht. subst. reflexivity.
  - split; [|eapply tight_app_ty; reflexivity]. apply no_eq_app_ty; [reflexivity|]. intros t [<-|[]]. now apply no_eq_class.
  - split; [reflexivity | apply tightb_spec; reflexivity].
  - split; [reflexivity | apply tightb_spec; reflexivity].
  - split; [|apply (tight_ends dquote dquote); reflexivity]. cbn [print_ty]. rewrite !no_eq_app. repeat split; auto; reflexivity.
  - destruct (seq_container_eq s k (i_type i)) as (A & c & r & B & C). split; [|eapply tight_app_ty; eauto].
    apply no_eq_app_ty; auto. intros t Ht. destruct k; try (destruct Ht as [<-|[]]; now apply no_eq_union). eapply no_eq_tuple; eauto.
Qed.

(** ** Strings of nodes *)
(** Nodes whose string is an assignment. *)
Definition assigned (s : strategies) (t : tree) : bool :=
  match tkind t with
  | NFun f => match f_sig f with Some _ => f_lambda f | None => true end
  | NDict _ m => negb (is_typed_dict s m)
  | _ => true
  end.
Lemma not_perm_assigned s t : perm s t = false -> assigned s t = true.
Proof.
  unfold perm, assigned. destruct (tkind t); auto; try discriminate. intros H. apply orb_false_iff in H as [H _].
  apply orb_false_iff in H as [H _]. now rewrite H.
Qed.
Definition lvalue (t : tree) : string :=
  match tkind t with
  | NInst => if Nat.eqb (ty_id (i_type (ti t))) t_NoneType then tname t ++ ": TypeAlias = "
             else if i_root (ti t) then tname t ++ ": TypeAlias = " else tname t ++ " = "
  | _ => tname t ++ ": TypeAlias = "
  end.
Lemma lvalue_eq t : exists pre, lvalue t = pre ++ "= ".
Proof.
  assert (A : exists pre, tname t ++ ": TypeAlias = " = pre ++ "= ") by (exists (tname t ++ ": TypeAlias "); now rewrite app_assoc_s).
  unfold lvalue. destruct (tkind t); auto. destruct (Nat.eqb _ _), (i_root (ti t)); auto.
  exists (tname t ++ " "). now rewrite app_assoc_s.
Qed.

Definition outs (s : strategies) (cs : list (key * nat * tree)) : list child_out :=
  map (fun e => (fst (fst e), (snd e, top s (snd e)))) cs.
Lemma top_node s i cs : top s (Node i cs) =
  match i_kind i with
  | NInst => instance_top i
  | NFun f => match function_top (i_name i) f with Some o => o | None => ("", []) end
  | NClass n => (alias (i_name i) ("Type[" ++ (if is_builtin n then n else dq ++ n ++ dq) ++ "]"), ["type"; "TypeAlias"])
  | NModule => (alias (i_name i) "ModuleType", ["ModuleType"; "TypeAlias"])
  | NIO => (alias (i_name i) "TextIO", ["TextIO"; "TypeAlias"])
  | NNumpy d => (alias (i_name i) (dq ++ "NDArray[np." ++ d ++ "]" ++ dq), ["NDArray"; "numpy"; "TypeAlias"])
  | NSeq k =>
      let ctys := map (child_type s) (before_none (@fst key (tree * out)) (outs s cs)) in
      let ins := match k with KTuple => tuple_types_of (s_tuple s) (outs_strings ctys) | _ => types_of (outs_strings ctys) end in
      (alias (i_name i) (fst (seq_container s k (i_type i)) ++ "[" ++ fst ins ++ "]"),
       (snd (seq_container s k (i_type i)) ++ ["TypeAlias"] ++ outs_imports ctys ++ snd ins)%list)
  | NProxy => parse_dict s i (outs s cs) (before_none (@fst key (tree * out)) (outs s cs))
  | NDict data m => if is_typed_dict s m then parse_typed_dict s i data m (outs s cs)
                    else parse_dict s i (outs s cs) (before_none (@fst key (tree * out)) (outs s cs))
  end.
Proof.
  cbn [top]. cbv zeta. change (map (fun e : key * nat * tree => (fst (fst e), (snd e, top s (snd e)))) cs) with (outs s cs).
  destruct (i_kind i); try reflexivity. destruct (seq_container s k (i_type i)). destruct k; try destruct (types_of _); try destruct (tuple_types_of _ _); reflexivity.
Qed.

Section Strings.
  Variable s : strategies.
  Definition child_ok (t : tree) : Prop := perm s t = false -> without_lvalue (fst (top s t)) = print_ty (rhs s t).

  Lemma child_type_print (e : key * nat * tree) : child_ok (snd e) -> fst (child_type s (fst (fst e), (snd e, top s (snd e)))) = print_ty (child_ty s (snd e)).
  Proof. intros H. unfold child_type, child_ty. cbn [fst snd]. destruct (perm s (snd e)) eqn:P; [reflexivity|]. cbn [fst]. now apply H. Qed.
  Lemma inside_print cs : (forall e, In e cs -> child_ok (snd e)) ->
    outs_strings (map (child_type s) (before_none (@fst key (tree * out)) (outs s cs))) = map print_ty (inside s cs).
  Proof.
    intros H. unfold outs, outs_strings, inside, iter_entries. rewrite before_none_map, !map_map. cbn [fst].
    apply map_ext_in. intros e He. apply child_type_print, H. eapply before_none_In. exact He.
  Qed.
  Lemma key_ty_print (cs : list (key * nat * tree)) :
    print_ty (key_ty (map (fun e => fst (fst e)) cs)) =
    fst (match outs s cs with
         | [] => format_types (union_members (or_any (outs_strings (map (child_type s) (before_none (@fst key (tree * out)) (outs s cs))))))
         | _ => format_types (union_members (map (fun c : child_out => ty_name (key_type (fst c))) (outs s cs)))
         end).
  Proof.
    destruct cs as [|e cs]; [reflexivity|]. set (l := e :: cs).
    change (print_ty (one_of (members (map (fun k => TName (ty_name (key_type k))) (map (fun e => fst (fst e)) l)))) =
            fst (format_types (union_members (map (fun c : child_out => ty_name (key_type (fst c))) (outs s l))))).
    rewrite one_of_print, members_print. unfold outs. rewrite !map_map. reflexivity.
  Qed.
  Lemma parse_dict_print i cs : (forall e, In e cs -> child_ok (snd e)) ->
    fst (parse_dict s i (outs s cs) (before_none (@fst key (tree * out)) (outs s cs))) = i_name i ++ ": TypeAlias = " ++ print_ty (rhs_dict s i cs).
  Proof.
    intros H. unfold parse_dict, rhs_dict. destruct (map_container s (i_kind i) (i_type i)) as [container ci]. cbn [fst].
    pose proof (key_ty_print cs) as K. pose proof (union_ty_print (inside s cs)) as U. rewrite <- (inside_print cs H) in U.
    set (keys := match outs s cs with [] => _ | _ => _ end) in *.
    change (map (fun c : key * (tree * out) => ty_name (key_type (fst c))) (outs s cs)) with (map (fun c : child_out => ty_name (key_type (fst c))) (outs s cs)) in *.
    fold keys. destruct keys as [ks ki]. destruct (types_of _) as [vs vi]. cbn [fst] in *. unfold alias. cbn [print_ty map join]. rewrite K, U.
    rewrite !app_assoc_s. reflexivity.
  Qed.

  Lemma top_assigned t : eq_free t -> assigned s t = true -> fst (top s t) = lvalue t ++ print_ty (rhs s t).
  Proof.
    induction t as [i cs IH] using tree_ind'. rewrite Forall_forall in IH. intros H A.
    assert (C : forall e, In e cs -> child_ok (snd e)).
    { intros e He P. pose proof (eq_free_child _ _ _ H He) as F. rewrite (IH e He F (not_perm_assigned _ _ P)).
      destruct (lvalue_eq (snd e)) as (pre & ->). rewrite app_assoc_s. apply without_lvalue_spec; now apply rhs_clean. }
    rewrite top_node, rhs_node. unfold assigned, tkind in A. unfold lvalue, tkind. cbn [ti] in *.
    destruct (i_kind i) as [|f|n| | |d|k| |data m] eqn:K; cbn [fst].
    - unfold instance_top, tname, class_ref. cbn [ti]. destruct (Nat.eqb _ _); cbn [fst]; [unfold alias; rewrite app_assoc_s; reflexivity|].
      destruct (i_root i), (is_builtin _); cbn [fst print_ty]; unfold alias; rewrite ?app_assoc_s; reflexivity.
    - unfold function_top, tname. cbn [ti]. destruct (f_sig f) as [[sig n]|]; [|cbn [fst print_ty]; rewrite app_assoc_s; reflexivity]. rewrite A. cbn [fst print_ty map join].
      rewrite map_repeat. cbn [print_ty]. rewrite !app_assoc_s. reflexivity.
    - unfold alias, tname, class_ref. cbn [ti print_ty map join]. rewrite app_assoc_s. destruct (is_builtin n); reflexivity.
    - unfold alias, tname. cbn [ti print_ty]. now rewrite app_assoc_s.
    - unfold alias, tname. cbn [ti print_ty]. now rewrite app_assoc_s.
    - unfold alias, tname. cbn [ti print_ty]. rewrite !app_assoc_s. reflexivity.
    - unfold alias, tname. cbn [ti print_ty]. rewrite (inside_print cs C). rewrite app_assoc_s. do 4 f_equal.
      destruct k; cbn [map join]; rewrite ?union_ty_print, ?tuple_args_print; reflexivity.
    - unfold tname. cbn [ti]. rewrite app_assoc_s. now apply parse_dict_print.
    - apply negb_true_iff in A. rewrite A. unfold tname. cbn [ti]. rewrite app_assoc_s. now apply parse_dict_print.
  Qed.
  Lemma child_ok_all t : eq_free t -> child_ok t.
  Proof.
    intros F P. rewrite (top_assigned t F (not_perm_assigned _ _ P)).
    destruct (lvalue_eq t) as (pre & ->). rewrite app_assoc_s. apply without_lvalue_spec; now apply rhs_clean.
  Qed.
End Strings.

(** ** TypedDicts *)
Lemma concat_lines (xs : list string) : xs <> [] -> String.concat "" (map (fun x => x ++ nl) xs) = join nl xs ++ nl.
Proof.
  induction xs as [|x xs IH]; [congruence|]. intros _. destruct xs as [|y xs]; [reflexivity|].
  cbn [map]. change (String.concat "" ((x ++ nl) :: (y ++ nl) :: map (fun x => x ++ nl) xs)) with
    ((x ++ nl) ++ "" ++ String.concat "" (map (fun x => x ++ nl) (y :: xs))).
  rewrite IH by discriminate. rewrite (join_cons nl x) by discriminate. cbn [String.append]. rewrite !app_assoc_s. reflexivity.
Qed.
Lemma chop_nl x : chop (x ++ nl) = x.
Proof.
  unfold chop. rewrite length_app_s. change (String.length nl) with 1. rewrite Nat.add_sub. apply take_app.
Qed.
Lemma chop_lines xs : chop (String.concat "" (map (fun x => x ++ nl) xs)) = join nl xs.
Proof. destruct xs as [|x xs]; [reflexivity|]. rewrite concat_lines by discriminate. apply chop_nl. Qed.
Lemma join_nest sep a l1 l2 : l1 <> [] -> join sep (a :: join sep l1 :: l2) = join sep (a :: l1 ++ l2).
Proof.
  intros H. rewrite join_cons by discriminate. symmetry. rewrite join_cons by (destruct l1; [congruence | discriminate]). do 2 f_equal.
  clear a. induction l1 as [|x l1 IH]; [congruence|]. destruct l1 as [|y l1].
  - destruct l2; reflexivity.
  - cbn [List.app]. rewrite join_cons by discriminate. change (y :: l1 ++ l2)%list with ((y :: l1) ++ l2)%list. rewrite IH by discriminate.
    destruct l2 as [|z l2]; [reflexivity|]. rewrite (join_cons sep (join sep (x :: y :: l1))) by discriminate.
    rewrite (join_cons sep (join sep (y :: l1))) by discriminate. rewrite (join_cons sep x) by discriminate. rewrite !app_assoc_s. reflexivity.
Qed.

Lemma key_doc_string m k : key_docstring m k = match key_doc m k with Some d => nl ++ format_docstring 90 TAB d ++ nl | None => "" end.
Proof. unfold key_docstring, key_doc. destruct (dget _ _) as [[]|]; reflexivity. Qed.

(** The lines of a TypedDict with the fields [fs]. *)
Definition spells (m : meta) (fs : list field) (content : list (string * string)) : Prop :=
  content = map (fun f => (fd_key f, print_ty (fd_type f))) fs /\
  forall f, In f fs -> fd_doc f = key_doc m (fd_key f).
Lemma typed_dict_print name m fs content doc : spells m fs content ->
  build_typed_dict name content m doc = print_decl (DTyped name (functional_syntax m) (filter visible_field fs) doc).
Proof.
  intros [-> Hd]. unfold build_typed_dict.
  assert (F : filter (fun kv => negb (startswith hidden_prefix (fst kv))) (map (fun f => (fd_key f, print_ty (fd_type f))) fs)
              = map (fun f => (fd_key f, print_ty (fd_type f))) (filter visible_field fs)).
  { clear Hd. induction fs as [|f fs IH]; auto. cbn [map filter fst]. unfold visible_field at 1. destruct (negb _); cbn [map]; now rewrite IH. }
  rewrite F. set (vs := filter visible_field fs) in *. assert (Hd' : forall f, In f vs -> fd_doc f = key_doc m (fd_key f)).
  { intros f Hf. apply filter_In in Hf as [Hf _]. auto. }
  rewrite map_map. destruct (functional_syntax m).
  - assert (L : map (fun f => field_line true m (fd_key f, print_ty (fd_type f))) vs = map (fun x => x ++ nl) (map print_item vs)).
    { rewrite map_map. apply map_ext. intros f. unfold field_line, print_item. rewrite !app_assoc_s. reflexivity. }
    rewrite L, chop_lines. cbn [print_decl].
    assert (G : forall rest, join nl ((TAB ++ "{") :: join nl (map print_item vs) :: rest) =
              join nl ((TAB ++ "{") :: (match vs with [] => [""] | _ => map print_item vs end ++ rest)%list)).
    { intros rest. destruct vs; [reflexivity|]. apply join_nest. discriminate. }
    destruct doc as [d|]; cbn [opt_list map List.app].
    + rewrite 2!(join_cons nl _ (_ :: _)) by discriminate. rewrite (join_cons nl (name ++ _)) by discriminate. rewrite (join_cons nl (TAB ++ dq ++ _)) by discriminate. now rewrite G.
    + rewrite 2!(join_cons nl _ (_ :: _)) by discriminate. rewrite (join_cons nl (name ++ _)) by discriminate. rewrite (join_cons nl (TAB ++ dq ++ _)) by discriminate. now rewrite G.
  - assert (L : map (fun f => field_line false m (fd_key f, print_ty (fd_type f))) vs = map (fun x => x ++ nl) (map print_field vs)).
    { rewrite map_map. apply map_ext_in. intros f Hf. unfold field_line, print_field. rewrite key_doc_string, (Hd' f Hf).
      destruct (key_doc m (fd_key f)) as [d|].
      - destruct (String.eqb _ "") eqn:E; [apply String.eqb_eq in E; discriminate|]. rewrite !app_assoc_s. now rewrite app_nil_r_s.
      - rewrite !app_nil_r_s, !app_assoc_s. reflexivity. }
    rewrite L, chop_lines. cbn [print_decl].
    assert (G : forall a, join nl [a; if String.eqb (String.concat "" (map (fun x => x ++ nl) (map print_field vs))) "" then TAB ++ "..." else join nl (map print_field vs)]
                = join nl (a :: match vs with [] => [TAB ++ "..."] | _ => map print_field vs end)).
    { intros a. destruct vs as [|f vs']; [reflexivity|]. destruct (String.eqb _ "") eqn:E.
      - apply String.eqb_eq in E. rewrite concat_lines in E by discriminate. now apply app_eq_nil_s in E as [_ E].
      - rewrite join_nest by discriminate. now rewrite List.app_nil_r. }
    destruct doc as [d|]; cbn [opt_list map List.app].
    + rewrite join_cons by discriminate. rewrite (join_cons nl ("class " ++ _)) by discriminate. now rewrite G.
    + apply G.
Qed.

Lemma field_type_print s m k t : fst (field_type s m k (print_ty t)) = print_ty (wrap s m k t).
Proof. unfold field_type, wrap. destruct (dget k (m_required m)) as [[]|]; destruct (s_read_only s); reflexivity. Qed.

Lemma typed_dict_top s i data m cs : (forall e, In e cs -> child_ok s (snd e)) ->
  fst (parse_typed_dict s i data m (outs s cs)) =
  print_decl (DTyped (i_name i) (functional_syntax m) (filter visible_field (map (typed_field s m) cs)) (class_doc s data)).
Proof.
  intros C. unfold parse_typed_dict. cbn [fst]. apply typed_dict_print. split.
  - unfold outs. rewrite !map_map. apply map_ext_in. intros e He. cbn [fst snd typed_field fd_key fd_type]. f_equal.
    unfold typed_ref. destruct (perm s (snd e)) eqn:P; cbn [fst]; [apply (field_type_print s m _ (TName _))|].
    rewrite (C e He P). apply field_type_print.
  - intros f Hf. apply in_map_iff in Hf as (e & <- & _). reflexivity.
Qed.

(** Every declared node prints its declaration. *)
Theorem top_decl s t : eq_free t -> perm s t = true -> function_fails t = false -> fst (top s t) = print_decl (decl_of s t).
Proof.
  intros F P X. destruct (assigned s t) eqn:A.
  - rewrite (top_assigned s t F A). unfold lvalue, decl_of. unfold assigned in A. unfold perm in P. unfold function_fails in X.
    destruct (tkind t) as [|f|n| | |d|k| |data m] eqn:K; cbn [print_decl]; try now rewrite app_assoc_s.
    + rewrite P. destruct (Nat.eqb _ _); now rewrite app_assoc_s.
    + unfold fun_decl. destruct (f_sig f) as [[sig n]|]; [rewrite A|]; cbn [print_decl]; now rewrite app_assoc_s.
    + apply negb_true_iff in A. rewrite A. cbn [print_decl]. now rewrite app_assoc_s.
  - destruct t as [i cs]. rewrite top_node. unfold decl_of, assigned, function_fails, tkind, tname in *. cbn [ti tcs] in *.
    destruct (i_kind i) as [|f|n| | |d|k| |data m] eqn:K; try discriminate.
    + unfold function_top, fun_decl in *. destruct (f_sig f) as [[sig n]|]; [|discriminate]. rewrite A in *.
      destruct (contains "->" sig); cbn [print_decl fst]; [rewrite !app_assoc_s; reflexivity|].
      destruct (f_return f) as [[]|]; [| |discriminate]; cbn [print_decl fst]; rewrite !app_assoc_s; reflexivity.
    + apply negb_false_iff in A. rewrite A. apply typed_dict_top. intros e He. apply child_ok_all. eapply eq_free_child; eauto.
Qed.
