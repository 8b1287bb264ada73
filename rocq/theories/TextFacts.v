(** When a text is generated. *)
From Coq Require Import Ascii String List Bool Arith Lia.
From Verif Require Import PyStr PyStrFacts Utils Strategies Imports ImportsFacts Dispatch Values Tree Build Emit SpecData SpecNames TreeFacts BuildFacts AlikeFacts EmitFacts OrderFacts.
Import ListNotations.
Local Open Scope string_scope.
Local Open Scope nat_scope.

Definition kw (l : list string) : Prop := Forall (fun k => mem k (map fst PACKAGE) = true) l.
Lemma kw_app a b : kw a -> kw b -> kw (a ++ b)%list.
Proof. intros A B. apply Forall_app. auto. Qed.
Lemma kw_flat {A} (f : A -> list string) l : (forall x, In x l -> kw (f x)) -> kw (flat_map f l).
Proof. intros H. induction l as [|x l IH]; [constructor|]. cbn [flat_map]. apply kw_app; [apply H; now left|apply IH; intros y Hy; apply H; now right]. Qed.
Ltac kws := repeat (apply Forall_cons; [reflexivity|]); try apply Forall_nil.
Lemma kw_any l : kw (any_import l).
Proof. destruct l; cbn; kws. Qed.
Lemma kw_format l : kw (snd (format_types l)).
Proof. unfold format_types. destruct l as [|x [|y l]]; cbn [snd]; kws. Qed.
Lemma kw_types l : kw (snd (types_of l)).
Proof. unfold types_of. pose proof (kw_format (union_members (or_any l))) as H. destruct (format_types _). cbn [snd] in *. apply kw_app; [apply kw_any|exact H]. Qed.
Lemma kw_tuple st l : kw (snd (tuple_types_of st l)).
Proof.
  unfold tuple_types_of. cbv zeta. destruct (_ && _); cbn [snd]; [apply kw_app; [apply kw_any|kws]|]. destruct st; cbn [snd]; [apply kw_any|].
  destruct (dedup _) as [|x [|y r]]; cbn [snd]; try apply kw_app; try apply kw_any; kws.
Qed.
Lemma kw_symbols x : kw (import_symbols x).
Proof. unfold import_symbols, kw. apply Forall_forall. intros y H. apply filter_In in H as [_ H]. exact H. Qed.
Lemma kw_signature x : kw (signature_imports x).
Proof. unfold signature_imports. apply kw_app; [apply kw_flat; intros y _; apply kw_symbols|]. destruct (search_return x); [apply kw_symbols|constructor]. Qed.
Lemma kw_function n f o : function_top n f = Some o -> kw (snd o).
Proof.
  unfold function_top. destruct (f_sig f) as [[sig a]|]; [|intros H; injection H as <-; cbn [snd]; kws].
  destruct (f_lambda f); [intros H; injection H as <-; cbn [snd]; kws|]. cbv zeta. destruct (contains "->" sig).
  - intros H. injection H as <-. cbn [snd]. constructor; [reflexivity|apply kw_signature].
  - destruct (f_return f) as [[|]|]; [| |discriminate]; intros H; injection H as <-; cbn [snd].
    + apply (kw_app ("Protocol" :: signature_imports sig)%list); [constructor; [reflexivity|apply kw_signature]|kws].
    + constructor; [reflexivity|apply kw_signature].
Qed.
Lemma kw_field s m k ref : kw (snd (field_type s m k ref)).
Proof. unfold field_type. destruct (dget k (m_required m)) as [[|]|]; destruct (s_read_only s); cbn [snd app]; kws. Qed.

Lemma kw_seq s k t : kw (snd (seq_container s k t)).
Proof. unfold seq_container. destruct k; [destruct (s_list s)| |destruct (Nat.eqb _ _)| |]; cbn [snd]; kws. Qed.
Lemma kw_map s k t : kw (snd (map_container s k t)).
Proof. unfold map_container. destruct (String.eqb _ _); [|destruct (s_dict s)]; cbn [snd]; kws. Qed.

Lemma kw_top s t : kw (snd (top s t)).
Proof.
  induction t as [i cs IH] using tree_ind'. rewrite Forall_forall in IH. cbn [top].
  set (all := map (fun e => (fst (fst e), (snd e, top s (snd e)))) cs).
  assert (A : forall c, In c all -> kw (snd (snd (snd c)))). { intros c H. apply in_map_iff in H as (e & <- & H). cbn [snd]. now apply IH. }
  assert (V : forall c, In c (before_none fst all) -> kw (snd (snd (snd c)))). { intros c H. apply A. now apply before_none_In in H. }
  assert (O : kw (outs_imports (map (child_type s) (before_none fst all)))).
  { unfold outs_imports. apply kw_flat. intros o H. apply in_map_iff in H as (c & <- & H). unfold child_type. cbv zeta. destruct (perm s _); cbn [snd]; [constructor|auto]. }
  assert (D : kw (snd (parse_dict s i all (before_none fst all)))).
  { unfold parse_dict. pose proof (kw_map s (i_kind i) (i_type i)) as M. destruct (map_container _ _ _) as [c ci]. cbv zeta.
    assert (X : forall (ks : out) o cc, kw (snd ks) -> kw cc -> kw (snd (let (k, ki) := ks in let ki := (cc ++ ki)%list in let (v, vi) := types_of o in
      (alias (i_name i) (c ++ "[" ++ k ++ ", " ++ v ++ "]"), (ci ++ ki ++ outs_imports (map (child_type s) (before_none fst all)) ++ vi ++ ["TypeAlias"])%list)))).
    { intros [k ki] o cc K CC. pose proof (kw_types o) as T. destruct (types_of o) as [v vi]. cbn [snd] in *. repeat (apply kw_app; auto); kws. }
    cbn [snd] in M. destruct all as [|c0 r]; [cbn [before_none map] in *|].
    - specialize (X (format_types (union_members (or_any (outs_strings [])))) (outs_strings []) (any_import (outs_strings []) ++ outs_imports [])%list (kw_format _)).
      destruct (format_types _) as [k ki]. cbv zeta in X |- *. rewrite <- app_assoc in X. apply X. apply kw_app; [apply kw_any|constructor].
    - specialize (X (format_types (union_members (map (fun c => ty_name (key_type (fst c))) (c0 :: r)))) (outs_strings (map (child_type s) (before_none fst (c0 :: r)))) [] (kw_format _) (Forall_nil _)).
      destruct (format_types _) as [k ki]. exact X. }
  destruct (i_kind i) as [|f|n| | |d|k| |data m]; try (cbn [snd]; kws); auto.
  - unfold instance_top. destruct (Nat.eqb _ _); [cbn [snd]; kws|]. cbv zeta. destruct (i_root i); cbn [snd]; kws.
  - destruct (function_top (i_name i) f) as [o|] eqn:E; [eapply kw_function; eauto|constructor].
  - pose proof (kw_seq s k (i_type i)) as S1. destruct (seq_container _ _ _) as [c ci]. cbv zeta. set (o := outs_strings _) in *.
    assert (T : kw (snd (match k with KTuple => tuple_types_of (s_tuple s) o | _ => types_of o end))) by (destruct k; auto using kw_types, kw_tuple).
    destruct (match k with KTuple => _ | _ => _ end) as [x ii]. cbn [snd] in *. repeat (apply kw_app; auto); kws.
  - destruct (is_typed_dict s m); auto. unfold parse_typed_dict. cbv zeta. cbn [snd]. constructor; [reflexivity|]. apply kw_flat. intros x H. apply in_map_iff in H as (c & <- & H). cbn [snd].
    apply kw_app; [|apply kw_field]. destruct (perm s _); cbn [snd]; [constructor|auto].
Qed.

Lemma recorded_known s t : forallb ImportsFacts.known (recorded_imports s t) = true.
Proof.
  apply forallb_forall. intros x H. unfold recorded_imports in H. apply ImportsFacts.imp_adds_In in H as [H|[]]. apply in_flat_map in H as (n & _ & H).
  pose proof (kw_top s n) as K. unfold kw in K. rewrite Forall_forall in K. specialize (K x H). unfold ImportsFacts.known, package_of.
  apply mem_spec in K. revert K. clear. induction PACKAGE as [|[k v] r IH]; [intros []|]. cbn [map fst In assoc]. intros [->|I]; [now rewrite String.eqb_refl|].
  destruct (String.eqb x k); auto.
Qed.
Lemma formatted s t : exists text, format_imports 90 (recorded_imports s t) = Some text.
Proof. rewrite format_imports_eq, recorded_known. eauto. Qed.
Lemma get_strs_none s t b : collect s t <> [] -> (get_strs s t b = None <-> exists n, In n (collect s t) /\ function_fails n = true).
Proof.
  intros N. unfold get_strs, declarations. destruct (existsb function_fails (collect s t)) eqn:E.
  - apply existsb_exists in E as (n & I & F). split; auto. intros _. eauto.
  - assert (C : oset_as_list (oset_adds String.eqb (map (fun n => fst (top s n)) (collect s t)) oset_empty) <> []).
    { destruct (collect s t) as [|n r]; [congruence|]. intros Z. assert (I : In (fst (top s n)) []); [|destruct I]. rewrite <- Z. apply dedup_list_spec. now left. }
    destruct (oset_as_list _) as [|d ds]; [congruence|]. split.
    + destruct b; [|discriminate]. destruct (formatted s t) as [x ->]. discriminate.
    + intros (n & I & F). exfalso. assert (existsb function_fails (collect s t) = true); [|congruence]. apply existsb_exists. eauto.
Qed.

Lemma visited_is_node n t : visited_node n t -> node_of n t.
Proof. induction 1 as [|i cs e He V IH]; [constructor|]. apply before_none_In in He. econstructor; eauto. Qed.
Lemma collect_visited s t : forall n, In n (collect s t) -> visited_node n t.
Proof.
  induction t as [i cs IH] using tree_ind'. rewrite Forall_forall in IH. intros n. cbn [collect]. destruct cs as [|e cs].
  - destruct (_ && _); [|intros []]. intros [<-|[]]. constructor.
  - set (l := e :: cs) in *. rewrite before_none_map. intros H. apply in_app_or in H as [H|H].
    + apply in_flat_map in H as (y & Hy & H). apply in_map_iff in Hy as (e' & <- & He). cbn [snd] in H. apply v_child with e'; auto.
      apply in_app_or in H as [H|H]; [apply IH; auto; now apply before_none_In in He|]. destruct (perm s (snd e')); [|destruct H]. destruct H as [<-|[]]. constructor.
    + destruct (perm s (Node i l)); [|destruct H]. destruct H as [<-|[]]. constructor.
Qed.
