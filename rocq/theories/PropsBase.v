(** Property theorems about strategies, dispatch, import block, OrderedSet and docstrings. *)
From Coq Require Import Ascii String List Bool Arith ZArith Lia Permutation Sorted.
From Verif Require Import PyStr Utils Strategies Docstring Imports Dispatch.
From Verif Require Import SpecNames SpecText SpecImports SpecModules SmallFacts BaseProofs.
Import ListNotations.
Local Open Scope string_scope.

(** ** C04: strategy validation.
    Full claim: constructible iff every literal field has a documented value, min_height >= 0,
    1 <= merge <= 100 and the element limit is None or >= 1.
    [documented] lists the first three parts.  The claim is false for a limit of 0. *)
Theorem C04_strategy_validation_partial : forall s : raw_strategies,
  post_init s = None <->
  documented s /\ match r_max_n s with None => True | Some n => (0 <= n)%Z end.
Proof. exact post_init_spec. Qed.
Print Assumptions C04_strategy_validation_partial.

Definition c04_witness : raw_strategies :=
  Raw "list" "fixed" "TypedDict" "Full type hint" 1 "" 50 false (Some 0%Z).
Theorem C04_strategy_validation_refuted : exists s : raw_strategies,
  post_init s = None /\ r_max_n s = Some 0%Z.
Proof. exists c04_witness. vm_compute. auto. Qed.
Print Assumptions C04_strategy_validation_refuted.

(** An accepted object keeps exactly the arguments it was given. *)
Theorem C04_kept : forall r s, validated r = Some s -> arguments s = r.
Proof.
  intros r s H. pose proof (proj1 (C04_strategy_validation_partial r)) as D. unfold validated in H. destruct (post_init r) eqn:E; [discriminate|].
  destruct (D eq_refl) as ((L & T & M & P & Hh & Hm & _) & Hn). clear D E. injection H as <-. destruct r as [rl rt rm rp h k m ro n]. cbn [r_list r_tuple r_dict r_pandas r_min_height r_key_doc r_merge r_read_only r_max_n] in *.
  unfold arguments. cbn [s_list s_tuple s_dict s_pandas s_min_height s_key_doc s_merge s_read_only s_max_n]. rewrite !Z2Nat.id by lia. f_equal.
  - destruct L as [-> | ->]; reflexivity.
  - destruct T as [-> | ->]; reflexivity.
  - destruct M as [-> | [-> | ->]]; reflexivity.
  - destruct P as [-> | [-> | ->]]; reflexivity.
  - destruct n; cbn [option_map]; auto. now rewrite Z2Nat.id.
Qed.
Print Assumptions C04_kept.
Example C04_accepts_default :
  post_init (Raw "list" "fixed" "TypedDict" "Full type hint" 1 "" 50 false (Some 500%Z)) = None.
Proof. vm_compute. reflexivity. Qed.
Example C04_rejects_101 :
  post_init (Raw "list" "fixed" "TypedDict" "Full type hint" 1 "" 101 false None) = Some MergeAbove100.
Proof. vm_compute. reflexivity. Qed.

(** ** C06: parser dispatch, for every list of parser classes, every runtime type and every
    isinstance relation that contains [isinstance(x, type(x))]. *)
Theorem C06_dispatch : forall ps default ty isinst p ok,
  NoDup (map fst ps) ->
  (forall q ws, In (q, ws) ps -> ~ In t_object ws) ->
  isinst ty = true ->
  factory ps default ty isinst = Some (p, ok) ->
  ok = true /\
  (forall q ws, In (q, ws) ps -> In ty ws -> p = q) /\
  (p = default \/ exists ws t, In (p, ws) ps /\ In t ws /\ isinst t = true) /\
  ((forall q ws t, In (q, ws) ps -> In t ws -> isinst t = false) -> p = default).
Proof. exact factory_spec. Qed.
Print Assumptions C06_dispatch.

Theorem C06_project_table_is_consistent : forall default ty isinst,
  exists p ok, factory project_parsers default ty isinst = Some (p, ok).
Proof. exact project_factory_total. Qed.
Print Assumptions C06_project_table_is_consistent.

(** The hypotheses hold for the project's table; a [bool] goes to the instance parser. *)
Example C06_hypotheses :
  NoDup (map fst project_parsers) /\
  (forall q ws, In (q, ws) project_parsers -> ~ In t_object ws) /\
  factory project_parsers p_instance t_bool (fun t => Nat.eqb t t_bool || Nat.eqb t t_int || Nat.eqb t t_object)
  = Some (p_instance, true).
Proof.
  split; [|split].
  - apply project_NoDup.
  - apply project_no_object.
  - vm_compute. reflexivity.
Qed.

(** ** C28: the import block. *)
Theorem C28_import_block_order_insensitive : forall n ks1 ks2 o1 o2,
  (forall k, In k ks1 <-> In k ks2) ->
  Permutation (imp_adds ks1 []) o1 -> Permutation (imp_adds ks2 []) o2 ->
  format_imports n o1 = format_imports n o2.
Proof. exact import_block_order. Qed.
Print Assumptions C28_import_block_order_insensitive.

Theorem C28_import_block_content : forall n ks o,
  26 <= n -> Permutation (imp_adds ks []) o ->
  (format_imports n o = None <-> exists k, In k ks /\ ~ In k (map fst PACKAGE)) /\
  (forall text, format_imports n o = Some text ->
    exists stmts : list (string * list string * string),
      StronglySorted (fun a b => String.leb a b = true /\ a <> b) (map (fun x => fst (fst x)) stmts) /\
      Forall (fun x => Statement (fst (fst x)) (snd (fst x)) (snd x) /\
                       StronglySorted (fun a b => String.leb a b = true /\ a <> b) (snd (fst x))) stmts /\
      (forall p s, (exists st ss, In (p, ss, st) stmts /\ In s ss) <->
                   exists k, In k ks /\ In (k, (p, s)) PACKAGE) /\
      (Joined newline (map snd stmts) text \/
       exists h t, map snd stmts = h :: t /\ Joined newline ((h ++ newline) :: t) text)).
Proof. exact import_block_content. Qed.
Print Assumptions C28_import_block_content.

(** Every statement of the block is one that Python 3.8 accepts: it imports a whole module under its usual name, or names that the module offers. *)
Theorem C28_statements_resolve : forall n ks o text,
  26 <= n -> Permutation (imp_adds ks []) o -> format_imports n o = Some text ->
  exists stmts : list (string * list string * string),
    Forall (fun x => Statement (fst (fst x)) (snd (fst x)) (snd x) /\
                     (module_import (snd x) \/ ~ whole_module (fst (fst x)) /\ snd (fst x) <> [] /\ incl (snd (fst x)) (offers (fst (fst x))))) stmts /\
    (Joined newline (map snd stmts) text \/ exists h t, map snd stmts = h :: t /\ Joined newline ((h ++ newline) :: t) text).
Proof.
  intros n ks o text Hn P H. destruct (C28_import_block_content n ks o Hn P) as [_ C]. destruct (C text H) as (stmts & _ & F & Sy & J).
  exists stmts. split; [|exact J]. rewrite Forall_forall in *. intros [[p ns] st] Hx. destruct (F _ Hx) as [St _]. split; [exact St|]. cbn [fst snd] in *.
  assert (B : forallb (fun e => mem (fst (snd e)) ["pandas"; "npt"; "numpy"] || mem (snd (snd e)) (offers (fst (snd e)))) PACKAGE = true) by (vm_compute; reflexivity).
  rewrite forallb_forall in B.
  assert (O : ~ whole_module p -> incl ns (offers p)).
  { intros W x Hxn. destruct (proj1 (Sy p x)) as (k & _ & Hk); [eauto|]. specialize (B _ Hk). cbn [fst snd] in B. apply orb_true_iff in B as [B|B].
    - exfalso. apply W. unfold mem in B. cbn [existsb] in B. unfold whole_module. destruct (String.eqb_spec p "pandas"), (String.eqb_spec p "npt"), (String.eqb_spec p "numpy"); auto; discriminate.
    - unfold mem in B. apply existsb_exists in B as (y & Hy & E). apply String.eqb_eq in E. now subst. }
  destruct St as [| | |p ns s W Ne Jn|p ns s W Ne Jn]; try (left; unfold module_import; cbn; tauto); right; repeat split; auto.
Qed.
Print Assumptions C28_statements_resolve.
(** [from __future__ import annotations] comes first when it is there, with an empty line after it. *)
Theorem C28_future_first : forall n ks o text,
  40 <= n -> Permutation (imp_adds ks []) o -> format_imports n o = Some text -> In "annotations" ks ->
  exists rest, text = "from __future__ import annotations" ++ newline ++ rest.
Proof. exact future_first. Qed.
Print Assumptions C28_future_first.
Example C28_future_example : Permutation (imp_adds ["pandas"; "annotations"; "TypeAlias"] []) ["TypeAlias"; "pandas"; "annotations"] /\
  format_imports 90 ["TypeAlias"; "pandas"; "annotations"] =
  Some ("from __future__ import annotations" ++ nl ++ nl ++ "import pandas as pd" ++ nl ++ "from typing_extensions import TypeAlias").
Proof.
  split; [|vm_compute; reflexivity]. change (imp_adds ["pandas"; "annotations"; "TypeAlias"] []) with (["pandas"; "annotations"] ++ ["TypeAlias"])%list.
  apply Permutation_sym, Permutation_cons_append.
Qed.
Example C28_example :
  format_imports 90 (imp_adds ["TypeAlias"; "list"; "Any"; "list"; "numpy"] []) =
  Some ("import numpy as np" ++ nl ++ "from typing import Any, List" ++ nl ++ "from typing_extensions import TypeAlias").
Proof. vm_compute. reflexivity. Qed.

(** ** C29: OrderedSet. *)
Theorem C29_ordered_set : forall {A} (eqb : A -> A -> bool) (l : list A),
  (forall x y, eqb x y = true <-> x = y) ->
  let r := oset_as_list (oset_adds eqb l oset_empty) in
  NoDup r /\ (forall x, In x r <-> In x l) /\
  (forall p q, l = (p ++ q)%list -> exists rp rq, r = (rp ++ rq)%list /\ forall x, In x rp <-> In x p).
Proof. exact @oset_history. Qed.
Print Assumptions C29_ordered_set.

Example C29_example :
  oset_as_list (oset_adds String.eqb ["b"; "a"; "b"; "c"; "a"] oset_empty) = ["b"; "a"; "c"].
Proof. vm_compute. reflexivity. Qed.

(** ** C32: docstrings keep the words; only trailing newlines are dropped and a final period added when missing. *)
Theorem C32_docstring_words : forall max ind s,
  blank ind ->
  exists body t e ws,
    format_docstring max ind s = ind ++ tq ++ body ++ tq /\
    s = t ++ e /\ Forall (fun c => code c = 10) (chars e) /\
    Words body ws /\
    (Words t ws /\ (exists u, t = u ++ ".") \/ Words (t ++ ".") ws /\ ~ exists u, t = u ++ ".").
Proof. exact docstring_words. Qed.
Print Assumptions C32_docstring_words.

Example C32_example :
  format_docstring 12 TAB ("first  second" ++ nl ++ "third word") =
  TAB ++ tq ++ nl ++ TAB ++ "first second" ++ nl ++ TAB ++ "third word." ++ nl ++ TAB ++ tq
  /\ blank TAB.
Proof. split; [vm_compute; reflexivity|]. apply DocstringFacts.blank_spec. vm_compute. reflexivity. Qed.

(** ** C33: width.
    Full claim: every line of the result, indentation aside, is at most [max] long or a single word.
    True of the lines of the wrapped form; false of the one-line form. *)
Theorem C33_docstring_width_partial : forall max ind s,
  (exists t, format_docstring max ind s = ind ++ tq ++ t ++ tq /\ (forall c, In c (chars t) -> code c <> 10)) \/
  (exists lines,
     Joined newline (app ((ind ++ tq) :: map (fun x => ind ++ x) lines) [ind ++ tq]) (format_docstring max ind s) /\
     Forall (fun x => String.length x <= max \/ Forall (fun c => ~ white c) (chars x)) lines /\
     Forall (fun x => forall c, In c (chars x) -> code c <> 10) lines).
Proof. exact docstring_width. Qed.
Print Assumptions C33_docstring_width_partial.

Theorem C33_docstring_width_refuted : exists max s,
  let out := format_docstring max "" s in
  contains nl out = false /\ max < String.length out /\ List.length (split_ws out) = 2.
Proof. exists 6, "aa bb". vm_compute. repeat split; repeat constructor. Qed.
Print Assumptions C33_docstring_width_refuted.

(** ** C55: file objects.
    Full claim: an object that is an instance of [io.IOBase] and of no other wrapped type than the
    abstract classes is hinted by the IO parser.  A file object also satisfies
    [isinstance(x, Iterator)] (it has [__iter__] and [__next__]), and the iterator parser comes first. *)
Definition file_object (t : typeid) : bool :=
  Nat.eqb t 100 || Nat.eqb t t_IOBase || Nat.eqb t t_Iterator || Nat.eqb t t_object.
Theorem C55_file_objects_refuted : exists ty isinst,
  isinst ty = true /\ isinst t_IOBase = true /\
  (forall t, isinst t = true -> t = ty \/ t = t_IOBase \/ t = t_Iterator \/ t = t_object) /\
  factory project_parsers p_instance ty isinst = Some (p_iterator, true).
Proof.
  exists 100, file_object. repeat split; try (vm_compute; reflexivity).
  intros t H. unfold file_object in H. rewrite !orb_true_iff, !Nat.eqb_eq in H. tauto.
Qed.
Print Assumptions C55_file_objects_refuted.

(** The types of the table that are asked before [io.IOBase]. *)
Definition wrapped_before_io (w : typeid) : Prop :=
  In w [t_dict; t_list; t_DataFrame; t_Series; t_Iterator; t_mappingproxy; t_frozenset; t_set; t_tuple; t_function;
        t_staticmethod; t_classmethod; t_builtin_function; t_method; t_bool; t_int; t_float; t_range; t_slice; t_str;
        t_NoneType; t_ndarray].
Definition in_table (w : typeid) : Prop := wrapped_before_io w \/ w = t_IOBase \/ w = t_module \/ w = t_type.

Lemma io_table : exists pre post : list (typeid * parser), register_all t_object project_parsers [] = Some (pre ++ (t_IOBase, p_io) :: post)%list /\
  (forall e, In e pre -> snd e <> p_io) /\ (forall e, In e post -> snd e <> p_io) /\
  (forall w, wrapped_before_io w <-> exists e, In e pre /\ In w (wraps_of project_parsers (snd e))).
Proof.
  set (tbl := match register_all t_object project_parsers [] with Some x => x | None => [] end).
  exists (firstn 22 tbl), (skipn 23 tbl). split; [vm_compute; reflexivity|].
  split; [intros e H; vm_compute in H; repeat (destruct H as [<- | H]; [discriminate|]); destruct H|].
  split; [intros e H; vm_compute in H; repeat (destruct H as [<- | H]; [discriminate|]); destruct H|].
  intros w. unfold wrapped_before_io. split.
  - intros H. exists (w, match find (fun e => Nat.eqb (fst e) w) tbl with Some e => snd e | None => 0 end).
    vm_compute in H. repeat (destruct H as [<- | H]; [vm_compute; tauto|]). destruct H.
  - intros (e & He & Hw). vm_compute in He. repeat (destruct He as [<- | He]; [vm_compute in Hw; vm_compute; tauto|]). destruct He.
Qed.

(** What does hold: an object of the class [io.IOBase] itself, and an object of a class outside the table that is an
    instance of [io.IOBase] and of no type asked before it, get the IO parser, and only such objects do. *)
Theorem C55_io_partial : forall ty isinst, isinst t_object = true -> isinst ty = true -> (in_table ty -> ty = t_IOBase) ->
  (factory project_parsers p_instance ty isinst = Some (p_io, true) <->
   ty = t_IOBase \/ (isinst t_IOBase = true /\ forall w, wrapped_before_io w -> isinst w = false)).
Proof.
  intros ty isinst HO HT HI.
  destruct (Nat.eq_dec ty t_IOBase) as [-> | NE].
  { split; [now left|]. intros _. unfold factory. cbn [register_all project_parsers]. cbn. now rewrite HT. }
  assert (NT : ~ in_table ty) by (intros H; exact (NE (HI H))).
  assert (L : forall tbl, register_all t_object project_parsers [] = Some tbl -> lookup ty tbl = None).
  { intros tbl E. vm_compute in E. injection E as <-. unfold lookup.
    destruct (find _ _) as [e|] eqn:F; [|reflexivity]. apply find_some in F. destruct F as [F1 F2]. apply Nat.eqb_eq in F2. exfalso. apply NT.
    unfold in_table, wrapped_before_io. cbn [In] in *. rewrite <- F2. repeat (destruct F1 as [<- | F1]; [cbn; tauto|]). destruct F1. }
  unfold factory. destruct (register_all t_object project_parsers []) as [tbl|] eqn:E; [|vm_compute in E; discriminate].
  unfold get_subclass, subclasses. rewrite (L tbl eq_refl). clear L. cbn [wraps].
  set (f := fun e : typeid * parser => existsb isinst (wraps_of project_parsers (snd e))).
  destruct io_table as (pre & post & ET & Hpre & Hpost & HW). rewrite ET in E. injection E as <-.
  assert (FE : f (t_IOBase, p_io) = isinst t_IOBase) by (unfold f; cbn; apply orb_false_r).
  assert (P : (forall e, In e pre -> f e = false) <-> (forall w, wrapped_before_io w -> isinst w = false)).
  { split.
    - intros H w Hw. destruct (proj1 (HW w) Hw) as (e & He & Hin). specialize (H e He). unfold f in H.
      destruct (isinst w) eqn:X; [|reflexivity]. rewrite <- H. symmetry. apply existsb_exists. eauto.
    - intros H e He. unfold f. destruct (existsb isinst _) eqn:X; [|reflexivity]. apply existsb_exists in X. destruct X as (w & Hw & Y).
      rewrite <- Y. apply H. apply HW. eauto. }
  rewrite <- P. clear P HW. rewrite <- FE.
  assert (C : check_tree (Registry (pre ++ (t_IOBase, p_io) :: post) (wraps_of project_parsers)) p_instance p_io isinst = isinst t_IOBase)
    by (unfold check_tree; cbn; apply orb_false_r).
  assert (F : forall l, (forall e, In e l -> f e = false) -> find f (l ++ (t_IOBase, p_io) :: post)%list = find f ((t_IOBase, p_io) :: post)).
  { induction l as [|x l IH]; intros H; [reflexivity|]. cbn [app find]. rewrite (H x (or_introl eq_refl)). apply IH. intros e He. apply H. now right. }
  split.
  - intros H. right. change (fun e : typeid * parser => existsb isinst (wraps_of project_parsers (snd e))) with f in H. destruct (find f (pre ++ (t_IOBase, p_io) :: post)%list) as [e|] eqn:X; [|inversion H]. injection H as H1 H2.
    destruct (existsb f pre) eqn:EP.
    + exfalso. assert (Y : forall l, existsb f l = true -> exists e', In e' l /\ find f (l ++ (t_IOBase, p_io) :: post)%list = Some e').
      { induction l as [|x l IH]; intros Hl; [discriminate|]. cbn [app find existsb] in *. destruct (f x); [exists x; split; [now left | reflexivity]|].
        destruct (IH Hl) as (e' & A & B). exists e'. split; [now right | exact B]. }
      destruct (Y pre EP) as (e' & A & B). pose proof (eq_trans (eq_sym X) B) as B'. injection B' as <-. exact (Hpre e A H1).
    + assert (Z : forall e', In e' pre -> f e' = false).
      { intros e' He'. destruct (f e') eqn:Y; [|reflexivity]. rewrite <- EP. symmetry. apply existsb_exists. eauto. }
      split; [|exact Z]. apply (eq_trans (eq_sym (F pre Z))) in X. cbn [find] in X. destruct (f (t_IOBase, p_io)) eqn:Y; [reflexivity|].
      apply find_some in X. destruct X as [X _]. exfalso. exact (Hpost e X H1).
  - intros [C' | [HB H]]; [contradiction|]. change (fun e : typeid * parser => existsb isinst (wraps_of project_parsers (snd e))) with f. pose proof (F pre H) as X. cbn [find] in X. rewrite HB in X.
    match goal with |- context [find f ?l] => replace (find f l) with (Some (t_IOBase, p_io)) by (symmetry; exact X) end.
    cbn [snd]. pose proof (eq_trans C (eq_sym FE)) as Y. rewrite HB in Y. f_equal. f_equal. exact Y.
Qed.
Print Assumptions C55_io_partial.
(** A file-like class without [__next__]. *)
Example C55_io_example :
  factory project_parsers p_instance 100 (fun t => Nat.eqb t 100 || Nat.eqb t t_IOBase || Nat.eqb t t_object) = Some (p_io, true) /\
  factory project_parsers p_instance t_IOBase (fun t => Nat.eqb t t_Iterator || Nat.eqb t t_IOBase || Nat.eqb t t_object) = Some (p_io, true).
Proof. vm_compute. split; reflexivity. Qed.
