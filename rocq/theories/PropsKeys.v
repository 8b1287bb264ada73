(** C25 for all keys: when class syntax is used, and which quoted keys read as the key. *)
From Coq Require Import Ascii String List Bool Arith Lia.
From Verif Require Import PyStr PyStrFacts Utils Strategies Imports Dispatch Docstring Values Tree Build Emit TreeFacts SpecData SpecMerge SpecNames NamesFacts SpecTypes SpecEmit Elab EmitFacts TypedFacts SpecExact PropsExact Samples.
Import ListNotations.
Local Open Scope string_scope.

Theorem C25_all_keys : forall s c D m, tkind c = NDict D m -> is_td s c = true ->
  exists f fields doc, decl_of s c = DTyped (tname c) f fields doc /\
    (f = false <-> forall k, has_key (KStr k) (m_data m) -> SpecExact.accepted k /\ ~ In k python_keywords) /\
    (forall x, In x fields -> print_item x = TAB ++ TAB ++ dq ++ fd_key x ++ dq ++ ": " ++ print_ty (fd_type x) ++ "," /\ (reads (fd_key x) (fd_key x) <-> quotable (fd_key x))).
Proof.
  intros s c D m K T. assert (TD : is_typed_dict s m = true) by (unfold is_td, node_is_typed_dict in T; now rewrite K in T).
  assert (A : all_str (m_data m) = true) by (unfold is_typed_dict in TD; now apply andb_true_iff in TD).
  do 3 eexists. split; [unfold decl_of; rewrite K, TD; reflexivity|]. split.
  - unfold functional_syntax. rewrite negb_false_iff, forallb_forall. split.
    + intros F k Hk. apply in_map_iff in Hk as (kv & E & Hkv). specialize (F kv Hkv). rewrite E in F. apply andb_true_iff in F as [F1 F2].
      split; [now apply is_compatible_accepted|]. intros G. apply kwlist_keywords in G. rewrite G in F1. discriminate.
    + intros F kv Hkv. assert (Hk : has_key (fst kv) (m_data m)) by (unfold has_key; now apply in_map).
      destruct (all_str_keys _ _ A Hk) as (k & E). rewrite E in *. destruct (F k Hk) as [F1 F2].
      apply andb_true_iff. split; [|now apply is_compatible_accepted]. apply negb_true_iff, not_true_iff_false. rewrite kwlist_keywords. exact F2.
  - intros x _. split; [reflexivity|]. split; [apply reads_quotable|apply quotable_reads].
Qed.
Print Assumptions C25_all_keys.
(** A superscript is taken for a part of a name, an underscore alone is not. *)
Example C25_all_example : exists t D m t' D' m',
  from_data default_strategies as_inserted (vdict [("x" ++ String (Ascii.ascii_of_nat 178) "", vint)]) "Example" = Ok t /\ tkind t = NDict D m /\ is_td default_strategies t = true /\ functional_syntax m = false /\
  from_data default_strategies as_inserted (vdict [("_", vint); ("a b", vint)]) "Example" = Ok t' /\ tkind t' = NDict D' m' /\ is_td default_strategies t' = true /\ functional_syntax m' = true.
Proof.
  do 6 eexists. split; [vm_compute; reflexivity|]. split; [reflexivity|]. split; [reflexivity|]. split; [reflexivity|].
  split; [vm_compute; reflexivity|]. split; [reflexivity|]. split; reflexivity.
Qed.
