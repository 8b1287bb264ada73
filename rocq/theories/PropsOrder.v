(** C15: the output and the order in which sets are iterated, that is the hash seed of the process. *)
From Coq Require Import Ascii String List Bool Arith Lia Permutation.
From Verif Require Import PyStr PyStrFacts Utils Strategies Imports Dispatch Values Tree Build Emit TreeFacts SpecData SpecOrder BuildFacts OrderFacts Samples.
Import ListNotations.
Local Open Scope string_scope.

(** ** C15: the text does not depend on the iteration order of sets.
    Full claim: for all data, the texts under two orders are equal.
    Here: without TypedDicts, or if no dict is a direct element of a sequence, construction succeeds under both orders or fails with the same error,
    the block of imports is the same and the declarations are the same up to their order.  Missing: the order of the declarations, and dicts in
    sequences with TypedDicts; both are false (below). *)
Theorem C15_up_to_order_partial : forall s ord ord' v name t,
  set_like ord -> set_like ord' -> s_dict s <> DTypedDict \/ dicts_apart v = true ->
  from_data s ord v name = Ok t ->
  exists t', from_data s ord' v name = Ok t' /\
    (forall n, format_imports n (recorded_imports s t) = format_imports n (recorded_imports s t')) /\
    match declarations s t, declarations s t' with Some ds, Some ds' => Permutation ds ds' | None, None => True | _, _ => False end.
Proof.
  intros s ord ord' v name t O O' A H. unfold from_data in *. destruct (is_compatible name); [|discriminate].
  assert (A' : apart s v). { destruct A as [A|A]; [left|now right]. unfold is_td_strategy. destruct (s_dict s); auto. congruence. }
  pose proof (build_rel s ord ord' O O' (S (vdepth v)) name 0 true v A') as B. rewrite H in B. destruct (build s ord' _ name 0 true v) as [t'| |]; try contradiction.
  exists t'. split; [reflexivity|]. cbn [res_rel] in B. split; [intros n; now apply sh_imports|now apply sh_declarations].
Qed.
Print Assumptions C15_up_to_order_partial.
Theorem C15_errors_partial : forall s ord ord' v name e,
  set_like ord -> set_like ord' -> s_dict s <> DTypedDict \/ dicts_apart v = true ->
  from_data s ord v name = Err e -> from_data s ord' v name = Err e.
Proof.
  intros s ord ord' v name e O O' A H. unfold from_data in *. destruct (is_compatible name); [|exact H].
  assert (A' : apart s v). { destruct A as [A|A]; [left|now right]. unfold is_td_strategy. destruct (s_dict s); auto. congruence. }
  pose proof (build_rel s ord ord' O O' (S (vdepth v)) name 0 true v A') as B. rewrite H in B. destruct (build s ord' _ name 0 true v) as [t'|e'|]; try contradiction.
  cbn [res_rel] in B. now subst.
Qed.
Print Assumptions C15_errors_partial.

(** The declarations of the elements of a list change places. *)
Definition two_elements := vlist [vlist [vlist [vint]]; vtuple [vlist [vint]]].
Theorem C15_order_refuted : exists s v t t' text text', valid s /\ dicts_apart v = true /\ set_like as_inserted /\ set_like reversed_order /\
  from_data s as_inserted v "Example" = Ok t /\ from_data s reversed_order v "Example" = Ok t' /\
  to_string s t true = Some text /\ to_string s t' true = Some text' /\ text <> text'.
Proof.
  exists default_strategies, two_elements. do 4 eexists. split; [apply default_valid|]. split; [reflexivity|]. split; [apply as_inserted_set_like|]. split; [apply reversed_set_like|].
  split; [vm_compute; reflexivity|]. split; [vm_compute; reflexivity|]. split; [vm_compute; reflexivity|]. split; [vm_compute; reflexivity|]. discriminate.
Qed.
Print Assumptions C15_order_refuted.

(** With TypedDicts in a list even the set of declarations changes: the order of the fields of the merged class. *)
Definition two_dicts := vlist [vdict [("a", vint); ("b", vstr)]; vdict [("b", vstr); ("a", vint); ("c", vint)]].
Theorem C15_merge_refuted : exists s v t t' ds ds', valid s /\ set_like as_inserted /\ set_like reversed_order /\
  from_data s as_inserted v "Example" = Ok t /\ from_data s reversed_order v "Example" = Ok t' /\
  declarations s t = Some ds /\ declarations s t' = Some ds' /\ ~ Permutation ds ds'.
Proof.
  exists default_strategies, two_dicts. do 4 eexists. split; [apply default_valid|]. split; [apply as_inserted_set_like|]. split; [apply reversed_set_like|].
  split; [vm_compute; reflexivity|]. split; [vm_compute; reflexivity|]. split; [vm_compute; reflexivity|]. split; [vm_compute; reflexivity|].
  intros P. eapply (Permutation_in _) in P; [|left; reflexivity]. repeat (destruct P as [P|P]; [discriminate P|]). destruct P.
Qed.
Print Assumptions C15_merge_refuted.
Example C15_example : dicts_apart (vdict [("a", two_elements); ("b", vdict [("c", vset [vint; vstr])])]) = true /\
  exists t ds, from_data default_strategies as_inserted (vdict [("a", two_elements); ("b", vdict [("c", vset [vint; vstr])])]) "Example" = Ok t /\
    declarations default_strategies t = Some ds /\ 4 <= List.length ds.
Proof.
  split; [reflexivity|].
  do 2 eexists. split; [vm_compute; reflexivity|]. split; [vm_compute; reflexivity|]. cbn [List.length]. lia.
Qed.
