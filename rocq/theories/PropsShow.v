(** C80: what [print_all_children] prints. *)
From Coq Require Import Ascii String List Bool Arith Lia.
From Verif Require Import PyStr PyStrFacts Exc Utils Strategies Dispatch Values Tree Build TreeFacts SpecData SpecEmit BuildFacts TreeProofs SampleEmit PropsTree PropsEmit Samples EmitTop SampleEmit Show.
Import ListNotations.
Local Open Scope string_scope.
Local Open Scope nat_scope.

(** The nodes of a tree with their distance from the root, parents before children, in the order of the children. *)
Fixpoint listing (level : nat) (t : tree) : list (nat * tree) :=
  match t with Node _ cs => (level, t) :: flat_map (fun e => listing (S level) (snd e)) cs end.
Fixpoint blanks (n : nat) : string := match n with 0 => "" | S m => " " ++ blanks m end.
Definition shown_line (e : nat * tree) : string := blanks (4 * fst e) ++ class_name (tkind (snd e)) ++ "-" ++ tname (snd e).

Lemma blanks_repeat n : str_repeat n "    " = blanks (4 * n).
Proof. induction n as [|n IH]; [reflexivity|]. cbn [str_repeat]. rewrite IH. replace (4 * S n) with (S (S (S (S (4 * n))))) by lia. reflexivity. Qed.
Lemma print_node r i cs : print_all_children r (Node i cs) =
  (str_repeat (i_depth i) "    " ++ tree_repr (Node i cs)) :: flat_map (print_all_children r) (map etree (iter_entries cs)).
Proof.
  cbn [print_all_children ti]. apply f_equal. induction cs as [|[[k m] c] cs IH]; [reflexivity|]. unfold iter_entries. cbn [before_none ekey fst].
  destruct k; [|reflexivity|]; cbn [map flat_map etree snd]; f_equal; exact IH.
Qed.
Lemma printed r t : forall level, i_depth (ti t) = level -> (forall x, node_of x t -> bookkept x) -> (forall x e, node_of x t -> In e (tcs x) -> ekey e <> KNone) ->
  print_all_children r t = map shown_line (listing level t).
Proof.
  induction t as [i cs IH] using tree_ind'. intros level D B K. rewrite print_node. cbn [listing map]. f_equal.
  - unfold shown_line. cbn [fst snd]. rewrite blanks_repeat. cbn [ti] in D. rewrite D. reflexivity.
  - assert (E : iter_entries cs = cs).
    { assert (Kc : forall e, In e cs -> ekey e <> KNone) by (intros e He; apply (K (Node i cs) e); [constructor|exact He]). clear -Kc. unfold iter_entries. induction cs as [|e cs IH]; [reflexivity|].
      cbn [before_none]. assert (X := Kc e (or_introl eq_refl)). destruct (ekey e); [|congruence|]; rewrite IH; auto; intros e' He'; apply Kc; now right. }
    rewrite E. clear E. assert (Bd : forall e, In e cs -> i_depth (ti (snd e)) = S level) by (intros e He; pose proof (B (Node i cs) ltac:(constructor)) as Bk; destruct Bk as [Bd _ _ _ _]; rewrite (Bd e He); now rewrite D).
    assert (Bn : forall e x, In e cs -> node_of x (snd e) -> bookkept x) by (intros e x He Hx; apply B; econstructor; eauto).
    assert (Kn : forall e x e', In e cs -> node_of x (snd e) -> In e' (tcs x) -> ekey e' <> KNone) by (intros e x e' He Hx; apply K; econstructor; eauto).
    clear -IH Bd Bn Kn. induction IH as [|e cs He _ I]; [reflexivity|]. cbn [map flat_map]. rewrite map_app. f_equal.
    + apply He; [apply Bd; now left|intros x; apply Bn; now left|intros x e'; apply Kn; now left].
    + apply I; intros; [apply Bd; now right|eapply Bn; eauto; now right|eapply Kn; eauto; now right].
Qed.

(** One line per node, parents first, four blanks per level, class and name. *)
Theorem C80_lines_partial : forall s ord v n t recursive, set_like ord -> (forall k, key_in k v -> k <> KNone) -> from_data s ord v n = Ok t ->
  print_all_children recursive t = map shown_line (listing 0 t).
Proof.
  intros s ord v n t r Ho Hk H. destruct (C07_bookkeeping s ord v n t Ho H) as (D & _ & B). apply printed; auto.
  intros x e Hx He. destruct (from_data_keys s ord v n t (fun k => k <> KNone) Ho Hk H x e Hx He) as [G|G]; [exact G|]. unfold ekey in *. rewrite G. discriminate.
Qed.
Print Assumptions C80_lines_partial.
Definition show_data : pyval := vdict [("a", vlist [vint; vdict [("b", vstr)]]); ("c", vint)].
Example C80_example : exists t, from_data default_strategies as_inserted show_data "Example" = Ok t /\ (forall k, key_in k show_data -> k <> KNone) /\
  print_all_children true t = ["DictDataTypeTree-Example"; "    ListDataTypeTree-ExampleA"; "        InstanceDataTypeTree-ExampleAInt"; "        DictDataTypeTree-ExampleADict"; "            InstanceDataTypeTree-ExampleADictB"; "    InstanceDataTypeTree-ExampleC"].
Proof.
  eexists. split; [vm_compute; reflexivity|]. split; [|vm_compute; reflexivity].
  intros k Hk. apply key_in_keys in Hk. intros ->. vm_compute in Hk. repeat (destruct Hk as [Hk|Hk]; [discriminate|]). destruct Hk.
Qed.

(** Nodes behind a [None] key are not printed, and [recursive=False] prints the grandchildren all the same. *)
Theorem C80_lines_refuted :
  (exists v t, from_data default_strategies as_inserted v "Example" = Ok t /\ List.length (listing 0 t) = 3 /\ List.length (print_all_children true t) = 1) /\
  (exists v t, from_data default_strategies as_inserted v "Example" = Ok t /\ List.length (tcs t) = 1 /\ List.length (print_all_children false t) = 3).
Proof.
  split.
  - exists (VMap MDict ty_dict [(KNone, vint); (KStr "a", vstr)]). eexists. split; [vm_compute; reflexivity|]. split; vm_compute; reflexivity.
  - exists (vdict [("a", vlist [vint])]). eexists. split; [vm_compute; reflexivity|]. split; vm_compute; reflexivity.
Qed.
Print Assumptions C80_lines_refuted.
