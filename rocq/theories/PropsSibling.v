(** C14 for all nodes of finished trees. *)
From Coq Require Import Ascii String List Bool Arith Lia.
From Verif Require Import PyStr PyStrFacts Utils Strategies Dispatch Values Tree Build TreeFacts SpecNames SpecData SpecMerge BuildFacts TotalFacts TreeProofs SpecSound SpecUnique UniqueFacts
  SpecClear ClearFacts SampleClear SpecSibling SiblingFacts Samples SampleEmit SampleSound PropsTree PropsClear SoundTop SoundJson.
Import ListNotations.
Local Open Scope string_scope.
Local Open Scope nat_scope.

(** ** C14 *)

(** Partial: the elements of every sequence of the finished tree, when values that are renamed (the equal values of several keys,
    repeated elements of fixed size tuples) have no node with children in several places ([shared_once]).  Without this the
    claim is false ([C14_sibling_names_refuted]). *)
Theorem C14_finished_partial : forall s ord v n t, set_like ord -> unique_keys v -> from_data s ord v n = Ok t -> shared_once s t ->
  forall x, node_of x t -> told_apart s x.
Proof.
  intros s ord v n t Ho U H Sh. unfold from_data in H. destruct (is_compatible n); [|discriminate]. exact (build_settled s ord Ho _ _ _ _ _ _ U H Sh).
Qed.
Print Assumptions C14_finished_partial.

(** Partial: said of the data: tidy data whose keys and values are told apart. *)
Theorem C14_data_partial : forall s ord v n t, set_like ord -> tidy s v -> clear_data s v -> from_data s ord v n = Ok t ->
  forall x, node_of x t -> told_apart s x.
Proof.
  intros s ord v n t Ho T C H. assert (Sp : forall x, node_of x t -> sep s x).
  { unfold from_data in H. destruct (is_compatible n); [|discriminate]. intros x. eapply built_sep; eauto. left. apply sub_refl. }
  apply (C14_finished_partial s ord v n t Ho); auto.
  - destruct T. auto.
  - split.
    + intros x e Hx M He O y e' Hy He'. exfalso. specialize (Sp x Hx). unfold sep, mapping_node in *.
      assert (Q : is_declared (etree e) = false /\ tcs (etree e) = []).
      { destruct (tkind x); try destruct M; destruct Sp as (_ & B & _ & _ & E); (destruct (is_declared (etree e)) eqn:K; [exfalso; apply O; intros e1 He1 N; apply E; auto|]; destruct (B e He K); auto). }
      destruct Q as [_ Q]. destruct (etree e) as [i cs]. cbn [tcs] in Q. subst cs. apply node_of_inv in Hy as [->|(e1 & [] & _)]. destruct He'.
    + intros x p e q e' Hx [F F'] Es He' Q. exfalso. specialize (Sp x Hx). unfold sep in Sp. rewrite F in Sp. apply Sp. split; auto.
Qed.
Print Assumptions C14_data_partial.

(** Decision procedures for the examples. *)
Definition mappingb (x : tree) : bool := match tkind x with NProxy | NDict _ _ => true | _ => false end.
Definition onceb (t : tree) : bool :=
  forallb (fun x => forallb (fun e => Nat.eqb (emult e) 1 || mappingb x && (Nat.eqb (emult e) 0 || match tcs (etree e) with [] => true | _ => false end)) (tcs x)) (Samples.nodes t).
Lemma onceb_spec t : onceb t = true -> once_inside t.
Proof.
  unfold onceb. rewrite forallb_forall. intros H x e Hx He. specialize (H x (node_of_nodes _ _ Hx)). rewrite forallb_forall in H. specialize (H e He).
  apply orb_true_iff in H as [H|H]; [left; now apply Nat.eqb_eq|]. apply andb_true_iff in H as [M H]. right. unfold mapping_node, mappingb in *. split; [destruct (tkind x); try discriminate; exact I|].
  apply orb_true_iff in H as [H|H]; [left; now apply Nat.eqb_eq|]. right. destruct (tcs (etree e)); [auto|discriminate].
Qed.
Fixpoint repeatsb (s : strategies) (before es : list (key * nat * tree)) : bool :=
  match es with
  | [] => true
  | e :: r => (negb (existsb (fun e' => teq s (etree e) (etree e')) before) || onceb (etree e)) && repeatsb s (before ++ [e])%list r
  end.
Lemma repeatsb_spec s es : forall before p e q e', repeatsb s before es = true -> es = (p ++ e :: q)%list -> In e' (before ++ p)%list -> teq s (etree e) (etree e') = true -> once_inside (etree e).
Proof.
  induction es as [|x es IH]; intros before p e q e' H E He' Q; [destruct p; discriminate|]. cbn [repeatsb] in H. apply andb_true_iff in H as [H1 H2]. destruct p as [|y p]; cbn [app] in E; injection E as -> ->.
  - rewrite app_nil_r in He'. apply orb_true_iff in H1 as [H1|H1]; [|now apply onceb_spec]. exfalso. apply negb_true_iff in H1. rewrite (proj2 (existsb_exists _ _)) in H1; [discriminate|eauto].
  - eapply (IH _ p e q e' H2 eq_refl); auto. rewrite <- app_assoc. exact He'.
Qed.
Definition shared_onceb (s : strategies) (t : tree) : bool :=
  forallb (fun x => if mappingb x then forallb (fun e => SampleUnique.oneb s (tcs x) e || onceb (etree e)) (tcs x) else repeatsb s [] (tcs x)) (Samples.nodes t).
Lemma shared_onceb_spec s t : shared_onceb s t = true -> shared_once s t.
Proof.
  unfold shared_onceb. rewrite forallb_forall. intros H. split.
  - intros x e Hx M He O. specialize (H x (node_of_nodes _ _ Hx)). replace (mappingb x) with true in H by (unfold mapping_node, mappingb in *; destruct (tkind x); try destruct M; reflexivity).
    rewrite forallb_forall in H. specialize (H e He). apply orb_true_iff in H as [H|H]; [|now apply onceb_spec]. exfalso. apply O. now apply SampleUnique.oneb_spec.
  - intros x p e q e' Hx [F _] Es He' Q. specialize (H x (node_of_nodes _ _ Hx)). unfold mappingb in H. rewrite F in H. eapply repeatsb_spec; eauto.
Qed.

(** Shared lists with several elements, a tuple with a repeated dict, and shared numbers. *)
Definition shelf : pyval :=
  vdict [("first", vlist [vlist [vint]; vlist [vstr]; vtuple [vint]]); ("second", vlist [vlist [vint]; vlist [vstr]; vtuple [vint]]);
         ("pair", vtuple [vlist [vint; vstr]; vlist [vfloat]; vlist [vstr; vint]]); ("a", vint); ("b", vint)].
Example C14_finished_example : exists t, from_data default_strategies as_inserted shelf "Shelf" = Ok t /\ unique_keys shelf /\ shared_once default_strategies t /\
  map tname (Samples.nodes t) =
    ["Shelf"; "ShelfList"; "ShelfListList"; "ShelfListListInt"; "ShelfListList2"; "ShelfListList2Str"; "ShelfListTuple"; "ShelfListTupleInt";
     "ShelfList"; "ShelfListList"; "ShelfListListInt"; "ShelfListList2"; "ShelfListList2Str"; "ShelfListTuple"; "ShelfListTupleInt";
     "ShelfPair"; "ShelfPairList"; "ShelfPairListInt"; "ShelfPairListStr"; "ShelfPairList2"; "ShelfPairList2Float"; "ShelfPairList"; "ShelfPairListStr"; "ShelfPairListInt"; "ShelfInt"; "ShelfInt"].
Proof.
  eexists. split; [vm_compute; reflexivity|]. split; [apply unique_keysb_spec; vm_compute; reflexivity|]. split; [apply shared_onceb_spec; vm_compute; reflexivity|]. vm_compute. reflexivity.
Qed.
Example C14_data_example : exists t, from_data default_strategies as_inserted order "Order" = Ok t /\ (forall x, node_of x t -> told_apart default_strategies x) /\
  exists x, node_of x t /\ tkind x = NSeq KList /\ map (fun e => tname (etree e)) (tcs x) = ["OrderItemsDict"; "OrderItemsDict2"].
Proof.
  assert (T : tidy default_strategies order).
  { apply json_tidy.
    - apply jsonb_spec. vm_compute. reflexivity.
    - apply unique_keysb_spec. vm_compute. reflexivity.
    - apply no_doc_keysb_spec. vm_compute. reflexivity.
    - apply within_limitb_spec. vm_compute. reflexivity.
    - apply empties_differb_spec. vm_compute. reflexivity.
    - intros _. split; [apply rows_agreeb_spec|apply optional_keys_agreeb_spec]; vm_compute; reflexivity. }
  assert (C : clear_data default_strategies order) by (apply clear_datab_spec; vm_compute; reflexivity).
  destruct (from_data default_strategies as_inserted order "Order") as [t| |] eqn:E; [|vm_compute in E; discriminate..]. exists t. split; auto.
  split; [exact (C14_data_partial _ _ _ _ _ as_inserted_set_like T C E)|]. pose (x := nth 6 (Samples.nodes t) t). exists x. pose proof (nth_In (Samples.nodes t) t (n := 6)) as Hx.
  vm_compute in E. injection E as <-. split; [apply nodes_node_of, Hx; vm_compute; repeat constructor|]. vm_compute. auto.
Qed.
