(** C17 for the tuples inside of the data. *)
From Coq Require Import Ascii String List Bool Arith Lia Permutation.
From Verif Require Import PyStr PyStrFacts Utils Strategies Imports Dispatch Values Tree Build Emit TreeFacts SpecNames NamesFacts SpecData BuildFacts BuildInd TotalFacts TreeProofs SpecMerge SpecTypes.
From Verif Require Import Elab ElabFacts Provenance Origin SpecEmit EmitFacts EmitTop TypedFacts Samples SampleEmit.
Import ListNotations.
Local Open Scope string_scope.

Ltac hyps := repeat match goal with |- _ /\ _ => split end;
  first [apply default_valid | apply as_inserted_set_like | apply ordinaryb_spec; reflexivity | apply plain_textsb_spec; reflexivity | idtac].

(** ** What the nodes of tuples keep of their values *)
(** [fits s x n]: the node [n] is one for [x]: of the kind and class of [x] and, if [x] is a tuple, with one node for every element
    (within the limit) in order, which fits the element.  The dicts of a sequence may have been merged into one. *)
Inductive fits (s : strategies) : pyval -> tree -> Prop :=
  | fits_tuple ty l n : tkind n = NSeq KTuple -> i_type (ti n) = ty -> Forall2 (fits s) (limit s l) (map etree (tcs n)) -> fits s (VSeq KTuple ty l) n
  | fits_other x n : (forall ty l, x <> VSeq KTuple ty l) -> made_from x n -> fits s x n
  | fits_dict ty kvs n : (exists d m, tkind n = NDict d m) -> fits s (VMap MDict ty kvs) n.

Lemma made_from_exhaust x n : made_from (exhaust x) n <-> made_from x n.
Proof. unfold made_from. rewrite type_exhaust. destruct x as [| | | | | | |k ? ?|k ? ?]; try destruct k; cbn [exhaust]; reflexivity. Qed.
Lemma limit_map {A B} s (f : A -> B) l : limit s (map f l) = map f (limit s l).
Proof. unfold limit. destruct (effective_limit s); auto. apply firstn_map. Qed.
Lemma exhaust_tuple x ty l : exhaust x = VSeq KTuple ty l -> exists l', x = VSeq KTuple ty l' /\ l = map exhaust l'.
Proof. destruct x as [| | | | | | |k ty' l'|k ? ?]; try discriminate. destruct k; cbn [exhaust]; intros E; try discriminate. injection E as <- <-. eauto. Qed.

Section Tuples.
  Variable s : strategies.
  Variable ord : set_order.
  Hypothesis Hord : set_like ord.
  Hypothesis Fixed : s_tuple s = TFixed.

  Lemma fits_kind x n : fits s x n -> (forall ty l, x = VSeq KTuple ty l -> tkind n = NSeq KTuple /\ i_type (ti n) = ty).
  Proof. intros H ty l ->. inversion H as [? ? ? A B|? ? A|]; subst; auto. now contradiction (A ty l). Qed.
  Lemma fits_ren : forall x n, fits s x n -> forall k new len, fits s x (ren k new len n).
  Proof.
    fix IH 3. intros x n H k new len. destruct H as [ty l n K E F|x n N M|ty kvs n (d & m & K)].
    - apply fits_tuple; [now rewrite ren_kind|now rewrite ren_type|]. rewrite ren_cs, map_map. clear -IH F. revert F. generalize (limit s l). intros xs F.
      remember (map etree (tcs n)) as cs eqn:C. revert C. generalize (tcs n). induction F as [|x c xs cs Fx F IHF]; intros es C.
      + destruct es; [constructor|discriminate].
      + destruct es as [|[[key m] u] es]; [discriminate|]. cbn [map etree snd] in C. injection C as -> C. cbn [map]. constructor; [|now apply IHF].
        cbn. apply IH. exact Fx.
    - apply fits_other; auto. now apply made_from_ren.
    - apply fits_dict. exists d, m. now rewrite ren_kind.
  Qed.
  Lemma fits_exhaust : forall x n, fits s (exhaust x) n -> fits s x n.
  Proof.
    assert (G : forall y n, fits s y n -> forall x, y = exhaust x -> fits s x n).
    { fix IH 3. intros y n H x E. destruct H as [ty l n K T F|y n N M|ty kvs n D].
      - symmetry in E. apply exhaust_tuple in E as (l' & -> & ->). apply fits_tuple; auto. rewrite limit_map in F. clear -IH F. revert F. generalize (map etree (tcs n)). intros cs F.
        remember (map exhaust (limit s l')) as xs eqn:X. revert X. generalize (limit s l'). induction F as [|x c xs cs Fx F IHF]; intros es X; (destruct es as [|e es]; [|]); try discriminate; constructor.
        + injection X as X _. exact (IH _ _ Fx _ X).
        + injection X as _ X. now apply IHF.
      - apply fits_other; [|subst y; now apply made_from_exhaust]. intros ty l ->. subst y. now apply (N ty (map exhaust l)).
      - destruct x as [| | | | | | |k ? ?|k ? ?]; try discriminate; [destruct k; discriminate|]. cbn [exhaust] in E. injection E as <- _ _. now apply fits_dict. }
    intros x n H. eapply G; eauto.
  Qed.
  Lemma made_fits x n : (forall ty l, x <> VSeq KTuple ty l) -> made_from x n -> fits s x n.
  Proof. apply fits_other. Qed.

  Lemma fits_build : forall fuel name d r v t, build s ord fuel name d r v = Ok t -> fits s v t.
  Proof.
    induction fuel as [|f IH]; intros name d r v t H.
    - apply fits_other; [|eapply made_from_root; eauto]. intros ty l ->. cbn [build] in H. destruct (negb _); discriminate.
    - assert (V : (exists ty l, v = VSeq KTuple ty l) \/ forall ty l, v <> VSeq KTuple ty l).
      { destruct v as [| | | | | | |[] ty l|]; try (right; congruence). left. eauto. }
      destruct V as [(ty & l & ->)|V]; [|apply fits_other; auto; eapply made_from_root; eauto].
      pose proof (made_from_root _ _ _ _ _ _ _ _ H) as [MT MK]. apply fits_tuple; auto.
      cbn [build] in H. destruct (negb _); [discriminate|]. rewrite Fixed in H. apply bind_Ok in H as (cs & H & E). injection E as <-. cbn [inner tcs].
      apply bind_Ok in H as (ch & H1 & H2).
      eapply (build_list_inv _ _ _ (fun done ch _ => Forall2 (fits s) done ch) _ []) in H1 as (names & H1).
      + cbn [app] in H1. apply merge_list_spec in H2 as [(_ & ->)|(_ & m & Hm & ->)].
        * unfold no_sharing. rewrite map_map. cbn [etree snd]. now rewrite map_id.
        * rewrite map_map.
          assert (Km : exists d0 m0, tkind m = NDict d0 m0).
          { apply from_multiple_Ok in Hm as (fi & re & t0 & -> & Hb & ->). apply made_from_root in Hb. cbn [exhaust] in Hb. destruct Hb as [_ (d0 & m0 & K)].
            unfold set_meta. rewrite K. unfold tkind. cbn [ti with_kind i_kind]. eauto. }
          clear Hm. generalize (List.length (filter (is_td s) ch)). intros N.
          induction H1 as [|x c xs cs M H1 IHl]; constructor; auto.
          cbn beta. destruct (is_td s c) eqn:E; cbn [etree snd]; auto.
          destruct M as [ty' l' n' K _ _|x n' _ M|ty' d' n' _]; [destruct (td_dict _ _ E) as (? & ? & E'); congruence| |now apply fits_dict].
          destruct (made_from_td _ _ _ M E) as (? & ? & ->). now apply fits_dict.
      + intros done chs added v child _ Hi Hb. apply IH in Hb. destruct (lookup_tree s child added); (apply Forall2_app; [auto|constructor; [|constructor]]); auto. now apply fits_ren.
      + constructor.
  Qed.

  Definition tuple_node (x : pyval) (n : tree) : Prop := fits s x n /\ made_from x n /\ (tkind n = NSeq KTuple -> Forall (fun e => ekey e = no_key) (tcs n)).
  Lemma tuple_node_build fuel name d r v t : build s ord fuel name d r v = Ok t -> tuple_node v t.
  Proof.
    intros H. split; [eapply fits_build; eauto|]. pose proof (made_from_root _ _ _ _ _ _ _ _ H) as M. split; auto. intros K. destruct M as [_ M]. rewrite K in M.
    destruct v as [| | | | | | |k ty l|[] ty kvs]; try discriminate; [|destruct M as (? & ? & M); discriminate]. injection M as <-. now apply tuple_children in H as (_ & _ & B).
  Qed.
  Lemma tuple_node_ren x n k new len : tuple_node x n -> tuple_node x (ren k new len n).
  Proof.
    intros (A & B & C). split; [now apply fits_ren|]. split; [now apply made_from_ren|]. rewrite ren_kind, ren_cs. intros K.
    apply Forall_forall. intros e He. apply in_map_iff in He as (e' & <- & He). specialize (C K). rewrite Forall_forall in C. apply C in He. exact He.
  Qed.
  Lemma tuple_node_dict x i cs d m d' m' : i_kind i = NDict d m -> tuple_node x (Node i cs) -> tuple_node x (Node (with_kind i (NDict d' m')) cs).
  Proof.
    intros K (A & B & C).
    assert (M : made_from x (Node (with_kind i (NDict d' m')) cs)) by (eapply made_from_kind; eauto; right; exists d, m, d', m'; auto).
    split; [|split; auto; intros Z; discriminate Z]. apply fits_other; auto. intros ty l ->. destruct B as [_ B]. unfold tkind in B. cbn [ti] in B. congruence.
  Qed.

  (** A value of the data, possibly with its iterators used up. *)
  Definition of_data (v x : pyval) : Prop := exists w, sub w v /\ (x = w \/ x = exhaust w).
  Lemma exhaust_twice : forall v, exhaust (exhaust v) = exhaust v.
  Proof.
    fix IH 1. intros v. destruct v as [| | | | | | |k ty l|k ty kvs]; try reflexivity.
    - destruct k; try reflexivity; cbn [exhaust]; f_equal; induction l as [|x l IHl]; cbn [map]; auto; now rewrite IH, IHl.
    - cbn [exhaust]. f_equal. induction kvs as [|[key x] kvs IHk]; cbn [map fst snd]; auto. now rewrite IH, IHk.
  Qed.

  Lemma tuples_origin v name t : from_data s ord v name = Ok t -> forall n, node_of n t -> tkind n = NSeq KTuple ->
    exists ty l, sub (VSeq KTuple ty l) v /\ fits s (VSeq KTuple ty l) n /\ Forall (fun e => ekey e = no_key) (tcs n).
  Proof.
    intros H n Hn K. unfold from_data in H. destruct (is_compatible name); [|discriminate].
    assert (P : Origin.tree_ok (fun x => of_data v x \/ exists d, x = VMap MDict ty_dict d) (fun _ => True) tuple_node t).
    { refine (build_origin s ord Hord _ (fun _ => True) _ tuple_node tuple_node_build tuple_node_ren tuple_node_dict _ _ _ _ _ _ _ _ H).
      - intros x [(w & W & [->| ->])|(d & ->)]; [left; exists w; auto|left; exists w; rewrite exhaust_twice; auto|right; cbn [exhaust]; eauto].
      - intros d _. right. eauto.
      - split; auto. intros x Hx. left. exists x. auto. }
    destruct (P n Hn) as ((x & T & G & M & Nk) & _). specialize (Nk K). destruct M as [_ M]. rewrite K in M.
    destruct x as [| | | | | | |k ty l|k ty kvs]; try discriminate; [|destruct k; [destruct M as (? & ? & M)|]; discriminate]. injection M as <-.
    destruct T as [(w & W & [<-|E])|(d & E)]; [eauto| |discriminate E].
    rewrite E in G. apply fits_exhaust in G. symmetry in E. apply exhaust_tuple in E as (l' & -> & _). eauto.
  Qed.

  Lemma tuple_node_text name n : name <> "" -> ~ In name ["A"; "An"; "Any"] -> eq_free n -> (forall x, node_of x n -> exists r, tname x = name ++ r) ->
    tkind n = NSeq KTuple -> Forall (fun e => ekey e = no_key) (tcs n) -> tcs n <> [] ->
    fst (top s n) = tname n ++ ": TypeAlias = Tuple[" ++ join ", " (map (written s) (map etree (tcs n))) ++ "]".
  Proof.
    intros En Hn F Nm K NK Ne. destruct n as [i cs]. unfold tkind, tname in *. cbn [ti tcs] in *.
    rewrite top_node, K. cbv zeta. rewrite outs_written, (iter_no_none cs NK), Fixed.
    unfold seq_container. cbn [fst]. unfold alias. set (L := map (written s) (map etree cs)).
    assert (LN : L <> []) by (unfold L; destruct cs; [congruence|discriminate]).
    assert (Q : fst (tuple_types_of TFixed L) = join ", " L).
    { unfold tuple_types_of. cbv zeta. destruct L as [|x [|y r]] eqn:EL; [congruence| |reflexivity]. cbn [or_any List.length Nat.eqb andb].
      destruct (mem "Any" [x]) eqn:M; [|reflexivity]. exfalso. apply mem_spec in M as [->|[]].
      unfold L in EL. destruct cs as [|e [|? ?]]; try discriminate. cbn [map] in EL. injection EL as EL. unfold written in EL.
      assert (Fe : eq_free (etree e)) by (eapply eq_free_child; [exact F|now left]).
      destruct (perm s (etree e)) eqn:P.
      - destruct (Nm (etree e)) as (r & E); [econstructor; [now left|constructor]|]. unfold tname in EL. rewrite EL in E. symmetry in E. apply prefix_any in E as [E|E]; [congruence|]. now apply Hn.
      - rewrite (child_ok_all s (etree e) Fe P) in EL. now apply rhs_not_any in EL. }
    destruct (tuple_types_of TFixed L) as [a b]. cbn [fst] in *. rewrite Q. reflexivity.
  Qed.
End Tuples.

(** Full claim: the hint of every tuple lists one type per element, in order.  Proved for every tuple node of the tree and
    the elements within the limit; the types of tuples in tuples again list their elements ([fits]). *)
Theorem C17_nested_partial : forall s ord v name t, valid s -> set_like ord -> ordinary_types v -> plain_texts v ->
  s_tuple s = TFixed -> ~ In name ["A"; "An"; "Any"] -> from_data s ord v name = Ok t ->
  forall n, node_of n t -> tkind n = NSeq KTuple -> tcs n <> [] ->
  exists ty l cs, sub (VSeq KTuple ty l) v /\ cs = map etree (tcs n) /\
    fst (top s n) = tname n ++ ": TypeAlias = Tuple[" ++ join ", " (map (written s) cs) ++ "]" /\
    List.length cs = match s_max_n s with Some (S m) => Nat.min (S m) (List.length l) | _ => List.length l end /\
    Forall2 (fits s) (limit s l) cs.
Proof.
  intros s ord v name t Hs Ho Hv Hp T Hn H n Nn K Ne. destruct (tuples_origin s ord Ho T v name t H n Nn K) as (ty & l & Sb & F & NK).
  exists ty, l, (map etree (tcs n)). split; auto. split; auto.
  assert (G : Forall2 (fits s) (limit s l) (map etree (tcs n))) by (inversion F as [? ? ? _ _ G|? ? N|]; subst; auto; now contradiction (N ty l)).
  split; [|split; auto].
  - apply tuple_node_text with name; auto.
    + intros ->. unfold from_data in H. discriminate.
    + intros x Hx. eapply from_data_eq_free; eauto. eapply node_of_trans; eauto.
    + intros x Hx. eapply from_data_names; eauto. eapply node_of_trans; eauto.
  - replace (List.length (map etree (tcs n))) with (List.length (limit s l)) by (clear -G; induction G; simpl; auto). unfold limit, effective_limit.
    destruct (s_max_n s) as [[|m]|]; auto. apply firstn_length.
Qed.
Print Assumptions C17_nested_partial.
(** The tuple itself, also when it was given to [from_data]. *)
Theorem C17_root_partial : forall s ord ty l name t, set_like ord -> s_tuple s = TFixed -> from_data s ord (VSeq KTuple ty l) name = Ok t ->
  tkind t = NSeq KTuple /\ Forall2 (fits s) (limit s l) (map etree (tcs t)).
Proof.
  intros s ord ty l name t Ho T H. unfold from_data in H. destruct (is_compatible name); [|discriminate]. apply (fits_build s ord T) in H.
  inversion H as [? ? ? K _ G|? ? N|]; subst; auto. now contradiction (N ty l).
Qed.
Print Assumptions C17_root_partial.

Definition pairs : pyval := vdict [("a", vlist [vtuple [vint; vtuple [vstr; vint]]; vtuple [vint; vtuple [vint; vint]]]); ("b", vtuple [vstr; vstr])].
Definition all_nodes : tree -> list tree := fix go t := t :: flat_map (fun e => go (snd e)) (tcs t).
Example C17_nested_example : valid default_strategies /\ set_like as_inserted /\ ordinary_types pairs /\ plain_texts pairs /\
  exists t, from_data default_strategies as_inserted pairs "Pairs" = Ok t /\
    map (fun n => fst (top default_strategies n)) (filter (fun n => match tkind n with NSeq KTuple => true | _ => false end) (all_nodes t)) =
    ["PairsATuple: TypeAlias = Tuple[int, Tuple[str, int]]"; "PairsATupleTuple: TypeAlias = Tuple[str, int]";
     "PairsATuple2: TypeAlias = Tuple[int, Tuple[int, int]]"; "PairsATuple2Tuple: TypeAlias = Tuple[int, int]"; "PairsB: TypeAlias = Tuple[str, str]"].
Proof. hyps. eexists. split; [vm_compute; reflexivity|]. vm_compute. reflexivity. Qed.
