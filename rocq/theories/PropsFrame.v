(** C53, C54 and C61 to C65: data frames. *)
From Coq Require Import Ascii String List Bool Arith ZArith Lia Permutation.
From Verif Require Import PyStr PyStrFacts Utils Strategies Imports Dispatch Values Tree Build Emit TreeFacts SpecData BuildFacts FuelFacts NamesFacts Elab ElabFacts EmitFacts EmitTop TreeProofs SpecImports SpecEmit BaseProofs Frame SpecFrame FrameFacts FrameText PandasFacts SpecNames SpecCamel CamelFacts OrderFacts Samples.
Import ListNotations.
Local Open Scope string_scope.
Local Open Scope nat_scope.

Definition ints2 : list pyval := [vint; vint].
Definition a_ (s : string) : label := LAtom (AStr s).
(** Columns A, B, 1 with one cell that is a list of dicts. *)
Definition plain_frame : frame := Flat [(a_ "A", ints2); (a_ "it's", [vlist [vdict [("x", vint)]]]); (LAtom (AInt 1), [vstr])].
Definition nested_frame : frame :=
  Multi [([AStr "a"; AStr "x"], ints2); ([AStr "b"; AStr "y"], [vstr]); ([AStr "a"; AStr "z"], ints2); ([AStr "c"; AOther 7 "1.5"], ints2); ([AStr "d"; AStr ""], ints2)].

(** ** C54: building the tree of a data frame terminates.
    Full claim: for all column indexes.  Proved for exactly the indexes in which no label of a plain index occurs twice, at any
    level; false otherwise. *)
Theorem C54_terminates_partial : forall s ord f name, set_like ord -> ~ repeats f ->
  exists n r, r <> FOut /\ forall fuel, n <= fuel -> from_frame s ord fuel f name = r.
Proof.
  intros s ord f name Ho R. exists (levels f + 2), (from_frame s ord (levels f + 2) f name). unfold from_frame. destruct (is_compatible name); [|split; [discriminate|auto]].
  pose proof (no_repeats_ends s ord Ho (levels f + 2) f name 0 R (le_n _)) as N. split; auto. intros fuel L. now apply frame_fuel.
Qed.
Print Assumptions C54_terminates_partial.
(** In particular when all columns are different. *)
Theorem C54_different_columns : forall f, different_labels f -> ~ repeats f.
Proof. exact different_no_repeats. Qed.
Print Assumptions C54_different_columns.
(** And then there is a tree, if no tuples are mixed with other labels and the classes of the cells have ordinary names. *)
Theorem C54_tree_partial : forall s ord f name, valid s -> set_like ord -> ~ repeats f -> ordinary_frame f -> is_compatible name = true ->
  exists n t, forall fuel, n <= fuel -> from_frame s ord fuel f name = FOk t.
Proof.
  intros s ord f name Hs Ho R Of Hn. destruct (C54_terminates_partial s ord f name Ho R) as (n & r & N & H). exists n. destruct r as [t|e|]; [eauto| |congruence]. exfalso.
  specialize (H n (le_n n)). unfold from_frame in H. rewrite Hn in H. revert H. now apply frame_no_error.
Qed.
Print Assumptions C54_tree_partial.
(** Without that, no amount of stack gives a tree. *)
Theorem C54_no_tree : forall s ord f name, repeats f -> forall fuel t, from_frame s ord fuel f name <> FOk t.
Proof. intros s ord f name R fuel t. unfold from_frame. destruct (is_compatible name); [|discriminate]. now apply repeats_no_tree. Qed.
Print Assumptions C54_no_tree.

Definition twice : frame := Flat [(a_ "A", ints2); (a_ "A", ints2)].
Lemma twice_out s ord : forall fuel name d, is_compatible name = true -> build_frame s ord fuel name d twice = FOut.
Proof.
  induction fuel as [|fuel IH]; intros name d H; cbn [build_frame]; rewrite H; cbn [negb]; [reflexivity|].
  change (looked_up (columns twice)) with [a_ "A"; a_ "A"]. change (negb (literal_columns (columns twice))) with false. change (forallb one_tuple (columns twice)) with false. cbv iota.
  cbn [build_columns]. change (get twice (a_ "A")) with (Some (AFrame twice)). cbv iota. rewrite IH; [reflexivity|]. apply is_compatible_app; auto.
Qed.
Theorem C54_terminates_refuted : exists f name, forall s ord fuel, from_frame s ord fuel f name = FOut.
Proof. exists twice, "Example". intros. unfold from_frame. cbn [is_compatible]. change (is_compatible "Example") with true. now apply twice_out. Qed.
Print Assumptions C54_terminates_refuted.

Ltac list_split E := repeat (match type of E with
  | [] = _ => now (repeat match goal with l : list _ |- _ => destruct l; try discriminate end)
  | _ :: _ = (?l ++ _)%list => destruct l; cbn [app] in E; [|injection E as _ E]
  | _ :: _ = _ :: _ => injection E as ? E
  end); try discriminate.
Example C54_example : different_labels nested_frame /\ ordinary_frame nested_frame /\ different_labels plain_frame /\
  match from_frame default_strategies as_inserted 4 nested_frame "Example" with FOk t => List.length (frame_declarations default_strategies t) = 3 | _ => False end.
Proof.
  split; [|split; [|split]].
  - cbn [different_labels nested_frame map fst]. intros l1 l2 l3 a b E F. apply atoms_eqb_same in F.
    assert (A : forallb (fun p => negb (atoms_eqb (fst p) (snd p))) (let l := [[AStr "a"; AStr "x"]; [AStr "b"; AStr "y"]; [AStr "a"; AStr "z"]; [AStr "c"; AOther 7 "1.5"]; [AStr "d"; AStr ""]] in
       (fix go l := match l with [] => [] | x :: r => (map (fun y => (x, y)) r ++ go r)%list end) l) = true) by (vm_compute; reflexivity).
    rewrite E in A. clear E. rewrite forallb_forall in A. specialize (A (a, b)). cbn [fst snd] in A. rewrite F in A. discriminate A. clear.
    induction l1 as [|x l1 IH]; cbn [app]; [apply in_or_app; left; apply in_map_iff; exists b; split; auto; apply in_elt|apply in_or_app; now right].
  - intros c Hc. apply ordinaryb_spec. cbn in Hc. repeat destruct Hc as [<-|Hc]; try reflexivity. destruct Hc.
  - cbn [different_labels plain_frame map fst]. intros l1 l2 l3 a b E F. apply atom_eqb_same in F.
    assert (A : forallb (fun p => negb (label_eqb (fst p) (snd p))) (let l := [a_ "A"; a_ "it's"; LAtom (AInt 1)] in
       (fix go l := match l with [] => [] | x :: r => (map (fun y => (x, y)) r ++ go r)%list end) l) = true) by (vm_compute; reflexivity).
    rewrite E in A. clear E. rewrite forallb_forall in A. specialize (A (LAtom a, LAtom b)). cbn [fst snd label_eqb] in A. rewrite F in A. discriminate A. clear.
    induction l1 as [|x l1 IH]; cbn [app]; [apply in_or_app; left; apply in_map_iff; exists (LAtom b); split; auto; apply in_elt|apply in_or_app; now right].
  - vm_compute. reflexivity.
Qed.
Example C54_repeats_example : repeats twice /\ repeats (Multi [([AStr "a"; AStr "x"], ints2); ([AStr "b"; AStr "x"], ints2); ([AStr "a"; AStr "x"], ints2)]).
Proof.
  assert (T : forall n, repeats (Flat [(a_ n, ints2); (a_ n, ints2)])).
  { intros n. apply rep_here with (AStr n) (AStr n) [] [] []; [repeat constructor|reflexivity|constructor]. }
  split; [apply T|]. apply rep_below with (AStr "a") [AStr "x"] (Flat [(a_ "x", ints2); (a_ "x", ints2)]); [repeat constructor|now left| |reflexivity|apply T].
  exists (AStr "a"), (AStr "x"), []. now left.
Qed.

(** ** C53: the overloads of a data frame.
    Full claim: a class with exactly one overload per different first-level column if all columns are str, bool or int or tuples
    starting with one, otherwise pd.DataFrame.  Proved if all columns are simple labels or all columns are tuples of at least two
    labels; false for tuples of one label and for tuples among other labels. *)

(** The hint for a column: the class of a nested frame; pd.DataFrame if its columns cannot be written; the hint of a series. *)
Inductive column_hint (s : strategies) (ord : set_order) (name : string) (f : frame) (a : atom) : string -> Prop :=
  | ch_nested : forall g x, get f (LAtom a) = Some (AFrame g) -> Forall labelled (columns g) -> column_word (str_label (LAtom a)) x -> column_hint s ord name f a (name ++ x)
  | ch_any : forall g, get f (LAtom a) = Some (AFrame g) -> ~ Forall labelled (columns g) -> 1 <= s_min_height s -> column_hint s ord name f a "pd.DataFrame"
  | ch_any_declared : forall g x, get f (LAtom a) = Some (AFrame g) -> ~ Forall labelled (columns g) -> s_min_height s = 0 -> column_word (str_label (LAtom a)) x -> column_hint s ord name f a (name ++ x)
  | ch_series : forall vs u x, get f (LAtom a) = Some (ASeries vs) -> column_word (str_label (LAtom a)) x ->
      build s ord (S (vdepth (VSeq KSeries ty_series vs))) (name ++ x) 1 false (VSeq KSeries ty_series vs) = Ok u ->
      column_hint s ord name f a (if perm s u then name ++ x else without_lvalue (fst (top s u))).

(** What follows the overloads. *)
Definition quoted_bool : string := String (chr 34) "pd.Series[bool]" ++ String (chr 34) ",".
Definition general_lines (head last : list string) : list string :=
  (["    def __getitem__("; "        self,"; "        key: Union["] ++ head
   ++ ["            npt.NDArray[np.bool_],"; "            npt.NDArray[np.str_],"; "            List[Union[Scalar, Tuple[Hashable, ...]]],"; "        ],";
       "    ) -> Union[pd.Series, pd.DataFrame]:"] ++ last)%list.
Definition pandas_keys : list string := ["            " ++ quoted_bool; "            str,"; "            pd.DataFrame,"; "            pd.Index,"].
Definition rest_of_class (s : strategies) (keys : list string) : string :=
  join eol (match s_pandas s with
            | PFull => general_lines ["            Literal[" ++ join ", " keys ++ "],"] ["        return super().__getitem__(key)"]
            | _ => ("    @overload" :: general_lines pandas_keys ["        ..."; ""] ++ general_lines pandas_keys ["        return super().__getitem__(key)"])%list
            end).
Lemma rest_text s texts : match s_pandas s with PFull => template_no_pd_end ("Literal[" ++ join ", " texts ++ "]") | _ => template_end "str" end = rest_of_class s texts.
Proof.
  unfold rest_of_class. destruct (s_pandas s); [|reflexivity|reflexivity]. generalize (join ", " texts). intros k. unfold template_no_pd_end, general_lines.
  cbn [app join]. change nl with eol. rewrite !app_assoc_s. reflexivity.
Qed.

Lemma build_frame_node s ord fuel name d g c : build_frame s ord fuel name d g = FOk c -> exists cs, c = FNode name d (columns g) cs /\ (~ Forall labelled (columns g) -> cs = []).
Proof.
  intros H. destruct fuel as [|n]; cbn [build_frame] in H; destruct (negb (is_compatible name)); try discriminate; destruct (negb (literal_columns (columns g))) eqn:L.
  - injection H as <-. eauto.
  - destruct (forallb one_tuple (columns g)); try discriminate. injection H as <-. eauto.
  - injection H as <-. eauto.
  - apply negb_false_iff, labelled_columns in L. destruct (forallb one_tuple (columns g)); [injection H as <-; eauto|].
    match type of H with fbind ?x _ = _ => destruct x as [cs|e|]; try discriminate end. injection H as <-. exists cs. split; auto. intros N. now contradiction N.
Qed.
Definition pure (f : frame) : Prop := forallb is_tuple (columns f) = true \/ forallb (fun l => negb (is_tuple l)) (columns f) = true.
Lemma pure_multi cols : pure (Multi cols).
Proof. left. cbn [columns]. apply forallb_forall. intros l Hl. apply in_map_iff in Hl as (c & <- & _). reflexivity. Qed.
Lemma pure_lower cols : pure (lower cols).
Proof.
  unfold lower. destruct (forallb _ cols); [|apply pure_multi]. right. cbn [columns]. apply forallb_forall. intros l Hl. apply in_map_iff in Hl as (c & <- & Hc).
  apply in_flat_map in Hc as (c' & _ & Hc). destruct (fst c') as [|x [|]]; try destruct Hc as [<-|[]]; try destruct Hc; reflexivity.
Qed.
Lemma pure_get f heads a g : well_labelled f heads -> get f (LAtom a) = Some (AFrame g) -> pure g.
Proof.
  intros W H. destruct W as [cols heads N E S1|cols heads N F S1].
  - cbn [get] in H. assert (Q : forall c, In c (filter (fun c => label_eqb (LAtom a) (fst c)) cols) -> exists b, fst c = LAtom b).
    { intros c Hc. apply filter_In in Hc as [_ Hc]. destruct (fst c); [eauto|discriminate]. }
    destruct (filter _ cols) as [|c [|c2 cs]]; try discriminate. injection H as <-. right. cbn [columns]. apply forallb_forall. intros l Hl. apply in_map_iff in Hl as (x & <- & Hx).
    destruct (Q x Hx) as (b & ->). reflexivity.
  - cbn [get] in H. set (cs := filter _ cols) in H. clearbody cs. destruct cs as [|c cs]; [discriminate|]. destruct (forallb _ _); [injection H as <-; apply pure_multi|].
    destruct c as [[|x rest] vs]; [injection H as <-; apply pure_lower|]. destruct cs; [|injection H as <-; apply pure_lower].
    injection H as H. revert g H. induction rest as [|y rest IH]; intros g H; [discriminate|]. cbn [peel] in H. destruct y as [[|]| | |]; try (injection H as <-; apply pure_lower). now apply IH.
Qed.
Lemma fperm_pure s n d cols cs : (forallb is_tuple cols = true \/ forallb (fun l => negb (is_tuple l)) cols = true) ->
  fperm s (FNode n (S d) cols cs) = literal_columns cols || Nat.ltb (s_min_height s) (fheight (FNode n (S d) cols cs)).
Proof.
  intros P. cbn [fperm Nat.eqb]. rewrite orb_false_r. f_equal. destruct (forallb is_tuple cols) eqn:E; auto. destruct P as [|P]; [discriminate|].
  unfold literal_columns. clear E. induction cols as [|[a|t] cols IH]; cbn [forallb] in *; auto; [|discriminate]. cbn [negb is_tuple andb] in P. rewrite IH; auto.
Qed.
Lemma hint_dataframe name : without_lvalue (alias name "pd.DataFrame") = "pd.DataFrame".
Proof.
  unfold alias. replace (name ++ ": TypeAlias = " ++ "pd.DataFrame") with ((name ++ ": TypeAlias ") ++ "= " ++ "pd.DataFrame") by (rewrite app_assoc_s; reflexivity). apply without_lvalue_spec; [reflexivity|].
  exists "p"%char, "d.DataFrame", "e"%char, "pd.DataFram". auto.
Qed.
Lemma child_hint s ord n name f heads a c : well_labelled f heads -> child_of s ord n name 0 f a c -> column_hint s ord name f a (hint_of s c).
Proof.
  intros W H. unfold child_of in H. destruct (get f (LAtom a)) as [[vs|g]|] eqn:G; [| |destruct H].
  - unfold build_series in H. destruct (build _ _ _ _ _ _ _) as [u|[]|] eqn:B; try discriminate. injection H as <-. unfold hint_of. cbn [fperm ftop fname].
    pose proof (proj2 (TotalFacts.build_from_els _ _ _ _ _ _ _ _ B)) as E. replace (tname u) with (name ++ column_suffix (LAtom a)). apply ch_series with vs; auto. now apply column_word_iff.
  - apply build_frame_node in H as (cs & -> & Hcs). pose proof (pure_get f heads a g W G) as P. unfold hint_of. rewrite (fperm_pure s _ 0 _ cs P).
    destruct (literal_columns (columns g)) eqn:L; cbn [orb fname].
    + apply ch_nested with g; auto; [now apply labelled_columns|now apply column_word_iff].
    + assert (N : ~ Forall labelled (columns g)) by (rewrite labelled_columns; congruence). rewrite (Hcs N). cbn [fheight map]. change (S (maxl [])) with 1.
      destruct (Nat.ltb_spec (s_min_height s) 1) as [M|M].
      * apply ch_any_declared with g; auto; [lia|now apply column_word_iff].
      * cbn [ftop fst]. rewrite hint_dataframe. apply ch_any with g; auto.
Qed.

Theorem C53_overloads_partial : forall s ord fuel f heads name t, well_labelled f heads -> from_frame s ord fuel f name = FOk t ->
  exists keys texts hints, first_ones heads keys /\ Forall2 denotes texts keys /\ Forall2 (column_hint s ord name f) keys hints /\
    fst (ftop s t) = "class " ++ name ++ "(pd.DataFrame):" ++ eol ++ eol ++ join eol (map (fun o => overload_text (fst o) (snd o)) (combine texts hints)) ++ eol ++ rest_of_class s texts /\
    In (fst (ftop s t)) (frame_declarations s t).
Proof.
  intros s ord fuel f heads name t W H. unfold from_frame in H. destruct (is_compatible name); [|discriminate].
  destruct (well_tree s ord fuel name 0 f heads t W H) as (n & keys & cs & -> & Fo & Sk & -> & Ne & Em & Fc).
  exists keys, (map repr_atom keys), (map (hint_of s) (map snd cs)). repeat split; try apply Fo.
  - clear -Sk. induction Sk; cbn [map]; constructor; auto using repr_denotes.
  - clear -Fc W. induction Fc; cbn [map]; constructor; auto. eapply child_hint; eauto.
  - rewrite <- rest_text. now apply ftop_class.
  - unfold frame_declarations. apply OrderFacts.dedup_list_spec. apply (in_map (fun n => fst (ftop s n))).
    rewrite fcollect_node by auto. apply in_or_app. right. cbn [fperm Nat.eqb]. rewrite orb_true_r. cbn [orb]. now left.
Qed.
Print Assumptions C53_overloads_partial.

(** A column that is no literal: the hint is pd.DataFrame. *)
Theorem C53_odd_columns : forall s ord fuel f name, has_odd_column f -> is_compatible name = true ->
  exists t, from_frame s ord fuel f name = FOk t /\ frame_declarations s t = [name ++ ": TypeAlias = pd.DataFrame"].
Proof.
  intros s ord fuel f name (l & Hl & i & x & Q) Hn. unfold from_frame. rewrite Hn.
  assert (L : literal_columns (columns f) = false).
  { apply not_true_iff_false. unfold literal_columns. rewrite forallb_forall. intros A. specialize (A l Hl). destruct Q as [->|(r & ->)]; discriminate. }
  exists (FNode name 0 (columns f) []). destruct fuel; cbn [build_frame]; rewrite Hn, L; cbn [negb]; (split; [reflexivity|]);
  unfold frame_declarations; cbn [fcollect Nat.eqb andb]; (replace (fperm s (FNode name 0 (columns f) [])) with true; [reflexivity|]); cbn [fperm Nat.eqb]; now rewrite orb_true_r.
Qed.
Print Assumptions C53_odd_columns.

(** Tuples of one label give no class; a tuple among other labels has no overload. *)
Theorem C53_overloads_refuted :
  (exists f t, Forall labelled (columns f) /\ columns f <> [] /\ from_frame default_strategies as_inserted 9 f "Example" = FOk t /\
     frame_declarations default_strategies t = ["Example: TypeAlias = pd.DataFrame"]) /\
  (exists f t, Forall labelled (columns f) /\ columns f = [a_ "A"; LTuple [AStr "B"; AStr "C"]] /\ from_frame default_strategies as_inserted 9 f "Example" = FOk t /\
     exists rest, fst (ftop default_strategies t) = "class Example(pd.DataFrame):" ++ eol ++ eol ++ overload_text "'A'" "pd.Series[int]" ++ eol ++ rest /\ contains "B" rest = false).
Proof.
  split.
  - exists (Multi [([AStr "a"], ints2)]). eexists. split; [repeat constructor|]. split; [discriminate|]. split; [vm_compute; reflexivity|vm_compute; reflexivity].
  - exists (Flat [(a_ "A", ints2); (LTuple [AStr "B"; AStr "C"], ints2)]). eexists. split; [repeat constructor|]. split; [reflexivity|]. split; [vm_compute; reflexivity|].
    exists (template_no_pd_end "Literal['A'], Hashable"). split; vm_compute; reflexivity.
Qed.
Print Assumptions C53_overloads_refuted.

Example C53_example : well_labelled plain_frame [AStr "A"; AStr "it's"; AInt 1] /\ well_labelled nested_frame [AStr "a"; AStr "b"; AStr "a"; AStr "c"; AStr "d"] /\
  first_ones [AStr "a"; AStr "b"; AStr "a"; AStr "c"; AStr "d"] [AStr "a"; AStr "b"; AStr "c"; AStr "d"] /\
  exists t u, from_frame default_strategies as_inserted 4 plain_frame "Example" = FOk t /\ from_frame default_strategies as_inserted 4 nested_frame "Example" = FOk u.
Proof.
  split; [|split; [|split]].
  - apply wl_plain; [discriminate|reflexivity|repeat constructor].
  - apply wl_nested; [discriminate| |repeat constructor]. repeat (constructor; [eexists; eexists; reflexivity|]). constructor.
  - destruct (well_keys nested_frame [AStr "a"; AStr "b"; AStr "a"; AStr "c"; AStr "d"]) as (keys & E & F & _).
    + apply wl_nested; [discriminate| |repeat constructor]. repeat (constructor; [eexists; eexists; reflexivity|]). constructor.
    + apply different_no_repeats. exact (proj1 C54_example).
    + vm_compute in E. destruct keys as [|? [|? [|? [|? [|]]]]]; try discriminate. injection E as <- <- <- <-. exact F.
  - do 2 eexists. split; [vm_compute; reflexivity|vm_compute; reflexivity].
Qed.

(** ** C65: the literal of an overload evaluates to the label. *)
Theorem C65_literals : forall a, simple a -> denotes (repr_atom a) a.
Proof. exact repr_denotes. Qed.
Print Assumptions C65_literals.
Theorem C65_different_literals : forall a b, simple a -> simple b -> repr_atom a = repr_atom b -> a = b.
Proof.
  intros a b Ha Hb E. pose proof (repr_denotes a Ha) as Da. pose proof (repr_denotes b Hb) as Db. rewrite <- E in Db.
  assert (X : forall z, str_of_Z z <> "True" /\ str_of_Z z <> "False") by (intros z; split; intros Q; pose proof (str_of_Z_value z) as V; rewrite Q in V; discriminate V).
  assert (Y : forall z x, str_of_Z z <> repr_str x).
  { intros z x Q. pose proof (str_of_Z_value z) as V. rewrite Q in V. unfold repr_str in V. destruct (_ && _) in V; discriminate V. }
  assert (T : forall x, repr_str x <> "True" /\ repr_str x <> "False") by (intros x; unfold repr_str; destruct (_ && _); split; discriminate).
  destruct a as [x|[]|x|], b as [y|[]|y|]; cbn [simple] in *; try tauto; cbn [repr_atom str_atom denotes] in *; try congruence; exfalso;
    try (destruct (X x); congruence); try (destruct (X y); congruence); try (destruct (T x); congruence); try (destruct (T y); congruence);
    try (apply (Y x y); congruence); try (apply (Y y x); congruence).
Qed.
Print Assumptions C65_different_literals.
Example C65_example : repr_atom (AStr "it's") = "" ++ String (chr 34) "it's" ++ String (chr 34) "" /\ repr_atom (AInt (-12)) = "-12" /\ denotes "'a\n'" (AStr ("a" ++ eol)).
Proof. repeat split. Qed.

(** ** C62: the declarations of columns come before the class that mentions them. *)
Definition declares (name text : string) : Prop :=
  (exists r, text = "class " ++ name ++ "(pd.DataFrame):" ++ r) \/ exists r, text = name ++ ": TypeAlias = " ++ r.
Theorem C62_columns_declared_first : forall s ord fuel f name t d1 x d2, from_frame s ord fuel f name = FOk t -> frame_declarations s t = (d1 ++ x :: d2)%list ->
  exists n, x = fst (ftop s n) /\ forall c, In c (fchildren n) -> fperm s c = true -> exists y, In y d1 /\ declares (fname c) y.
Proof.
  intros s ord fuel f name t d1 x d2 H E. unfold from_frame in H. destruct (is_compatible name); [|discriminate]. apply build_leaves in H.
  destruct (declared_first s t d1 x d2 E) as (n & Hn & -> & D). exists n. split; auto. intros c Hc Pc. exists (fst (ftop s c)). split; auto.
  destruct n as [v|n0 d0 cols0 cs0]; [destruct Hc|]. pose proof (leaves_child _ c (leaves_collect s t _ H Hn) Hc) as L. destruct c as [u|m d cols cs].
  - cbn [ftop]. destruct (series_top s u L) as (r & ->). right. exists r. reflexivity.
  - destruct cs; [right|left]; eexists; reflexivity.
Qed.
Print Assumptions C62_columns_declared_first.
(** For the columns of the data frame itself. *)
Theorem C62_hints_declared : forall s ord fuel f heads name t, well_labelled f heads -> from_frame s ord fuel f name = FOk t ->
  exists keys, first_ones heads keys /\ forall a g, In a keys -> get f (LAtom a) = Some (AFrame g) -> Forall labelled (columns g) ->
    exists x y, column_word (str_label (LAtom a)) x /\ In y (frame_declarations s t) /\ declares (name ++ x) y.
Proof.
  intros s ord fuel f heads name t W H. unfold from_frame in H. destruct (is_compatible name); [|discriminate].
  destruct (well_tree s ord fuel name 0 f heads t W H) as (n & keys & cs & -> & Fo & Sk & Et & Ne & Em & Fc). exists keys. split; auto. intros a g Ha G L.
  assert (Q : exists c, In c (map snd cs) /\ child_of s ord n name 0 f a c).
  { clear -Fc Ha. induction Fc; [destruct Ha|]. destruct Ha as [->|Ha]; [eexists; split; [now left|auto]|]. destruct (IHFc Ha) as (c & Hc & K). exists c. split; auto. now right. }
  destruct Q as (c & Hc & K). unfold child_of in K. rewrite G in K. apply build_frame_node in K as (cs' & -> & _).
  assert (Pc : fperm s (FNode (name ++ column_suffix (LAtom a)) 1 (columns g) cs') = true).
  { rewrite (fperm_pure s _ 0 _ cs' (pure_get f heads a g W G)). now rewrite (proj1 (labelled_columns _) L). }
  exists (column_suffix (LAtom a)). eexists. split; [now apply column_word_iff|]. split.
  - unfold frame_declarations. apply OrderFacts.dedup_list_spec. apply (in_map (fun n => fst (ftop s n))).
    rewrite Et, fcollect_node by auto. apply in_or_app. left. eapply fcollect_children; [|exact Pc|exact Et]. now rewrite Et.
  - destruct cs'; [right|left]; eexists; reflexivity.
Qed.
Print Assumptions C62_hints_declared.
Example C62_example : exists t, from_frame default_strategies as_inserted 4 nested_frame "Example" = FOk t /\
  map (fun d => hd "" (split_char (chr 58) d)) (frame_declarations default_strategies t) = ["class ExampleA(pd.DataFrame)"; "class ExampleB(pd.DataFrame)"; "class Example(pd.DataFrame)"].
Proof. eexists. split; [vm_compute; reflexivity|vm_compute; reflexivity]. Qed.

(** ** C63: different nested frames get different class names.  Refuted: the suffixes of "a b" and "aB" are equal. *)
Definition clash : frame := Multi [([AStr "a b"; AStr "x"], ints2); ([AStr "aB"; AStr "y"], ints2)].
Theorem C63_names_refuted : exists f t, different_labels f /\ from_frame default_strategies as_inserted 9 f "Example" = FOk t /\
  exists x y r, frame_declarations default_strategies t = [x; y; r] /\ x <> y /\
    startswith "class ExampleAB(pd.DataFrame):" x = true /\ startswith "class ExampleAB(pd.DataFrame):" y = true.
Proof.
  exists clash. eexists. split; [|split; [vm_compute; reflexivity|]].
  - cbn [different_labels clash map fst]. intros l1 l2 l3 a b E F. apply atoms_eqb_same in F.
    destruct l1 as [|x l1]; [injection E as <- E; destruct l2 as [|y l2]; [injection E as <- E; discriminate F|injection E as _ E; destruct l2; discriminate]|].
    injection E as _ E. destruct l1 as [|y l1]; [injection E as _ E; destruct l2; discriminate|injection E as _ E; destruct l1; discriminate].
  - do 3 eexists. split; [vm_compute; reflexivity|]. split; [|split; vm_compute; reflexivity]. intros E. apply String.eqb_eq in E. vm_compute in E. discriminate E.
Qed.
Print Assumptions C63_names_refuted.

(** Full claim: different keys, different names.  What holds: the class of a column is named after the camel case of its label,
    so the names differ exactly where the camel cases differ. *)
Theorem C63_names_partial : forall s ord fuel f heads name t, well_labelled f heads -> from_frame s ord fuel f name = FOk t ->
  exists keys words, first_ones heads keys /\ Forall2 (fun a x => column_word (str_label (LAtom a)) x) keys words /\
    map fname (fchildren t) = map (fun x => name ++ x) words /\ (NoDup words <-> NoDup (map fname (fchildren t))).
Proof.
  intros s ord fuel f heads name t W H. unfold from_frame in H. destruct (is_compatible name); [|discriminate].
  destruct (well_tree s ord fuel name 0 f heads t W H) as (n & keys & cs & -> & Fo & Sk & -> & Ne & Em & Fc).
  exists keys, (map (fun a => column_suffix (LAtom a)) keys).
  assert (E : map fname (map snd cs) = map (fun x => name ++ x) (map (fun a => column_suffix (LAtom a)) keys)).
  { clear -Fc. induction Fc as [|a c keys l K Fc IH]; auto. cbn [map]. rewrite IH. f_equal. unfold child_of in K. destruct (get f (LAtom a)) as [[vs|g]|]; [| |destruct K].
    - unfold build_series in K. destruct (build _ _ _ _ _ _ _) as [u|[]|] eqn:B; try discriminate. injection K as <-. exact (proj2 (TotalFacts.build_from_els _ _ _ _ _ _ _ _ B)).
    - apply build_frame_node in K as (cs' & -> & _). reflexivity. }
  cbn [fchildren]. split; auto. split; [|split; auto].
  - clear. induction keys; cbn [map]; constructor; auto. now apply column_word_iff.
  - rewrite E. split; [|apply NoDup_map_inv]. intros N. apply FinFun.Injective_map_NoDup; auto. intros x y. apply app_inj_l.
Qed.
Print Assumptions C63_names_partial.
Example C63_example : exists t, from_frame default_strategies as_inserted 4 (Multi [([AStr "a b"; AStr "x"], ints2); ([AStr ""; AStr "y"], ints2); ([AInt 12; AStr "z"], ints2)]) "Example" = FOk t /\
  map fname (fchildren t) = ["ExampleAB"; "ExampleWSpace"; "Example12"].
Proof. eexists. split; [vm_compute; reflexivity|vm_compute; reflexivity]. Qed.

(** ** C61: with the strategy "Do not type hint columns" the hint is pd.DataFrame.  Refuted: the declarations are those of the
    strategy "Type hint only for autocomplete" (the strategy is only read for the hash of a node). *)
Theorem C61_no_columns_refuted : exists f t, from_frame (with_pandas PNoColumns default_strategies) as_inserted 9 f "Example" = FOk t /\
  exists rest, frame_declarations (with_pandas PNoColumns default_strategies) t = ["class Example(pd.DataFrame):" ++ eol ++ eol ++ overload_text "'A'" "pd.Series[int]" ++ rest].
Proof. exists (Flat [(a_ "A", ints2)]). eexists. split; [vm_compute; reflexivity|]. exists (eol ++ template_end "str"). vm_compute. reflexivity. Qed.
Print Assumptions C61_no_columns_refuted.
(** Full claim: the only declaration is pd.DataFrame.  What holds for all data frames: tree, declarations and text are those of that other strategy. *)
Theorem C61_no_columns_partial : forall s ord fuel f name t, s_pandas s = PNoColumns ->
  from_frame (with_pandas PAutocomplete s) ord fuel f name = from_frame s ord fuel f name /\
  frame_declarations (with_pandas PAutocomplete s) t = frame_declarations s t /\ frame_text (with_pandas PAutocomplete s) t = frame_text s t.
Proof.
  intros s ord fuel f name t E. assert (Es : with_pandas PNoColumns s = s) by (destruct s; cbn in E; subst; reflexivity).
  assert (Q : PAutocomplete = PFull <-> PNoColumns = PFull) by (split; discriminate).
  split; [|split].
  - unfold from_frame. now rewrite pandas_build_frame.
  - rewrite <- Es at 2. now apply pandas_declarations.
  - rewrite <- Es at 2. now apply pandas_text.
Qed.
Print Assumptions C61_no_columns_partial.

(** ** C64: the text of a data frame exists and its import block provides the names that the class uses. *)
Theorem C64_text : forall s ord fuel f name t, from_frame s ord fuel f name = FOk t -> exists text, frame_text s t = Some text.
Proof. intros. apply frame_text_some. Qed.
Print Assumptions C64_text.
Theorem C64_imports : forall s ord fuel f heads name t, well_labelled f heads -> from_frame s ord fuel f name = FOk t ->
  (forall x, In x ["overload"; "Union"; "Literal"; "Tuple"; "List"; "Hashable"; "Scalar"] -> imported (frame_recorded s t) x) /\
  (forall m, In m ["pandas"; "npt"; "numpy"] -> In m (frame_recorded s t)) /\
  (forall kw, In kw (frame_recorded s t) -> In kw (map fst PACKAGE)).
Proof.
  intros s ord fuel f heads name t W H. unfold from_frame in H. destruct (is_compatible name); [|discriminate].
  destruct (well_tree s ord fuel name 0 f heads t W H) as (n & keys & cs & -> & _ & _ & -> & Ne & _ & _).
  assert (I : incl ("pandas" :: frame_imports) (frame_recorded s (FNode name 0 (columns f) cs))).
  { eapply frame_class_imports; eauto. rewrite fcollect_node by auto. apply in_or_app. right. cbn [fperm Nat.eqb]. rewrite orb_true_r. now left. }
  split; [|split; [|apply frame_recorded_known]].
  - intros x Hx. cbn [In] in Hx.
    assert (P : forall kw p, In (kw, (p, x)) PACKAGE -> In kw ("pandas" :: frame_imports) -> imported (frame_recorded s (FNode name 0 (columns f) cs)) x).
    { intros kw p P K. exists kw. split; [now apply I|]. left. eauto. }
    repeat destruct Hx as [<-|Hx]; try (destruct Hx);
      [apply (P "overload" "typing")|apply (P "Union" "typing")|apply (P "Literal" "typing")|apply (P "tuple" "typing")|apply (P "list" "typing")|apply (P "Hashable" "typing")|apply (P "pd.Scalar" "pandas._typing")];
      cbn; tauto.
  - intros m Hm. apply I. cbn in *. tauto.
Qed.
Print Assumptions C64_imports.
Example C64_example : exists t text, from_frame default_strategies as_inserted 4 nested_frame "Example" = FOk t /\ frame_text default_strategies t = Some text /\
  startswith ("from __future__ import annotations" ++ eol ++ eol ++ "import numpy.typing as npt" ++ eol) text = true.
Proof. do 2 eexists. split; [vm_compute; reflexivity|]. split; [vm_compute; reflexivity|]. vm_compute. reflexivity. Qed.
