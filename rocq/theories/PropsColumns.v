(** C53 for all column indexes: which of them get a class, and the text of the class.
    Model: Frame.v (pandas_data_frame_data_type_tree.py:115-211). *)
From Coq Require Import Ascii String List Bool Arith ZArith Lia.
From Verif Require Import PyStr PyStrFacts Utils Strategies Imports Dispatch Values Tree Build Emit TreeFacts Frame SpecFrame FrameFacts FrameText OrderFacts CamelFacts Samples PandasFacts PropsFrame.
Import ListNotations.
Local Open Scope string_scope.
Local Open Scope nat_scope.

(** ** What the property means *)

(** Data frames that are hinted as pd.DataFrame: a column cannot be written, or all columns are tuples of one label, or there is no column. *)
Definition untyped (f : frame) : Prop := ~ Forall labelled (columns f) \/ Forall (fun l => exists a, l = LTuple [a]) (columns f).
(** The labels with an overload: those that are no tuples, or the first labels of the tuples of a multi index. *)
Definition overloaded (f : frame) : list atom :=
  match f with
  | Flat cols => flat_map (fun c => match fst c with LAtom a => [a] | LTuple _ => [] end) cols
  | Multi cols => flat_map (fun c => match fst c with a :: _ => [a] | [] => [] end) cols
  end.
(** A tuple among other labels. *)
Definition has_tuple (f : frame) : bool := match f with Flat cols => existsb (fun c => match fst c with LTuple _ => true | LAtom _ => false end) cols | Multi _ => false end.
(** What follows the overloads: a tuple has no overload of its own but is allowed as a hashable. *)
Definition rest_columns (s : strategies) (keys : list string) (tuples : bool) : string :=
  match s_pandas s with
  | PFull => join eol (general_lines ["            Literal[" ++ join ", " keys ++ "]" ++ (if tuples then ", Hashable" else "") ++ ","] ["        return super().__getitem__(key)"])
  | _ => rest_of_class s keys
  end.

(** ** Proofs *)
Definition keyed {A} (cs : list (label * A)) : list (label * A) := filter (fun c => negb (is_tuple (fst c))) cs.
Lemma keyed_lset_tuple {A} t (v : A) cs : keyed (lset (LTuple t) v cs) = keyed cs.
Proof.
  unfold keyed. induction cs as [|[[b|b] w] cs IH]; auto; cbn [lset label_eqb].
  - cbn [filter fst is_tuple negb]. now rewrite IH.
  - destruct (atoms_eqb t b); cbn [filter fst is_tuple negb]; auto.
Qed.
Lemma keyed_lset_new {A} a (v : A) cs : (forall b, In (LAtom b) (map fst cs) -> ~ same a b) -> keyed (lset (LAtom a) v cs) = (keyed cs ++ [(LAtom a, v)])%list.
Proof.
  unfold keyed. induction cs as [|[[b|b] w] cs IH]; intros N; auto; cbn [lset label_eqb].
  - destruct (atom_eqb a b) eqn:E; [exfalso; apply (N b); [now left|now apply atom_eqb_same]|]. cbn [filter fst is_tuple negb app]. rewrite IH; auto. intros; apply N. now right.
  - cbn [filter fst is_tuple negb]. apply IH. intros; apply N. now right.
Qed.
Lemma lset_keys {A} k (v : A) cs l : In l (map fst (lset k v cs)) -> l = k \/ In l (map fst cs).
Proof.
  induction cs as [|[k' w] cs IH]; cbn [lset map fst]; [intros [<-|[]]; auto|]. destruct (label_eqb k k'); cbn [map fst]; [auto|]. intros [<-|H]; [right; now left|]. destruct (IH H); auto. right. now right.
Qed.
Lemma lset_has {A} k (v : A) cs : existsb (fun c => is_tuple (fst c)) (lset k v cs) = is_tuple k || existsb (fun c => is_tuple (fst c)) cs.
Proof.
  induction cs as [|[k' w] cs IH]; auto. cbn [lset]. destruct (label_eqb k k') eqn:E; cbn [existsb fst].
  - destruct k, k'; try discriminate; cbn [is_tuple orb]; auto.
  - rewrite IH. destruct (is_tuple k), (is_tuple k'); reflexivity.
Qed.
Definition atoms (ls : list label) : list atom := flat_map (fun l => match l with LAtom a => [a] | LTuple _ => [] end) ls.
Lemma atoms_In ls a : In a (atoms ls) <-> In (LAtom a) ls.
Proof.
  unfold atoms. rewrite in_flat_map. split; [intros ([b|t] & H & K); [destruct K as [<-|[]]; exact H|destruct K]|intros H; exists (LAtom a); split; auto; now left].
Qed.
Lemma columns_keyed child ls : forall cs r, ForallOrdPairs (fun a b => ~ same a b) (atoms ls) -> (forall a b, In a (atoms ls) -> In (LAtom b) (map fst cs) -> ~ same a b) ->
  build_columns child ls cs = FOk r ->
  exists r', keyed r = (keyed cs ++ r')%list /\ map fst r' = map LAtom (atoms ls) /\ Forall (fun c => child (fst c) = FOk (snd c)) r' /\
    existsb (fun c => is_tuple (fst c)) r = existsb is_tuple ls || existsb (fun c => is_tuple (fst c)) cs.
Proof.
  induction ls as [|l ls IH]; intros cs r P N H; cbn [build_columns] in H.
  - injection H as <-. exists []. rewrite app_nil_r. auto.
  - destruct (child l) as [c|e|] eqn:E; try discriminate. cbn [fbind] in H. destruct l as [a|t].
    + cbn [atoms flat_map app] in *. fold (atoms ls) in *. inversion P; subst.
      destruct (IH (lset (LAtom a) c cs) r H3) as (r' & Ek & Em & F & X); auto.
      * intros x b Hx Hb. apply lset_keys in Hb as [Eb|Hb]; [injection Eb as ->; rewrite Forall_forall in H2; intros Q; apply (H2 x Hx); now apply same_sym|]. apply N; auto. now right.
      * exists ((LAtom a, c) :: r'). rewrite Ek, keyed_lset_new by (intros b Hb; apply N; auto; now left). rewrite <- app_assoc. cbn [app map fst]. rewrite Em.
        repeat split; auto. rewrite X, lset_has. reflexivity.
    + cbn [atoms flat_map app] in *. fold (atoms ls) in *. destruct (IH (lset (LTuple t) c cs) r P) as (r' & Ek & Em & F & X); auto.
      * intros x b Hx Hb. apply lset_keys in Hb as [Eb|Hb]; [discriminate|]. now apply N.
      * exists r'. rewrite Ek, keyed_lset_tuple. repeat split; auto. rewrite X, lset_has. cbn [existsb is_tuple orb]. now rewrite orb_true_r.
Qed.
Lemma forallb_keyed {A} (cs : list (label * A)) : Forall simple (atoms (map fst cs)) ->
  forallb (fun c => match fst c with LAtom a => literal a | _ => false end) cs = negb (existsb (fun c => is_tuple (fst c)) cs).
Proof.
  induction cs as [|[[a|t] v] cs IH]; intros H; auto. cbn [map fst atoms flat_map app] in H. inversion H; subst. cbn [forallb existsb fst is_tuple orb].
  rewrite (proj1 (simple_literal a)) by auto. cbn [andb]. auto.
Qed.
Lemma ftop_mixed s name d cols cs keys : cs <> [] -> map fst (keyed cs) = map LAtom keys -> Forall simple keys ->
  fst (ftop s (FNode name d cols cs)) =
  "class " ++ name ++ "(pd.DataFrame):" ++ eol ++ eol ++ join eol (map (fun c => overload_text (fst c) (snd c)) (combine (map repr_atom keys) (map (hint_of s) (map snd (keyed cs))))) ++ eol ++
  rest_columns s (map repr_atom keys) (existsb (fun c => is_tuple (fst c)) cs).
Proof.
  intros Ne E S1. destruct cs as [|c0 cs]; [congruence|]. remember (c0 :: cs) as l eqn:El.
  assert (T : ftop s (FNode name d cols l) = let parts := flat_map (fun c =>
            match fst c with
            | LAtom a => if literal a then [(overload (repr_atom a) (hint_of s (snd c)), if fperm s (snd c) then [] else snd (ftop s (snd c)))] else []
            | LTuple _ => []
            end) l in
          let literals := flat_map (fun c => match fst c with LAtom a => if literal a then [repr_atom a] else [] | _ => [] end) l in
          let extra := if forallb (fun c => match fst c with LAtom a => literal a | _ => false end) l then "" else ", Hashable" in
          ("class " ++ name ++ "(pd.DataFrame):" ++ nl ++ nl ++ join nl (map fst parts) ++ nl
           ++ match s_pandas s with
              | PFull => template_no_pd_end ("Literal[" ++ join ", " literals ++ "]" ++ extra)
              | _ => template_end "str"
              end,
           ("pandas" :: frame_imports ++ flat_map snd parts)%list)) by (subst l; reflexivity).
  rewrite T. clear T. cbv zeta. cbn [fst]. clear El Ne.
  assert (P : map fst (flat_map (fun c =>
            match fst c with
            | LAtom a => if literal a then [(overload (repr_atom a) (hint_of s (snd c)), if fperm s (snd c) then [] else snd (ftop s (snd c)))] else []
            | LTuple _ => []
            end) l) = map (fun c => overload_text (fst c) (snd c)) (combine (map repr_atom keys) (map (hint_of s) (map snd (keyed l)))) /\
     flat_map (fun c => match fst c with LAtom a => if literal a then [repr_atom a] else [] | _ => [] end) l = map repr_atom keys /\
     forallb (fun c => match fst c with LAtom a => literal a | _ => false end) l = negb (existsb (fun c => is_tuple (fst c)) l)).
  { revert keys E S1. induction l as [|[k c] l IH]; intros keys E S1.
    - destruct keys; [auto|discriminate].
    - destruct k as [a|t].
      + change (keyed ((LAtom a, c) :: l)) with ((LAtom a, c) :: keyed l) in *. destruct keys as [|b keys]; [discriminate|]. cbn [map fst snd flat_map combine forallb existsb is_tuple orb] in *.
        injection E as <- E. inversion S1; subst. rewrite (proj1 (simple_literal a)) by auto. destruct (IH keys E H2) as (I1 & I2 & I3). cbn [app map fst andb]. rewrite I1, I2, I3. auto.
      + change (keyed ((LTuple t, c) :: l)) with (keyed l) in *. destruct (IH keys E S1) as (I1 & I2 & I3). cbn [flat_map fst app forallb existsb is_tuple orb andb negb]. auto. }
  destruct P as (-> & -> & ->). change eol with nl. unfold rest_columns. pose proof (rest_text s (map repr_atom keys)) as R. destruct (s_pandas s); [|now rewrite <- R..].
  clear R. generalize (join ", " (map repr_atom keys)). intros k. unfold template_no_pd_end, general_lines. cbn [app join]. change eol with nl. rewrite !app_assoc_s.
  destruct (existsb _ l); reflexivity.
Qed.

Lemma child_hint_pure s ord n name f a c : (forall g, get f (LAtom a) = Some (AFrame g) -> pure g) -> child_of s ord n name 0 f a c -> column_hint s ord name f a (hint_of s c).
Proof.
  intros W H. unfold child_of in H. destruct (get f (LAtom a)) as [[vs|g]|] eqn:G; [| |destruct H].
  - unfold build_series in H. destruct (build _ _ _ _ _ _ _) as [u|[]|] eqn:B; try discriminate. injection H as <-. unfold hint_of. cbn [fperm ftop fname].
    pose proof (proj2 (TotalFacts.build_from_els _ _ _ _ _ _ _ _ B)) as E. replace (tname u) with (name ++ column_suffix (LAtom a)). apply ch_series with vs; auto. now apply column_word_iff.
  - apply build_frame_node in H as (cs & -> & Hcs). pose proof (W g eq_refl) as P. unfold hint_of. rewrite (fperm_pure s _ 0 _ cs P).
    destruct (literal_columns (columns g)) eqn:L; cbn [orb fname].
    + apply ch_nested with g; auto; [now apply labelled_columns|now apply column_word_iff].
    + assert (N : ~ Forall labelled (columns g)) by (rewrite labelled_columns; congruence). rewrite (Hcs N). cbn [fheight map]. change (S (maxl [])) with 1.
      destruct (Nat.ltb_spec (s_min_height s) 1) as [M|M].
      * apply ch_any_declared with g; auto; [lia|now apply column_word_iff].
      * cbn [ftop fst]. rewrite hint_dataframe. apply ch_any with g; auto.
Qed.
Lemma pure_flat cols a g : get (Flat cols) (LAtom a) = Some (AFrame g) -> pure g.
Proof.
  cbn [get]. intros H. assert (Q : forall c, In c (filter (fun c => label_eqb (LAtom a) (fst c)) cols) -> exists b, fst c = LAtom b).
  { intros c Hc. apply filter_In in Hc as [_ Hc]. destruct (fst c); [eauto|discriminate]. }
  destruct (filter _ cols) as [|c [|c2 cs]]; try discriminate. injection H as <-. right. cbn [columns]. apply forallb_forall. intros l Hl. apply in_map_iff in Hl as (x & <- & Hx).
  destruct (Q x Hx) as (b & ->). reflexivity.
Qed.
Lemma atoms_split ls l1 a l2 : atoms ls = (l1 ++ a :: l2)%list -> exists m1 m2, ls = (m1 ++ LAtom a :: m2)%list /\ atoms m2 = l2.
Proof.
  revert l1. induction ls as [|[b|t] ls IH]; intros l1 E; cbn [atoms flat_map app] in E.
  - destruct l1; discriminate.
  - fold (atoms ls) in E. destruct l1 as [|x l1]; cbn [app] in E; injection E as -> E.
    + exists [], ls. auto.
    + destruct (IH l1 E) as (m1 & m2 & -> & Q). exists (LAtom x :: m1), m2. auto.
  - fold (atoms ls) in E. destruct (IH l1 E) as (m1 & m2 & -> & Q). exists (LTuple t :: m1), m2. auto.
Qed.
Lemma one_tuples ls : forallb one_tuple ls = true <-> Forall (fun l => exists a, l = LTuple [a]) ls.
Proof.
  rewrite forallb_forall, Forall_forall. split; intros H l Hl; specialize (H l Hl); [|destruct H as (a & ->); reflexivity].
  destruct l as [|[|a [|]]]; try discriminate. eauto.
Qed.
Lemma overloaded_atoms cols : overloaded (Flat cols) = atoms (map fst cols).
Proof. cbn [overloaded]. unfold atoms. induction cols as [|[l v] cols IH]; auto. cbn [map flat_map fst]. now rewrite IH. Qed.
Lemma different_first_ones l : ForallOrdPairs (fun a b => ~ same a b) l -> SpecFrame.first_ones l l.
Proof.
  intros P. split; auto using subsequence_refl.
  - intros a Ha. exists a. auto using same_refl.
  - intros a Ha. apply in_split in Ha as (l1 & l2 & ->). exists l1, l2. split; auto. intros b Hb Q. apply (pairs_split _ _ _ _ P b Hb). now apply same_sym.
Qed.

(** ** The theorems *)

(** pd.DataFrame. *)
Theorem C53_untyped : forall s ord fuel f name, untyped f -> is_compatible name = true ->
  exists t, from_frame s ord fuel f name = FOk t /\ frame_declarations s t = [name ++ ": TypeAlias = pd.DataFrame"].
Proof.
  intros s ord fuel f name U Hn. unfold from_frame. rewrite Hn. exists (FNode name 0 (columns f) []). split.
  - destruct (literal_columns (columns f)) eqn:L.
    + destruct U as [U|U]; [exfalso; apply U; now apply labelled_columns|]. apply one_tuples in U. destruct fuel; cbn [build_frame]; rewrite Hn, L, U; reflexivity.
    + destruct fuel; cbn [build_frame]; rewrite Hn, L; reflexivity.
  - unfold frame_declarations. cbn [fcollect Nat.eqb andb]. replace (fperm s (FNode name 0 (columns f) [])) with true; [reflexivity|]. cbn [fperm Nat.eqb]. now rewrite orb_true_r.
Qed.
Print Assumptions C53_untyped.

(** A plain index of tuples only gives no tree: the first label of a tuple is no column. *)
Theorem C53_only_tuples : forall s ord fuel f name t, ~ untyped f -> overloaded f = [] -> from_frame s ord fuel f name <> FOk t.
Proof.
  intros s ord fuel f name t U O H. unfold from_frame in H. destruct (is_compatible name) eqn:Hn; [|discriminate].
  assert (L : literal_columns (columns f) = true) by (destruct (literal_columns (columns f)) eqn:E; auto; exfalso; apply U; left; rewrite labelled_columns; congruence).
  assert (N : forallb one_tuple (columns f) = false) by (destruct (forallb one_tuple (columns f)) eqn:E; auto; exfalso; apply U; right; now apply one_tuples).
  assert (Ne : columns f <> []) by (intros E; rewrite E in N; discriminate).
  destruct f as [cols|cols].
  - destruct fuel as [|n]; cbn [build_frame] in H; rewrite Hn, L, N in H; cbn [negb] in H; [discriminate|]. rewrite overloaded_atoms in O.
    assert (T : forallb is_tuple (map fst cols) = true).
    { apply forallb_forall. intros [a|t'] Hl; auto. apply atoms_In in Hl. rewrite O in Hl. destruct Hl. }
    match type of H with fbind ?x _ = _ => destruct x as [cs|e|] eqn:B; try discriminate end.
    unfold looked_up in B. cbn [columns] in *. rewrite T in B.
    assert (X : exists a, In a (first_levels (map fst cols) [])).
    { clear -Ne T L. revert Ne T L. destruct (map fst cols) as [|[a|[|a r]] ls]; intros Ne T L; [congruence|discriminate T|discriminate L|]. exists a. cbn [first_levels existsb]. cbn [literal_columns forallb literal_label] in L.
      apply andb_true_iff in L as [-> _]. now left. }
    destruct X as (a & Ha). destruct (build_columns_child _ _ _ _ B (LAtom a) (in_map LAtom _ _ Ha)) as (c & Hc). cbv beta in Hc.
    replace (get (Flat cols) (LAtom a)) with (@None access) in Hc; [discriminate|]. cbn [get].
    replace (filter (fun c => label_eqb (LAtom a) (fst c)) cols) with (@nil (label * list pyval)); auto.
    clear -T. induction cols as [|[l v] cols IH]; auto. cbn [map forallb fst filter] in *. apply andb_true_iff in T as [T1 T2]. destruct l; [discriminate|]. cbn [label_eqb]. auto.
  - cbn [overloaded columns] in *. destruct cols as [|[[|a r] v] cols]; [now destruct Ne|discriminate L|discriminate O].
Qed.
Print Assumptions C53_only_tuples.

(** All data frames: pd.DataFrame exactly for the untyped ones; otherwise a class with one overload for every different label, in
    the order of first occurrence, with a literal that evaluates to the label. *)
Theorem C53_all_frames : forall s ord fuel f name t, uniform f -> from_frame s ord fuel f name = FOk t ->
  (untyped f /\ frame_declarations s t = [name ++ ": TypeAlias = pd.DataFrame"]) \/
  (~ untyped f /\ exists keys texts hints, SpecFrame.first_ones (overloaded f) keys /\ keys <> [] /\ Forall2 denotes texts keys /\ Forall2 (column_hint s ord name f) keys hints /\
    fst (ftop s t) = "class " ++ name ++ "(pd.DataFrame):" ++ eol ++ eol ++ join eol (map (fun o => overload_text (fst o) (snd o)) (combine texts hints)) ++ eol
      ++ rest_columns s texts (has_tuple f) /\
    In (fst (ftop s t)) (frame_declarations s t)).
Proof.
  intros s ord fuel f name t Un H. assert (Hn : is_compatible name = true) by (unfold from_frame in H; destruct (is_compatible name); [auto|discriminate]).
  destruct (literal_columns (columns f)) eqn:L.
  2:{ assert (U : untyped f) by (left; rewrite labelled_columns; congruence). left. split; auto. destruct (C53_untyped s ord fuel f name U Hn) as (t' & E & D). congruence. }
  destruct (forallb one_tuple (columns f)) eqn:N.
  { assert (U : untyped f) by (right; now apply one_tuples). left. split; auto. destruct (C53_untyped s ord fuel f name U Hn) as (t' & E & D). congruence. }
  right. assert (U : ~ untyped f) by (intros [U|U]; [apply U; now apply labelled_columns|apply one_tuples in U; congruence]). split; auto.
  assert (O : overloaded f <> []) by (intros O; exact (C53_only_tuples s ord fuel f name t U O H)).
  assert (Fin : forall keys cs, SpecFrame.first_ones (overloaded f) keys -> Forall simple keys -> t = FNode name 0 (columns f) cs -> map fst (keyed cs) = map LAtom keys ->
    existsb (fun c => is_tuple (fst c)) cs = has_tuple f -> forall n, Forall2 (child_of s ord n name 0 f) keys (map snd (keyed cs)) -> (forall a g, In a keys -> get f (LAtom a) = Some (AFrame g) -> pure g) ->
    exists keys texts hints, SpecFrame.first_ones (overloaded f) keys /\ keys <> [] /\ Forall2 denotes texts keys /\ Forall2 (column_hint s ord name f) keys hints /\
    fst (ftop s t) = "class " ++ name ++ "(pd.DataFrame):" ++ eol ++ eol ++ join eol (map (fun o => overload_text (fst o) (snd o)) (combine texts hints)) ++ eol
      ++ rest_columns s texts (has_tuple f) /\
    In (fst (ftop s t)) (frame_declarations s t)).
  { intros keys cs Fo Sk Et Em X n Fc Pu. exists keys, (map repr_atom keys), (map (hint_of s) (map snd (keyed cs))).
    assert (Nk : keys <> []).
    { intros ->. destruct (overloaded f) as [|a l]; [congruence|]. destruct (fo_all _ _ Fo a (or_introl eq_refl)) as (b & [] & _). }
    assert (Nc : cs <> []) by (intros ->; destruct keys; [congruence|discriminate Em]).
    assert (Text : fst (ftop s t) = "class " ++ name ++ "(pd.DataFrame):" ++ eol ++ eol ++ join eol (map (fun o => overload_text (fst o) (snd o)) (combine (map repr_atom keys) (map (hint_of s) (map snd (keyed cs))))) ++ eol
      ++ rest_columns s (map repr_atom keys) (has_tuple f)) by (rewrite Et, <- X; now apply ftop_mixed).
    split; auto. split; auto. split; [|split; [|split]].
    - clear -Sk. induction Sk; cbn [map]; constructor; auto using repr_denotes.
    - clear -Fc Pu. induction Fc as [|a c ks l K Fc IH]; cbn [map]; constructor; auto.
      + apply (child_hint_pure s ord n); auto. intros g G. apply (Pu a); auto. now left.
      + apply IH. intros; eapply Pu; eauto. now right.
    - exact Text.
    - unfold frame_declarations. apply OrderFacts.dedup_list_spec. apply (in_map (fun n => fst (ftop s n))). rewrite Et.
      rewrite fcollect_node by auto. apply in_or_app. right. cbn [fperm Nat.eqb]. rewrite orb_true_r. cbn [orb]. now left. }
  destruct f as [cols|cols].
  - unfold from_frame in H. rewrite Hn in H. assert (R : ~ repeats (Flat cols)) by (intros R; exact (repeats_no_tree s ord fuel _ name 0 t R H)).
    assert (Ll : Forall labelled (map fst cols)) by (now apply labelled_columns).
    rewrite overloaded_atoms in *. destruct fuel as [|n]; cbn [build_frame] in H; rewrite Hn, L, N in H; cbn [negb] in H; [discriminate|].
    match type of H with fbind ?x _ = _ => destruct x as [cs|e|] eqn:B; try discriminate end. cbn [fbind] in H. injection H as <-.
    assert (E : looked_up (columns (Flat cols)) = map fst cols).
    { destruct (atoms (map fst cols)) as [|a l] eqn:A; [congruence|]. apply (mixed_looked_up _ a). cbn [columns]. apply atoms_In. rewrite A. now left. }
    rewrite E in B. assert (P : ForallOrdPairs (fun a b => ~ same a b) (atoms (map fst cols))).
    { apply pairs_of_splits. intros l1 l2 l3 a b A Q. apply R. apply atoms_split in A as (m1 & m2 & A & A2). apply atoms_split in A2 as (m3 & m4 & -> & _).
      apply rep_here with a b m1 m3 m4; auto. }
    apply columns_keyed in B as (r' & Er & Em & F & X); [|exact P|intros ? ? ? []]. cbn [app keyed filter] in Er.
    apply (Fin (atoms (map fst cols)) cs) with (n := n); auto using different_first_ones.
    + apply Forall_forall. intros a Ha. apply atoms_In in Ha. rewrite Forall_forall in Ll. exact (Ll _ Ha).
    + now rewrite Er.
    + rewrite X. cbn [existsb has_tuple]. rewrite orb_false_r. clear. induction cols as [|[l v] cols IH]; auto. cbn [map existsb fst]. rewrite IH. reflexivity.
    + rewrite Er. apply (Forall2_map_fst _ r' _ LAtom Em). intros k c Hc. rewrite Forall_forall in F. specialize (F _ Hc). cbn [fst snd] in F. unfold child_of.
      destruct (get (Flat cols) (LAtom k)) as [[vs|g]|]; auto. discriminate.
    + intros a g _ G. exact (pure_flat cols a g G).
  - assert (Ll : Forall labelled (columns (Multi cols))) by (now apply labelled_columns).
    assert (W : well_labelled (Multi cols) (overloaded (Multi cols))).
    { destruct Un as (k & Hk). assert (K : 2 <= k).
      { destruct (longer_tuple cols Ll N) as (x & y & z & Hx). cbn [columns] in Hx. apply in_map_iff in Hx as (c & Ec & Hc). injection Ec as Ec. rewrite <- (Hk c Hc), Ec. cbn [List.length]. lia. }
      apply wl_nested; [intros ->; discriminate N|..].
      - clear -Hk K. induction cols as [|[t v] cols IH]; cbn [overloaded flat_map]; [constructor|]. pose proof (Hk (t, v) (or_introl eq_refl)) as E. cbn [fst] in *.
        destruct t as [|a [|b r]]; cbn [List.length] in E; try lia. cbn [app]. constructor; [cbn [fst]; eauto|]. apply IH. intros; apply Hk. now right.
      - clear -Ll. cbn [columns overloaded] in *. induction cols as [|[t v] cols IH]; cbn [flat_map map fst] in *; [constructor|]. inversion Ll; subst. destruct t as [|a r]; [destruct H1|].
        cbn [app]. constructor; auto. }
    unfold from_frame in H. rewrite Hn in H. destruct (well_tree s ord fuel name 0 _ _ t W H) as (n & keys & cs & -> & Fo & Sk & Et & Ne & Em & Fc).
    assert (Q : keyed cs = cs /\ existsb (fun c : label * ftree => is_tuple (fst c)) cs = false).
    { clear -Em. revert keys Em. induction cs as [|[l c] cs IH]; intros [|a keys] Em; try discriminate; auto. cbn [map fst] in Em. injection Em as -> Em. destruct (IH keys Em) as [I1 I2].
      unfold keyed. cbn [filter fst is_tuple negb existsb orb]. fold (keyed cs). rewrite I1. auto. }
    destruct Q as [Q1 Q2]. apply (Fin keys cs Fo Sk Et) with (n := n); rewrite ?Q1; auto. intros a g _ G. exact (pure_get _ _ a g W G).
Qed.
Print Assumptions C53_all_frames.

Definition mixed_frame : frame := Flat [(a_ "A", ints2); (LTuple [AStr "B"; AStr "C"], ints2); (LAtom (ABool true), [vstr]); (LTuple [AInt 1], ints2)].
Example C53_all_example : uniform mixed_frame /\ ~ untyped mixed_frame /\ overloaded mixed_frame = [AStr "A"; ABool true] /\ has_tuple mixed_frame = true /\
  (exists t, from_frame (with_pandas PFull default_strategies) as_inserted 4 mixed_frame "Example" = FOk t /\
     contains "Literal['A', True], Hashable," (fst (ftop (with_pandas PFull default_strategies) t)) = true) /\
  uniform nested_frame /\ ~ untyped nested_frame /\ untyped (Flat []) /\ untyped (Multi [([AStr "a"], ints2); ([AInt 2], ints2)]) /\ untyped (Flat [(a_ "A", ints2); (LAtom (AOther 3 "1.5"), ints2)]) /\
  (~ untyped (Flat [(LTuple [AStr "a"; AStr "b"], ints2)]) /\ overloaded (Flat [(LTuple [AStr "a"; AStr "b"], ints2)]) = []).
Proof.
  assert (T : forall f l, Forall labelled (columns f) -> In l (columns f) -> (forall a, l <> LTuple [a]) -> ~ untyped f).
  { intros f l L Hl N [U|U]; [now apply U|]. rewrite Forall_forall in U. destruct (U l Hl) as (a & ->). now apply (N a). }
  split; [exact I|]. split; [apply (T _ (a_ "A")); [repeat constructor|now left|discriminate]|]. split; [reflexivity|]. split; [reflexivity|].
  split; [eexists; split; [vm_compute; reflexivity|vm_compute; reflexivity]|].
  split. { exists 2. intros c Hc. cbn in Hc. repeat destruct Hc as [<-|Hc]; try reflexivity. destruct Hc. }
  split; [apply (T _ (LTuple [AStr "a"; AStr "x"])); [repeat constructor|now left|discriminate]|].
  split; [right; constructor|]. split; [right; repeat (constructor; [eexists; reflexivity|]); constructor|].
  split; [left; intros L; inversion L as [|? ? _ L2]; inversion L2 as [|? ? L3 _]; exact L3|].
  split; [apply (T _ (LTuple [AStr "a"; AStr "b"])); [repeat constructor|now left|discriminate]|reflexivity].
Qed.
