(** Proofs about data frames. *)
From Coq Require Import Ascii String List Bool Arith ZArith Lia.
From Verif Require Import PyStr PyStrFacts Utils Strategies Imports Dispatch Values Tree Build Emit TreeFacts SpecData BuildFacts FuelFacts Frame SpecFrame.
Import ListNotations.
Local Open Scope string_scope.
Local Open Scope nat_scope.

(** ** Labels *)
Lemma atom_eqb_same a b : atom_eqb a b = true <-> same a b.
Proof.
  split.
  - unfold atom_eqb, number. destruct a as [x|x|x|i x], b as [y|y|y|j y]; try discriminate; intros H.
    + apply String.eqb_eq in H. subst. constructor.
    + apply Z.eqb_eq in H. destruct x, y; try discriminate; constructor.
    + apply Z.eqb_eq in H. subst. destruct x; constructor.
    + apply Z.eqb_eq in H. subst. destruct y; constructor.
    + apply Z.eqb_eq in H. subst. constructor.
    + apply Nat.eqb_eq in H. subst. constructor.
  - intros H. destruct H; unfold atom_eqb, number; cbn; auto using String.eqb_refl, Z.eqb_refl, Nat.eqb_refl.
Qed.
Lemma atom_eqb_refl a : atom_eqb a a = true.
Proof. apply atom_eqb_same. destruct a; constructor. Qed.
Lemma same_refl a : same a a. Proof. destruct a; constructor. Qed.
Lemma same_sym a b : same a b -> same b a. Proof. intros []; constructor. Qed.
Lemma same_trans a b c : same a b -> same b c -> same a c.
Proof. intros H G. destruct H; inversion G; subst; constructor. Qed.
Lemma atom_eqb_sym a b : atom_eqb a b = atom_eqb b a.
Proof. apply eq_true_iff_eq. rewrite !atom_eqb_same. split; apply same_sym. Qed.
Lemma atom_eqb_ext a b c : same a b -> atom_eqb a c = atom_eqb b c.
Proof. intros H. apply eq_true_iff_eq. rewrite !atom_eqb_same. split; intros G; eapply same_trans; eauto using same_sym. Qed.
Lemma same_simple a b : same a b -> simple a -> simple b.
Proof. intros []; cbn; auto. Qed.
Lemma simple_literal a : simple a <-> literal a = true.
Proof. destruct a; cbn; intuition discriminate. Qed.
Lemma labelled_literal l : labelled l <-> literal_label l = true.
Proof. destruct l as [a|[|a l]]; cbn [labelled literal_label]; auto using simple_literal. intuition discriminate. Qed.
Lemma labelled_columns l : Forall labelled l <-> literal_columns l = true.
Proof. unfold literal_columns. rewrite forallb_forall, Forall_forall. split; intros H x Hx; apply labelled_literal; auto. Qed.

Lemma atoms_eqb_same l m : atoms_eqb l m = true <-> Forall2 same l m.
Proof.
  revert m. induction l as [|a l IH]; intros [|b m]; cbn [atoms_eqb]; split; intros H; try discriminate; try (inversion H; fail); auto.
  - apply andb_true_iff in H as [H1 H2]. constructor; [now apply atom_eqb_same|now apply IH].
  - inversion H; subst. apply andb_true_iff. split; [now apply atom_eqb_same|now apply IH].
Qed.

(** ** The labels looked up *)
Lemma first_levels_spec cols : forall seen, (forall l, In l cols -> exists a r, l = LTuple (a :: r) /\ simple a) ->
  let heads := flat_map (fun l => match l with LTuple (a :: _) => [a] | _ => [] end) cols in
  let r := first_levels cols seen in
  subsequence r heads /\ ForallOrdPairs (fun a b => ~ same a b) r /\ (forall a b, In a r -> In b seen -> ~ same a b) /\
  (forall a, In a heads -> exists b, (In b r \/ In b seen) /\ same b a) /\
  (forall a, In a r -> exists l1 l2, heads = (l1 ++ a :: l2)%list /\ forall b, In b l1 -> ~ same a b).
Proof.
  induction cols as [|l cols IH]; intros seen H; cbn [flat_map first_levels].
  - repeat split; try constructor; intros ? []; intros [] || (let H := fresh in intros H; destruct H) || idtac.
  - destruct (H l) as (a & r & -> & Ha); [now left|]. cbn [app]. assert (H' : forall l, In l cols -> exists a r, l = LTuple (a :: r) /\ simple a) by (intros; apply H; now right).
    destruct (existsb (atom_eqb a) seen) eqn:E.
    + apply existsb_exists in E as (b & Hb & E). apply atom_eqb_same in E. destruct (IH seen H') as (I1 & I2 & I3 & I4 & I5). repeat split; auto.
      * now constructor.
      * intros x [<-|Hx]; auto. exists b. split; auto using same_sym.
      * intros x Hx. destruct (I5 x Hx) as (l1 & l2 & El & Hl). exists (a :: l1), l2. split; [cbn; now rewrite El|].
        intros y [<-|Hy]; auto. intros Q. apply (I3 x b Hx Hb). eapply same_trans; eauto.
    + rewrite (proj1 (simple_literal a) Ha). destruct (IH (a :: seen) H') as (I1 & I2 & I3 & I4 & I5).
      assert (N : forall b, In b seen -> ~ same a b).
      { intros b Hb Q. apply atom_eqb_same in Q. assert (X : existsb (atom_eqb a) seen = true) by (apply existsb_exists; eauto). congruence. }
      repeat split.
      * now constructor.
      * constructor; auto. apply Forall_forall. intros b Hb Q. apply (I3 b a Hb); [now left|now apply same_sym].
      * intros x b [<-|Hx] Hb; auto. apply I3; auto. now right.
      * intros x [<-|Hx]; [exists a; split; [left; now left|apply same_refl]|]. destruct (I4 x Hx) as (b & [Hb|[<-|Hb]] & Q).
        -- exists b. split; auto. left. now right.
        -- exists a. split; auto. left. now left.
        -- exists b. auto.
      * intros x [<-|Hx]; [exists [], (flat_map (fun l => match l with LTuple (a :: _) => [a] | _ => [] end) cols); split; auto; intros ? []|].
        destruct (I5 x Hx) as (l1 & l2 & El & Hl). exists (a :: l1), l2. split; [cbn; now rewrite El|].
        intros y [<-|Hy]; auto. apply I3; auto. now left.
Qed.

Lemma get_same f a b : same a b -> get f (LAtom a) = get f (LAtom b).
Proof.
  intros H. destruct f as [cols|cols]; cbn [get].
  - rewrite (filter_ext _ (fun c => label_eqb (LAtom b) (fst c))); auto. intros c. destruct (fst c); cbn [label_eqb]; auto. now apply atom_eqb_ext.
  - rewrite (filter_ext _ (fun c : list atom * list pyval => match fst c with b0 :: _ => atom_eqb b b0 | [] => false end)); auto.
    intros c. destruct (fst c); auto. now apply atom_eqb_ext.
Qed.

(** ** Construction *)
Lemma build_columns_child child ls : forall cs r, build_columns child ls cs = FOk r -> forall l, In l ls -> exists c, child l = FOk c.
Proof.
  induction ls as [|l ls IH]; intros cs r H x Hx; [destruct Hx|]. cbn [build_columns] in H. destruct (child l) as [c|e|] eqn:E; try discriminate. cbn [fbind] in H.
  destruct Hx as [<-|Hx]; eauto.
Qed.
Lemma build_columns_total child ls : (forall l, In l ls -> child l <> FOut) -> forall cs, build_columns child ls cs <> FOut.
Proof.
  induction ls as [|l ls IH]; intros H cs; cbn [build_columns]; [discriminate|]. pose proof (H l (or_introl eq_refl)) as Hl. destruct (child l); cbn [fbind]; try discriminate; try congruence.
  apply IH. intros; apply H. now right.
Qed.
Lemma build_series_total s ord name d vs : set_like ord -> build_series s ord name d vs <> FOut.
Proof.
  intros Ho. unfold build_series. destruct (build_fuel s ord Ho (S (vdepth (VSeq KSeries ty_series vs))) (S (vdepth (VSeq KSeries ty_series vs))) name d false (VSeq KSeries ty_series vs)) as [_ H]; try lia.
  destruct (build _ _ _ _ _ _ _) as [t|[n]|]; try discriminate. congruence.
Qed.

(** The columns equal to a label. *)
Lemma two_filter {A} (p : A -> bool) (l l1 l2 l3 : list A) x y : l = (l1 ++ x :: l2 ++ y :: l3)%list -> p x = true -> p y = true ->
  exists m, filter p l = (filter p l1 ++ x :: filter p l2 ++ y :: m)%list.
Proof. intros -> Hx Hy. exists (filter p l3). rewrite filter_app. cbn [filter]. rewrite Hx, filter_app. cbn [filter]. now rewrite Hy. Qed.
Lemma map_split {A B} (f : A -> B) (l : list A) m1 x m2 : map f l = (m1 ++ x :: m2)%list -> exists l1 y l2, l = (l1 ++ y :: l2)%list /\ map f l1 = m1 /\ f y = x /\ map f l2 = m2.
Proof.
  revert l. induction m1 as [|a m1 IH]; intros [|b l] H; cbn in H; try discriminate; injection H as H1 H2.
  - exists [], b, l. auto.
  - destruct (IH l H2) as (l1 & y & l2 & -> & <- & <- & <-). exists (b :: l1), y, l2. subst a. auto.
Qed.

Lemma get_repeated cols a b l1 l2 l3 : map fst cols = (l1 ++ LAtom a :: l2 ++ LAtom b :: l3)%list -> same a b -> Forall labelled (map fst cols) ->
  exists cs, get (Flat cols) (LAtom a) = Some (AFrame (Flat cs)) /\ repeats (Flat cs).
Proof.
  intros E H L. apply map_split in E as (c1 & x & c2 & -> & <- & Ex & E2). apply map_split in E2 as (c3 & y & c4 & -> & <- & Ey & <-).
  set (p := fun c : label * list pyval => label_eqb (LAtom a) (fst c)).
  assert (Px : p x = true) by (unfold p; rewrite Ex; apply atom_eqb_refl). assert (Py : p y = true) by (unfold p; rewrite Ey; now apply atom_eqb_same).
  destruct (two_filter p (c1 ++ x :: c3 ++ y :: c4) c1 c3 c4 x y eq_refl Px Py) as (m & E). exists (filter p (c1 ++ x :: c3 ++ y :: c4)). split.
  - cbn [get]. fold p. rewrite E. destruct (filter p c1) as [|z [|w r]]; cbn [app]; auto. destruct (filter p c3); reflexivity.
  - rewrite Forall_map in L. apply rep_here with a b (map fst (filter p c1)) (map fst (filter p c3)) (map fst m); auto.
    + rewrite Forall_map. apply Forall_forall. intros c Hc. apply filter_In in Hc as [Hc _]. rewrite Forall_forall in L. auto.
    + rewrite E, !map_app. cbn [map]. rewrite !map_app. cbn [map]. now rewrite Ex, Ey.
Qed.
Lemma mixed_looked_up ls a : In (LAtom a) ls -> looked_up ls = ls.
Proof.
  intros H. unfold looked_up. destruct (forallb is_tuple ls) eqn:E; auto. rewrite forallb_forall in E. now specialize (E _ H).
Qed.
Lemma not_one_tuple ls l : In l ls -> one_tuple l = false -> forallb one_tuple ls = false.
Proof. intros H N. destruct (forallb one_tuple ls) eqn:E; auto. rewrite forallb_forall in E. specialize (E _ H). congruence. Qed.

Lemma repeats_no_tree s ord : forall fuel f name d t, repeats f -> build_frame s ord fuel name d f <> FOk t.
Proof.
  induction fuel as [|fuel IH]; intros f name d t R H; cbn [build_frame] in H; destruct (negb (is_compatible name)); try discriminate;
    destruct R as [cols a b l1 l2 l3 L E Q|cols a r g L Hin (x & y & z & Hl) G R].
  - cbn [columns] in H. rewrite (proj1 (labelled_columns _) L) in H. cbn [negb] in H. rewrite (not_one_tuple (map fst cols) (LAtom a)) in H; auto; try discriminate. rewrite E. apply in_elt.
  - rewrite (proj1 (labelled_columns _) L) in H. cbn [negb] in H. rewrite (not_one_tuple _ _ Hl) in H; auto; discriminate.
  - cbn [columns] in H. rewrite (proj1 (labelled_columns _) L) in H. cbn [negb] in H. assert (Ia : In (LAtom a) (map fst cols)) by (rewrite E; apply in_elt).
    rewrite (not_one_tuple (map fst cols) (LAtom a)) in H; auto. rewrite (mixed_looked_up _ a Ia) in H.
    match type of H with fbind ?x _ = _ => destruct x as [cs|e|] eqn:B; try discriminate end.
    destruct (build_columns_child _ _ _ _ B (LAtom a) Ia) as (c & Hc). cbv beta in Hc.
    destruct (get_repeated cols a b l1 l2 l3 E Q L) as (cs' & G & R'). rewrite G in Hc. exact (IH _ _ _ _ R' Hc).
  - rewrite (proj1 (labelled_columns _) L) in H. cbn [negb] in H. rewrite (not_one_tuple _ _ Hl) in H; auto.
    match type of H with fbind ?x _ = _ => destruct x as [cs|e|] eqn:B; try discriminate end.
    assert (Tu : forallb is_tuple (columns (Multi cols)) = true).
    { apply forallb_forall. intros l Hl2. cbn [columns] in Hl2. apply in_map_iff in Hl2 as (c & <- & _). reflexivity. }
    unfold looked_up in B. rewrite Tu in B.
    destruct (first_levels_spec (columns (Multi cols)) []) as (_ & _ & _ & I4 & _).
    { intros l Hl2. rewrite Forall_forall in L. pose proof (L _ Hl2) as Ll. cbn [columns] in Hl2. apply in_map_iff in Hl2 as (c & <- & _). destruct (fst c) as [|a' r']; [destruct Ll|].
      exists a', r'. auto. }
    destruct (I4 a) as (a' & [Ha'|[]] & Sa). { apply in_flat_map. exists (LTuple (a :: r)). split; auto. now left. }
    destruct (build_columns_child _ _ _ _ B (LAtom a') (in_map LAtom _ _ Ha')) as (c & Hc). cbv beta in Hc.
    rewrite (get_same _ _ _ Sa), G in Hc. exact (IH _ _ _ _ R Hc).
Qed.

(** ** Termination *)
Definition levels (f : frame) : nat := match f with Flat _ => 0 | Multi cols => S (maxl (map (fun c => List.length (fst c)) cols)) end.
Lemma maxl_le l n : (forall x, In x l -> x <= n) -> maxl l <= n.
Proof. unfold maxl. induction l as [|x l IH]; cbn; intros H; [lia|]. pose proof (H x (or_introl eq_refl)). assert (fold_right Nat.max 0 l <= n) by (apply IH; auto). lia. Qed.
Lemma maxl_In l x : In x l -> x <= maxl l.
Proof. unfold maxl. induction l as [|y l IH]; intros []; cbn; [subst; lia|]. specialize (IH H). lia. Qed.
Lemma levels_lower cols n : (forall c, In c cols -> List.length (fst c) <= n) -> levels (lower cols) <= S n.
Proof.
  intros H. unfold lower. destruct (forallb _ cols); cbn [levels]; [lia|]. apply le_n_S, maxl_le. intros x Hx. apply in_map_iff in Hx as (c & <- & Hc). auto.
Qed.
Lemma peel_levels rest vs : match peel rest vs with ASeries _ => True | AFrame g => levels g <= S (List.length rest) end.
Proof.
  induction rest as [|a rest IH]; cbn [peel]; auto.
  assert (L : levels (lower [(a :: rest, vs)]) <= S (List.length (a :: rest))) by (apply levels_lower; intros c [<-|[]]; auto).
  destruct a as [[|c x]|x|x|i x]; auto. destruct (peel rest vs); auto.
Qed.
Lemma get_multi_levels cols a g : get (Multi cols) (LAtom a) = Some (AFrame g) -> levels g < levels (Multi cols) \/ forallb one_tuple (columns g) = true.
Proof.
  cbn [get]. set (cs := filter _ cols). intros H.
  assert (Hc : forall c, In c cs -> In c cols /\ exists r, fst c <> [] /\ r = fst c).
  { intros c Hc. apply filter_In in Hc as [Hc E]. split; auto. exists (fst c). split; auto. now destruct (fst c). }
  assert (Hl : forall c, In c cs -> List.length (fst c) <= maxl (map (fun c => List.length (fst c)) cols)).
  { intros c Hc'. destruct (Hc c Hc') as [Hi _]. apply maxl_In. apply in_map_iff. eauto. }
  assert (H' : cs <> [] /\ (if forallb (fun c => Nat.eqb (List.length (fst c)) 1) cs then Some (AFrame (Multi cs)) else
      match cs with [(_ :: rest, vs)] => Some (peel rest vs) | _ => Some (AFrame (lower (map (fun c => (tl (fst c), snd c)) cs))) end) = Some (AFrame g)).
  { clear Hc Hl. destruct cs; [discriminate|split; [discriminate|exact H]]. }
  clear H. clearbody cs. destruct H' as [Ne H]. set (m := maxl (map (fun c => List.length (fst c)) cols)) in *.
  destruct (forallb (fun c => Nat.eqb (List.length (fst c)) 1) cs) eqn:E1.
  - injection H as <-. right. cbn [columns]. apply forallb_forall. intros l Hl'. apply in_map_iff in Hl' as (c & <- & Hc'). rewrite forallb_forall in E1.
    pose proof (E1 c Hc') as E. apply Nat.eqb_eq in E. destruct (fst c) as [|x [|y r]]; try discriminate; reflexivity.
  - left. cbn [levels]. fold m.
    assert (G : match cs with [(_ :: rest, vs)] => Some (peel rest vs) | _ => Some (AFrame (lower (map (fun c => (tl (fst c), snd c)) cs))) end = Some (AFrame g)) by exact H.
    assert (Lo : levels (lower (map (fun c => (tl (fst c), snd c)) cs)) < S m).
    { destruct (Nat.eq_dec m 0) as [Z|Z].
      - exfalso. destruct cs as [|c cs']; [discriminate|]. destruct (Hc c (or_introl eq_refl)) as (_ & r & N & _). specialize (Hl c (or_introl eq_refl)). destruct (fst c); cbn in Hl; [congruence|lia].
      - apply le_n_S. replace m with (S (m - 1)) by lia. apply levels_lower. intros c' Hc'. apply in_map_iff in Hc' as (c & <- & Hc'). cbn [fst].
        specialize (Hl c Hc'). destruct (Hc c Hc') as (_ & r & N & _). destruct (fst c); cbn in *; [congruence|lia]. }
    destruct cs as [|[[|x rest] vs] [|c2 cs']]; try (injection G as <-; exact Lo).
    injection G as G. pose proof (peel_levels rest vs) as P. rewrite G in P. specialize (Hl (x :: rest, vs) (or_introl eq_refl)). cbn in Hl. lia.
Qed.

Lemma one_tuple_stops s ord fuel name d f : forallb one_tuple (columns f) = true -> build_frame s ord fuel name d f <> FOut.
Proof. intros H. destruct fuel; cbn [build_frame]; destruct (negb (is_compatible name)), (negb (literal_columns (columns f))); try discriminate; rewrite H; discriminate. Qed.
Lemma flat_tuple_stops s ord fuel name d cols : forallb is_tuple (map fst cols) = true -> build_frame s ord (S fuel) name d (Flat cols) <> FOut.
Proof.
  intros H. cbn [build_frame columns]. destruct (negb (is_compatible name)), (negb (literal_columns (map fst cols))), (forallb one_tuple (map fst cols)); try discriminate.
  match goal with |- fbind ?x _ <> _ => assert (Hx : x <> FOut); [|destruct x; cbn; congruence] end.
  apply build_columns_total. intros l Hl. unfold looked_up in Hl. rewrite H in Hl. apply in_map_iff in Hl as (a & <- & _).
  cbn [get]. replace (filter (fun c => label_eqb (LAtom a) (fst c)) cols) with (@nil (label * list pyval)); [discriminate|].
  clear -H. induction cols as [|[l v] cols IH]; auto. cbn [map forallb fst filter] in *. apply andb_true_iff in H as [H1 H2]. destruct l; [discriminate|]. cbn [label_eqb]. auto.
Qed.

Lemma filter_two {A} (p : A -> bool) l x y r : filter p l = x :: y :: r -> exists l1 l2 l3, l = (l1 ++ x :: l2 ++ y :: l3)%list /\ p x = true /\ p y = true.
Proof.
  intros H. assert (One : forall l z r, filter p l = z :: r -> exists l1 l2, l = (l1 ++ z :: l2)%list /\ p z = true /\ filter p l2 = r).
  { clear. induction l as [|a l IH]; intros z r H; [discriminate|]. cbn [filter] in H. destruct (p a) eqn:E.
    - injection H as <- <-. exists [], l. auto.
    - destruct (IH z r H) as (l1 & l2 & -> & P & F). exists (a :: l1), l2. auto. }
  destruct (One _ _ _ H) as (l1 & l2 & -> & Px & H2). destruct (One _ _ _ H2) as (l3 & l4 & -> & Py & _). exists l1, l3, l4. auto.
Qed.

Lemma looked_up_multi cols l : In l (looked_up (columns (Multi cols))) -> exists a r, l = LAtom a /\ In (LTuple (a :: r)) (columns (Multi cols)).
Proof.
  unfold looked_up. replace (forallb is_tuple (columns (Multi cols))) with true.
  2:{ symmetry. apply forallb_forall. intros x Hx. cbn [columns] in Hx. apply in_map_iff in Hx as (c & <- & _). reflexivity. }
  intros H. apply in_map_iff in H as (a & <- & H). cut (forall cs seen, In a (first_levels cs seen) -> exists r, In (LTuple (a :: r)) cs).
  { intros C. destruct (C _ _ H) as (r & Hr). eauto. }
  clear. induction cs as [|l cs IH]; intros seen H; [destruct H|]. cbn [first_levels] in H. destruct l as [b|[|b r]].
  - destruct (IH _ H) as (x & Hx). exists x. now right.
  - destruct (IH _ H) as (x & Hx). exists x. now right.
  - destruct (existsb (atom_eqb b) seen); [|destruct (literal b)].
    + destruct (IH _ H) as (x & Hx). exists x. now right.
    + destruct H as [<-|H]; [exists r; now left|]. destruct (IH _ H) as (x & Hx). exists x. now right.
    + destruct (IH _ H) as (x & Hx). exists x. now right.
Qed.
Lemma longer_tuple cols : Forall labelled (columns (Multi cols)) -> forallb one_tuple (columns (Multi cols)) = false -> exists x y z, In (LTuple (x :: y :: z)) (columns (Multi cols)).
Proof.
  cbn [columns]. induction cols as [|[t v] cols IH]; intros L H; [discriminate|]. cbn [map forallb fst] in *. inversion L; subst.
  destruct t as [|x [|y z]]; [destruct H2| |exists x, y, z; now left]. cbn [one_tuple andb] in H. destruct (IH H3 H) as (x' & y' & z' & I). exists x', y', z'. now right.
Qed.

Theorem no_repeats_ends s ord : set_like ord -> forall fuel f name d, ~ repeats f -> levels f + 2 <= fuel -> build_frame s ord fuel name d f <> FOut.
Proof.
  intros Ho. induction fuel as [|fuel IH]; intros f name d R L; [lia|]. cbn [build_frame]. destruct (negb (is_compatible name)); try discriminate.
  destruct (negb (literal_columns (columns f))) eqn:Li; try discriminate. destruct (forallb one_tuple (columns f)) eqn:On; try discriminate.
  apply negb_false_iff in Li. apply labelled_columns in Li.
  match goal with |- fbind ?x _ <> _ => assert (Hx : x <> FOut); [|destruct x; cbn; congruence] end.
  apply build_columns_total. intros l Hl. destruct f as [cols|cols].
  - cbn [get]. destruct (filter _ cols) as [|c [|c2 cs]] eqn:F; try discriminate; try (now apply build_series_total).
    destruct l as [a|t].
    + exfalso. apply R. apply filter_two in F as (l1 & l2 & l3 & -> & P1 & P2). cbn [columns] in *. destruct c as [[b|] v1]; [|discriminate]. destruct c2 as [[b2|] v2]; [|discriminate].
      cbn [fst label_eqb] in *. apply atom_eqb_same in P1, P2. apply rep_here with b b2 (map fst l1) (map fst l2) (map fst l3); auto.
      * rewrite map_app. cbn [map fst]. rewrite map_app. reflexivity.
      * eapply same_trans; eauto using same_sym.
    + destruct fuel as [|fuel]; [cbn in L; lia|]. apply flat_tuple_stops. rewrite <- F. apply forallb_forall. intros x Hx. apply in_map_iff in Hx as (y & <- & Hy).
      apply filter_In in Hy as [_ Hy]. destruct y as [[|] ?]; [discriminate|reflexivity].
  - destruct (looked_up_multi _ _ Hl) as (a & r & -> & Ha). destruct (get (Multi cols) (LAtom a)) as [[vs|g]|] eqn:G; try discriminate; [now apply build_series_total|].
    destruct (get_multi_levels _ _ _ G) as [Lv|O1]; [|now apply one_tuple_stops].
    apply IH; [|lia]. intros Rg. apply R. eapply rep_below; eauto. now apply longer_tuple.
Qed.

Lemma build_columns_same child child' ls : (forall l, In l ls -> child l = child' l) -> forall cs, build_columns child ls cs = build_columns child' ls cs.
Proof. induction ls as [|l ls IH]; intros H cs; cbn [build_columns]; auto. rewrite H; [|now left]. destruct (child' l); cbn [fbind]; auto. apply IH. intros; apply H. now right. Qed.
Lemma build_columns_mono child child' ls : (forall l, In l ls -> child l <> FOut -> child' l = child l) -> forall cs, build_columns child ls cs <> FOut ->
  build_columns child' ls cs = build_columns child ls cs.
Proof.
  induction ls as [|l ls IH]; intros H cs N; cbn [build_columns] in *; auto.
  assert (Nl : child l <> FOut) by (intros E; rewrite E in N; now apply N). rewrite (H l (or_introl eq_refl) Nl). destruct (child l); cbn [fbind] in *; auto. apply IH; auto. intros; apply H; auto. now right.
Qed.
(** More fuel does not change a result. *)
Theorem frame_fuel s ord : forall fuel fuel' f name d, fuel <= fuel' -> build_frame s ord fuel name d f <> FOut ->
  build_frame s ord fuel' name d f = build_frame s ord fuel name d f.
Proof.
  induction fuel as [|fuel IH]; intros fuel' f name d L N; destruct fuel' as [|fuel']; try lia; auto; cbn [build_frame] in *.
  - destruct (negb (is_compatible name)); auto. destruct (negb (literal_columns (columns f))); auto. destruct (forallb one_tuple (columns f)); auto. now destruct N.
  - destruct (negb (is_compatible name)); auto. destruct (negb (literal_columns (columns f))); auto. destruct (forallb one_tuple (columns f)); auto.
    f_equal. apply build_columns_mono.
    + intros l Hl Nl. destruct (get f l) as [[vs|g]|]; auto. apply IH; auto. lia.
    + intros E. rewrite E in N. now apply N.
Qed.

(** ** Frames without repeated columns *)
Lemma different_filter {A B} (g : A -> B) (P : B -> B -> Prop) (p : A -> bool) l :
  (forall l1 l2 l3 a b, map g l = (l1 ++ a :: l2 ++ b :: l3)%list -> ~ P a b) ->
  (forall l1 l2 l3 a b, map g (filter p l) = (l1 ++ a :: l2 ++ b :: l3)%list -> ~ P a b).
Proof.
  intros H l1 l2 l3 a b E. apply map_split in E as (m1 & x & m2 & E & <- & Ex & E2). apply map_split in E2 as (m3 & y & m4 & -> & <- & Ey & <-). subst a b.
  cut (exists n1 n2 n3, l = (n1 ++ x :: n2 ++ y :: n3)%list).
  { intros (n1 & n2 & n3 & ->). apply (H (map g n1) (map g n2) (map g n3)). rewrite map_app. cbn [map]. now rewrite map_app. }
  assert (One : forall k1 l z r, filter p l = (k1 ++ z :: r)%list -> exists l1 l2, l = (l1 ++ z :: l2)%list /\ filter p l2 = r).
  { clear. induction k1 as [|w k1 IH]; intros l z r; (induction l as [|a l IHl]; intros H; [cbn in H; discriminate H|cbn [filter] in H; destruct (p a)]).
    - injection H as <- <-. exists [], l. auto.
    - destruct (IHl H) as (l1 & l2 & -> & E). exists (a :: l1), l2. auto.
    - cbn [app] in H. injection H as Ha H. destruct (IH l z r H) as (l1 & l2 & -> & E). exists (a :: l1), l2. auto.
    - destruct (IHl H) as (l1 & l2 & -> & E). exists (a :: l1), l2. auto. }
  destruct (One _ _ _ _ E) as (l1 & l2 & -> & E2). destruct (One _ _ _ _ E2) as (l3 & l4 & -> & _). eauto.
Qed.
Lemma different_lower cols : different_labels (Multi cols) -> different_labels (lower cols).
Proof.
  intros H. unfold lower. destruct (forallb _ cols) eqn:E; auto. cbn [different_labels] in *. intros l1 l2 l3 a b Q.
  set (fl := flat_map _ cols) in Q. assert (Ex : map fst cols = map (fun l => match l with LAtom a => [a] | LTuple t => t end) (map fst fl)).
  { clear -E. subst fl. induction cols as [|[t v] cols IH]; auto. cbn [forallb fst] in E. apply andb_true_iff in E as [E1 E2]. cbn [map flat_map fst]. destruct t as [|x [|y z]]; try discriminate.
    cbn [app map fst snd]. now rewrite IH. }
  rewrite Q in Ex. rewrite map_app in Ex. cbn [map] in Ex. rewrite map_app in Ex. cbn [map] in Ex. intros S1. apply (H _ _ _ _ _ Ex). auto.
Qed.
Lemma different_tails cols a : (forall c, In c cols -> match fst c with b :: _ => atom_eqb a b = true | [] => False end) ->
  different_labels (Multi cols) -> different_labels (Multi (map (fun c => (tl (fst c), snd c)) cols)).
Proof.
  intros Hh H. cbn [different_labels] in *. intros l1 l2 l3 x y E. rewrite map_map in E. cbn [fst] in E. apply map_split in E as (m1 & c & m2 & -> & <- & <- & E).
  apply map_split in E as (m3 & c' & m4 & -> & <- & <- & <-). intros F.
  pose proof (Hh c (in_elt _ _ _)) as Hc. assert (Hc' : In c' (m1 ++ c :: m3 ++ c' :: m4)) by (apply in_or_app; right; right; apply in_elt). apply Hh in Hc'.
  apply (H (map fst m1) (map fst m3) (map fst m4) (fst c) (fst c')).
  - rewrite map_app. cbn [map]. now rewrite map_app.
  - destruct (fst c) as [|h t]; [destruct Hc|]. destruct (fst c') as [|h' t']; [destruct Hc'|]. cbn [tl] in F. apply atom_eqb_same in Hc, Hc'. constructor; auto. eapply same_trans; eauto using same_sym.
Qed.
Lemma different_get cols a g : different_labels (Multi cols) -> get (Multi cols) (LAtom a) = Some (AFrame g) -> different_labels g.
Proof.
  intros D. cbn [get]. set (cs := filter _ cols). assert (Dc : different_labels (Multi cs)) by (cbn [different_labels] in *; now apply (different_filter fst (Forall2 same))).
  assert (Hh : forall c, In c cs -> match fst c with b :: _ => atom_eqb a b = true | [] => False end).
  { intros c Hc. apply filter_In in Hc as [_ Hc]. destruct (fst c); [discriminate|auto]. }
  clearbody cs. intros H. destruct cs as [|c0 cs']; [discriminate|]. destruct (forallb _ _); [injection H as <-; exact Dc|].
  pose proof (different_lower _ (different_tails _ a Hh Dc)) as Lo. destruct c0 as [[|x rest] vs]; [injection H as <-; exact Lo|]. destruct cs' as [|c2 cs']; [|injection H as <-; exact Lo].
  injection H as H. clear Lo Hh Dc. revert g H. induction rest as [|y rest IH]; intros g H; [discriminate|]. cbn [peel] in H.
  assert (Q : different_labels (lower [(y :: rest, vs)])).
  { apply different_lower. cbn [different_labels map fst]. intros l1 l2 l3 p q E. destruct l1 as [|z l1]; [injection E as _ E; now destruct l2|]. injection E as _ E. now destruct l1. }
  destruct y as [[|ch st]|b|z|i t]; try (injection H as <-; exact Q). now apply IH.
Qed.
Theorem different_no_repeats f : different_labels f -> ~ repeats f.
Proof.
  intros D R. induction R as [cols a b l1 l2 l3 L E Q|cols a r g L Hin Hl G R IH]; [exact (D _ _ _ _ _ E Q)|]. apply IH. eapply different_get; eauto.
Qed.
