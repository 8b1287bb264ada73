(** Facts about ImportManager. *)
From Coq Require Import Ascii String List Bool Arith Lia Permutation Sorted.
From Verif Require Import PyStr PyStrFacts Imports SpecImports.
Import ListNotations.
Local Open Scope string_scope.

Lemma imp_add_In x k s : In x (imp_add k s) <-> x = k \/ In x s.
Proof.
  unfold imp_add. destruct (mem k s) eqn:E.
  - apply mem_spec in E. split; auto. intros [->|H]; auto.
  - rewrite in_app_iff. simpl. intuition.
Qed.
Lemma imp_add_NoDup k s : NoDup s -> NoDup (imp_add k s).
Proof.
  unfold imp_add. destruct (mem k s) eqn:E; auto. intros H. apply mem_false in E.
  apply Permutation_NoDup with (k :: s); [apply Permutation_cons_append | now constructor].
Qed.
Lemma imp_adds_In x ks s : In x (imp_adds ks s) <-> In x ks \/ In x s.
Proof.
  unfold imp_adds. revert s; induction ks as [|k ks IH]; intros s; simpl; [tauto|].
  rewrite IH, imp_add_In. intuition.
Qed.
Lemma imp_adds_NoDup ks s : NoDup s -> NoDup (imp_adds ks s).
Proof. unfold imp_adds. revert s; induction ks; simpl; auto using imp_add_NoDup. Qed.

(** ** Grouping *)
Definition pairs (order : list string) : list (string * string) :=
  flat_map (fun k => match package_of k with Some pn => [pn] | None => [] end) order.
Definition names_of (p : string) (l : list (string * string)) : list string :=
  map snd (filter (fun pn => String.eqb p (fst pn)) l).
Definition grouped (l : list (string * string)) : list (string * list string) :=
  map (fun p => (p, names_of p l)) (dedup (map fst l)).

Lemma dedup_snoc l x : dedup (l ++ [x]) = if mem x l then dedup l else (dedup l ++ [x])%list.
Proof.
  induction l as [|y l IH]; auto. simpl. rewrite IH. rewrite (String.eqb_sym x y).
  destruct (String.eqb_spec y x) as [->|Hne]; simpl.
  - destruct (mem x l) eqn:E; auto. rewrite filter_app. simpl. rewrite String.eqb_refl. simpl. now rewrite app_nil_r.
  - destruct (mem x l) eqn:E; auto.
    rewrite filter_app. simpl. destruct (String.eqb_spec y x); [congruence|]. reflexivity.
Qed.
Lemma names_of_app p l1 l2 : names_of p (l1 ++ l2) = (names_of p l1 ++ names_of p l2)%list.
Proof. unfold names_of. now rewrite filter_app, map_app. Qed.
Lemma dd_append_map p n (f : string -> list string) keys :
  NoDup keys ->
  dd_append p n (map (fun q => (q, f q)) keys) =
  (map (fun q => (q, if String.eqb p q then f q ++ [n] else f q)) keys
   ++ (if mem p keys then [] else [(p, [n])]))%list.
Proof.
  induction 1 as [|q keys Hq Hk IH]; auto. simpl. destruct (String.eqb_spec p q) as [->|Hne]; simpl.
  - rewrite app_nil_r. f_equal. apply map_ext_in. intros r Hr.
    destruct (String.eqb_spec q r) as [->|]; [contradiction | auto].
  - f_equal. apply IH.
Qed.
Lemma names_of_notin p l : ~ In p (map fst l) -> names_of p l = [].
Proof.
  unfold names_of. induction l as [|[q n] l IH]; auto. simpl. intros H.
  destruct (String.eqb_spec p q); [exfalso; auto|]. apply IH. auto.
Qed.
Lemma dd_append_grouped p n l : dd_append p n (grouped l) = grouped (l ++ [(p, n)]).
Proof.
  unfold grouped. rewrite dd_append_map by apply dedup_NoDup.
  rewrite map_app. cbn [map fst]. rewrite dedup_snoc.
  assert (M : mem p (dedup (map fst l)) = mem p (map fst l)).
  { apply eq_true_iff_eq. now rewrite !mem_spec, dedup_In. }
  assert (E : forall q, (if String.eqb p q then names_of q l ++ [n] else names_of q l)%list = names_of q (l ++ [(p, n)])).
  { intros q. rewrite names_of_app. unfold names_of at 4. simpl. rewrite (String.eqb_sym q p).
    destruct (String.eqb p q); simpl; auto. now rewrite app_nil_r. }
  rewrite M. destruct (mem p (map fst l)) eqn:E1.
  - rewrite app_nil_r. apply map_ext. intros q. now rewrite E.
  - rewrite map_app. f_equal.
    + apply map_ext. intros q. now rewrite E.
    + simpl. rewrite names_of_app. apply mem_false in E1. rewrite (names_of_notin p l E1).
      unfold names_of. simpl. now rewrite String.eqb_refl.
Qed.
Lemma group_imports_spec order l :
  group_imports order (grouped l) =
  if forallb (fun k => match package_of k with Some _ => true | None => false end) order
  then Some (grouped (l ++ pairs order)) else None.
Proof.
  revert l; induction order as [|k r IH]; intros l; simpl; [now rewrite app_nil_r|].
  destruct (package_of k) as [[p n]|] eqn:E; auto. rewrite dd_append_grouped, IH.
  simpl. destruct (forallb _ r); auto. now rewrite <- app_assoc.
Qed.

Lemma insert_pkg_map (f : string -> list string) p keys :
  insert_pkg (p, f p) (map (fun q => (q, f q)) keys) = map (fun q => (q, f q)) (insert p keys).
Proof. induction keys as [|q keys IH]; auto. simpl. destruct (String.leb p q); auto. now rewrite IH. Qed.
Lemma sort_pkg_map (f : string -> list string) keys :
  sort_pkg (map (fun q => (q, f q)) keys) = map (fun q => (q, f q)) (sort keys).
Proof. induction keys as [|q keys IH]; auto. simpl. rewrite IH. apply insert_pkg_map. Qed.

Definition known (k : string) : bool := match package_of k with Some _ => true | None => false end.
Definition packages (order : list string) : list string := sort (dedup (map fst (pairs order))).
Definition statements (line_length : nat) (order : list string) : list string :=
  map (fun p => format_single_package line_length p (names_of p (pairs order))) (packages order).
Definition future_fix (l : list string) : list string :=
  match l with h :: t => (if contains "__future__" h then h ++ nl else h) :: t | [] => [] end.

Lemma format_imports_eq n order :
  format_imports n order = if forallb known order then Some (join nl (future_fix (statements n order))) else None.
Proof.
  unfold format_imports. change (@nil (string * list string)) with (grouped []).
  rewrite group_imports_spec. unfold known. destruct (forallb _ order); auto.
  simpl List.app. unfold grouped. rewrite sort_pkg_map, map_map. reflexivity.
Qed.

(** ** Properties of the table *)
Lemma assoc_In {A} k (l : list (string * A)) v : assoc k l = Some v -> In (k, v) l.
Proof.
  induction l as [|[k' v'] l IH]; simpl; [discriminate|]. destruct (String.eqb_spec k k').
  - intros H; injection H as ->. subst. auto.
  - auto.
Qed.
Lemma package_of_inj k1 k2 p n : package_of k1 = Some (p, n) -> package_of k2 = Some (p, n) -> k1 = k2.
Proof.
  intros H1 H2. apply assoc_In in H1, H2.
  assert (T : forall e1 e2, In e1 PACKAGE -> In e2 PACKAGE -> snd e1 = snd e2 -> fst e1 = fst e2).
  { assert (B : forallb (fun e1 => forallb (fun e2 =>
        negb (String.eqb (fst (snd e1)) (fst (snd e2)) && String.eqb (snd (snd e1)) (snd (snd e2)))
        || String.eqb (fst e1) (fst e2)) PACKAGE) PACKAGE = true) by (vm_compute; reflexivity).
    rewrite forallb_forall in B. intros e1 e2 I1 I2 E. specialize (B e1 I1). rewrite forallb_forall in B.
    specialize (B e2 I2). rewrite E, !String.eqb_refl in B. simpl in B. now apply String.eqb_eq in B. }
  apply (T _ _ H1 H2). reflexivity.
Qed.
Definition special (n : string) : bool := mem n ["pandas"; "npt"; "numpy"].
Lemma special_single p n n' k k' :
  package_of k = Some (p, n) -> package_of k' = Some (p, n') -> special n = true -> n = n' /\ p = n.
Proof.
  intros H1 H2 Hs. apply assoc_In in H1, H2.
  assert (B : forallb (fun e1 => forallb (fun e2 =>
        negb (special (snd (snd e1)) && String.eqb (fst (snd e1)) (fst (snd e2)))
        || (String.eqb (snd (snd e1)) (snd (snd e2)) && String.eqb (fst (snd e1)) (snd (snd e1))))
        PACKAGE) PACKAGE = true) by (vm_compute; reflexivity).
  rewrite forallb_forall in B. specialize (B _ H1). rewrite forallb_forall in B. specialize (B _ H2).
  simpl in B. rewrite Hs, String.eqb_refl in B. simpl in B. apply andb_true_iff in B as [B1 B2].
  apply String.eqb_eq in B1, B2. auto.
Qed.

Lemma pairs_In p n order : In (p, n) (pairs order) <-> exists k, In k order /\ package_of k = Some (p, n).
Proof.
  unfold pairs. rewrite in_flat_map. split.
  - intros (k & Hk & H). exists k. split; auto. destruct (package_of k); [|contradiction].
    destruct H as [->|[]]; auto.
  - intros (k & Hk & E). exists k. split; auto. rewrite E. now left.
Qed.
Lemma pairs_NoDup order : NoDup order -> NoDup (pairs order).
Proof.
  induction 1 as [|k order Hk Ho IH]; simpl; [constructor|].
  destruct (package_of k) as [[p n]|] eqn:E; auto. simpl. constructor; auto.
  rewrite pairs_In. intros (k' & Hk' & E'). now rewrite (package_of_inj _ _ _ _ E E') in Hk.
Qed.
Lemma names_of_In p n l : In n (names_of p l) <-> In (p, n) l.
Proof.
  unfold names_of. rewrite in_map_iff. split.
  - intros ([q m] & <- & H). apply filter_In in H as [H E]. simpl in E. apply String.eqb_eq in E. now subst.
  - intros H. exists (p, n). split; auto. apply filter_In. simpl. now rewrite String.eqb_refl.
Qed.
Lemma names_of_NoDup p l : NoDup l -> NoDup (names_of p l).
Proof.
  unfold names_of. induction 1 as [|[q n] l Hn Hl IH]; simpl; [constructor|].
  destruct (String.eqb_spec p q); auto. subst. simpl. constructor; auto.
  fold (names_of q l). now rewrite names_of_In.
Qed.
Lemma pairs_perm o1 o2 : Permutation o1 o2 -> Permutation (pairs o1) (pairs o2).
Proof. intros P. unfold pairs. now apply Permutation_flat_map. Qed.
Lemma names_of_perm p l1 l2 : Permutation l1 l2 -> Permutation (names_of p l1) (names_of p l2).
Proof.
  intros P. unfold names_of. apply Permutation_map.
  induction P; simpl; auto.
  - destruct (String.eqb p (fst x)); auto.
  - destruct (String.eqb p (fst x)), (String.eqb p (fst y)); auto. apply perm_swap.
  - etransitivity; eauto.
Qed.

Lemma format_single_perm n p ns1 ns2 :
  (forall x y, In x ns1 -> In y ns1 -> special x = true -> x = y) -> NoDup ns1 ->
  Permutation ns1 ns2 -> format_single_package n p ns1 = format_single_package n p ns2.
Proof.
  intros Hs Hd P. unfold format_single_package. rewrite (sort_perm_eq _ _ P).
  destruct ns1 as [|x ns1]; [apply Permutation_nil in P; now subst|].
  destruct ns2 as [|y ns2]; [symmetry in P; now apply Permutation_nil in P|].
  assert (Iy : In y (x :: ns1)) by (eapply Permutation_in; [symmetry; exact P | now left]).
  assert (S1 : special x = true -> x = y) by (intros H; apply Hs; auto; now left).
  assert (S2 : special y = true -> x = y) by (intros H; symmetry; apply Hs; auto; now left).
  unfold special, mem in *. simpl in *.
  destruct (String.eqb_spec x "pandas") as [->|N1].
  { rewrite <- S1 by reflexivity. reflexivity. }
  destruct (String.eqb_spec y "pandas") as [->|M1]; [exfalso; apply N1; auto|].
  destruct (String.eqb_spec x "npt") as [->|N2].
  { rewrite <- S1 by reflexivity. reflexivity. }
  destruct (String.eqb_spec y "npt") as [->|M2]; [exfalso; apply N2; auto|].
  destruct (String.eqb_spec x "numpy") as [->|N3].
  { rewrite <- S1 by reflexivity. reflexivity. }
  destruct (String.eqb_spec y "numpy") as [->|M3]; [exfalso; apply N3; auto|].
  reflexivity.
Qed.

Lemma names_special p order x y :
  In x (names_of p (pairs order)) -> In y (names_of p (pairs order)) -> special x = true -> x = y.
Proof.
  rewrite !names_of_In, !pairs_In. intros (k & _ & E) (k' & _ & E') H.
  now destruct (special_single _ _ _ _ _ E E' H).
Qed.

Lemma format_imports_perm n o1 o2 :
  NoDup o1 -> Permutation o1 o2 -> format_imports n o1 = format_imports n o2.
Proof.
  intros Hd P. rewrite !format_imports_eq.
  assert (E : forallb known o1 = forallb known o2).
  { apply eq_true_iff_eq. rewrite !forallb_forall. split; intros H x Hx; apply H.
    - eapply Permutation_in; [symmetry; exact P | auto].
    - eapply Permutation_in; eauto. }
  rewrite E. destruct (forallb known o2); auto. do 3 f_equal. unfold statements.
  assert (Ep : packages o1 = packages o2).
  { unfold packages. apply sort_dedup_ext. intros x. split; apply Permutation_in, Permutation_map;
      [|symmetry]; now apply pairs_perm. }
  rewrite Ep. apply map_ext. intros p. apply format_single_perm.
  - intros x y. apply names_special.
  - now apply names_of_NoDup, pairs_NoDup.
  - now apply names_of_perm, pairs_perm.
Qed.

(** ** Content of the block *)
Lemma Joined_join sep l : Joined sep l (join sep l).
Proof.
  induction l as [|x l IH]; [constructor|]. destruct l as [|y l]; [constructor|].
  rewrite join_cons by discriminate. now constructor.
Qed.
Lemma whole_names p n k : package_of k = Some (p, n) -> whole_module p -> n = p.
Proof.
  unfold package_of. intros H W. apply assoc_In in H.
  assert (B : forallb (fun e => negb (special (fst (snd e))) || String.eqb (snd (snd e)) (fst (snd e))) PACKAGE = true) by (vm_compute; reflexivity).
  rewrite forallb_forall in B. specialize (B _ H). cbn [fst snd] in B. apply orb_true_iff in B as [B|B]; [|now apply String.eqb_eq].
  destruct W as [-> | [-> | ->]]; discriminate.
Qed.
Lemma single_statement n p order :
  NoDup order -> In p (packages order) -> 26 <= n ->
  Statement p (sort (names_of p (pairs order))) (format_single_package n p (names_of p (pairs order))).
Proof.
  intros Ho Hp Hn.
  assert (Hne : names_of p (pairs order) <> []).
  { unfold packages in Hp. rewrite sort_In, dedup_In, in_map_iff in Hp. destruct Hp as ([q m] & <- & Hp).
    intros E. apply (in_nil (a := m)). rewrite <- E. now apply names_of_In. }
  assert (Hd : NoDup (names_of p (pairs order))) by now apply names_of_NoDup, pairs_NoDup.
  assert (Hs : forall x, In x (names_of p (pairs order)) -> special x = true ->
                 p = x /\ names_of p (pairs order) = [x]).
  { intros x Hx Hsx. split.
    - rewrite names_of_In, pairs_In in Hx. destruct Hx as (k & _ & E).
      now destruct (special_single _ _ _ _ _ E E Hsx).
    - pose proof (names_special p order x) as Hq.
      destruct (names_of p (pairs order)) as [|y ns]; [contradiction|].
      assert (x = y) as <- by (apply Hq; auto; now left).
      destruct ns as [|z ns]; auto. assert (x = z) as <- by (apply Hq; auto; right; now left).
      inversion Hd; subst. exfalso. apply H1. now left. }
  destruct (names_of p (pairs order)) as [|x ns] eqn:En; [congruence|].
  assert (Hx : exists k, package_of k = Some (p, x)).
  { assert (I : In x (names_of p (pairs order))) by (rewrite En; now left). rewrite names_of_In, pairs_In in I. destruct I as (k & _ & E). eauto. }
  specialize (Hs x (or_introl eq_refl)). unfold format_single_package.
  assert (L : forall s : string, String.length s <= 26 -> Nat.ltb n (String.length s) = false).
  { intros s Hl. apply Nat.ltb_ge. lia. }
  destruct (String.eqb_spec x "pandas") as [->|N1].
  { destruct Hs as [-> E]; [reflexivity|]. injection E as ->. rewrite L by (simpl; lia). constructor. }
  destruct (String.eqb_spec x "npt") as [->|N2].
  { destruct Hs as [-> E]; [reflexivity|]. injection E as ->. rewrite L by (simpl; lia). constructor. }
  destruct (String.eqb_spec x "numpy") as [->|N3].
  { destruct Hs as [-> E]; [reflexivity|]. injection E as ->. rewrite L by (simpl; lia). constructor. }
  assert (Hw : ~ whole_module p).
  { intros W. assert (x = p) by (destruct Hx as (k & E); now apply (whole_names p x k)). subst x. destruct W as [W | [W | W]]; congruence. }
  assert (Hse : sort (x :: ns) <> []) by (intros E0; apply (in_nil (a := x)); rewrite <- E0; apply sort_In; now left).
  destruct (Nat.ltb n _).
  - apply (St_block p (sort (x :: ns)) (join ("," ++ nl ++ TAB) (sort (x :: ns)))); [exact Hw|exact Hse|]. apply Joined_join.
  - apply St_line; [exact Hw|exact Hse|]. apply Joined_join.
Qed.

Definition strictly_sorted (l : list string) : Prop := StronglySorted str_le l /\ NoDup l.
Lemma packages_sorted order : strictly_sorted (packages order).
Proof. split; [apply sort_sorted | apply sort_NoDup, dedup_NoDup]. Qed.
Lemma packages_In p order : In p (packages order) <-> exists n, In (p, n) (pairs order).
Proof.
  unfold packages. rewrite sort_In, dedup_In, in_map_iff. split.
  - intros ([q n] & <- & H). eauto.
  - intros (n & H). exists (p, n). auto.
Qed.
