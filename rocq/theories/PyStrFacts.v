(** Facts about the string operations of [PyStr]. *)
From Coq Require Import Ascii String List Bool Arith Lia NArith.
From Coq Require Import Permutation Sorted.
From Coq Require Import Decimal DecimalString DecimalNat DecimalFacts.
From Verif Require Import PyStr.
Import ListNotations.
Local Open Scope string_scope.

(** ** Append *)
Lemma app_nil_r_s (s : string) : s ++ "" = s.
Proof. induction s; simpl; congruence. Qed.
Lemma app_assoc_s (a b c : string) : (a ++ b) ++ c = a ++ b ++ c.
Proof. induction a; simpl; congruence. Qed.
Lemma length_app_s (a b : string) : String.length (a ++ b) = String.length a + String.length b.
Proof. induction a; simpl; congruence. Qed.
Lemma app_inj_l (a b c : string) : a ++ b = a ++ c -> b = c.
Proof. induction a; simpl; intros H; [exact H | injection H; auto]. Qed.
Lemma app_eq_nil_s (a b : string) : a ++ b = "" -> a = "" /\ b = "".
Proof. destruct a; simpl; [auto | discriminate]. Qed.
Lemma app_inj_len (a a' b b' : string) :
  String.length a = String.length a' -> a ++ b = a' ++ b' -> a = a' /\ b = b'.
Proof.
  revert a'; induction a as [|c a IH]; intros [|c' a']; simpl; intros Hl H; try discriminate; auto.
  injection H as -> H. injection Hl as Hl. destruct (IH _ Hl H); subst; auto.
Qed.
Lemma app_inj_r (a b c : string) : a ++ c = b ++ c -> a = b.
Proof.
  intros H. destruct (app_inj_len a b c c); auto.
  apply (f_equal String.length) in H. rewrite !length_app_s in H. lia.
Qed.
Lemma length_nil_s (s : string) : String.length s = 0 -> s = "".
Proof. destruct s; simpl; [auto | discriminate]. Qed.

(** ** str_forall *)
Lemma str_forall_app p a b : str_forall p (a ++ b) = str_forall p a && str_forall p b.
Proof. induction a; simpl; [auto|]. rewrite IHa. apply andb_assoc. Qed.
Lemma str_exists_app p a b : str_exists p (a ++ b) = str_exists p a || str_exists p b.
Proof. induction a; simpl; [auto|]. rewrite IHa. apply orb_assoc. Qed.
Lemma str_forall_impl (p q : ascii -> bool) s :
  (forall c, p c = true -> q c = true) -> str_forall p s = true -> str_forall q s = true.
Proof.
  intros H; induction s; simpl; auto. rewrite !andb_true_iff. intros [? ?]; auto.
Qed.
Lemma str_forall_exists p s : str_forall (fun c => negb (p c)) s = negb (str_exists p s).
Proof. induction s; simpl; auto. rewrite IHs. destruct (p a); auto. Qed.
Fixpoint str_In (c : ascii) (s : string) : Prop :=
  match s with "" => False | String d r => c = d \/ str_In c r end.
Lemma str_forall_In p s : str_forall p s = true <-> forall c, str_In c s -> p c = true.
Proof.
  induction s; simpl; split; try tauto.
  - rewrite andb_true_iff. intros [H1 H2] c [->|H]; auto. apply IHs; auto.
  - intros H. rewrite andb_true_iff. split; [apply H; auto | apply IHs; auto].
Qed.
Lemma str_In_app c a b : str_In c (a ++ b) <-> str_In c a \/ str_In c b.
Proof. induction a; simpl; tauto. Qed.

Lemma ascii_all (P : ascii -> Prop) :
  (forall n, n < 256 -> P (chr n)) -> forall c, P c.
Proof.
  intros H c. rewrite <- (ascii_nat_embedding c). apply H. apply nat_ascii_bounded.
Qed.

(** Decide a boolean statement about all characters by evaluation. *)
Fixpoint all_chars_from (n : nat) (p : ascii -> bool) : bool :=
  match n with O => true | S m => p (chr m) && all_chars_from m p end.
Lemma all_chars_spec p : all_chars_from 256 p = true -> forall c, p c = true.
Proof.
  intros H c. assert (G : forall n, all_chars_from n p = true -> forall m, m < n -> p (chr m) = true).
  { induction n; simpl; intros Hn m Hm; [lia|]. apply andb_true_iff in Hn as [H1 H2].
    destruct (Nat.eq_dec m n); [subst; auto | apply IHn; auto; lia]. }
  rewrite <- (ascii_nat_embedding c). apply (G 256 H). apply nat_ascii_bounded.
Qed.
Ltac by_chars c :=
  match goal with |- ?b = true =>
    let p := eval pattern c in b in
    match p with ?f _ => apply (all_chars_spec f); vm_compute; reflexivity end
  end.

(** ** remove_char *)
Lemma remove_char_app c a b : remove_char c (a ++ b) = remove_char c a ++ remove_char c b.
Proof. induction a; simpl; auto. destruct (Ascii.eqb c a); simpl; congruence. Qed.
Lemma str_forall_remove_char c p s :
  str_forall p (remove_char c s) = str_forall (fun d => Ascii.eqb c d || p d) s.
Proof.
  induction s; simpl; auto. destruct (Ascii.eqb c a) eqn:E; simpl; rewrite IHs; auto.
Qed.
Lemma remove_char_nil c s : remove_char c s = "" <-> str_forall (Ascii.eqb c) s = true.
Proof.
  induction s; simpl; [tauto|]. destruct (Ascii.eqb c a); simpl; auto.
  split; discriminate.
Qed.

(** ** startswith, drop, take *)
Lemma startswith_app p s : startswith p (p ++ s) = true.
Proof. induction p; simpl; auto. rewrite Ascii.eqb_refl; auto. Qed.
Lemma startswith_spec p s : startswith p s = true <-> exists r, s = p ++ r.
Proof.
  split.
  - revert s; induction p as [|c p IH]; intros s; simpl; [eauto|].
    destruct s as [|d s]; [discriminate|]. rewrite andb_true_iff. intros [H1 H2].
    apply Ascii.eqb_eq in H1. subst. destruct (IH _ H2) as [r ->]. eauto.
  - intros [r ->]. apply startswith_app.
Qed.
Lemma drop_app a b : drop (String.length a) (a ++ b) = b.
Proof. induction a; simpl; auto. Qed.
Lemma take_app a b : take (String.length a) (a ++ b) = a.
Proof. induction a; simpl; auto; congruence. Qed.
Lemma take_drop n s : take n s ++ drop n s = s.
Proof. revert s; induction n; destruct s; simpl; auto; congruence. Qed.
Lemma drop_nil n : drop n "" = "". Proof. destruct n; auto. Qed.
Lemma drop_drop n m s : drop n (drop m s) = drop (m + n) s.
Proof. revert s; induction m; destruct s; simpl; auto. apply drop_nil. Qed.
Lemma length_drop n s : String.length (drop n s) = String.length s - n.
Proof. revert s; induction n; destruct s; simpl; auto. Qed.
Lemma length_take n s : String.length (take n s) = Nat.min n (String.length s).
Proof. revert s; induction n; destruct s; simpl; auto. Qed.
Lemma endswith_spec p s : endswith p s = true <-> exists r, s = r ++ p.
Proof.
  unfold endswith. rewrite andb_true_iff, Nat.leb_le, String.eqb_eq. split.
  - intros [H1 H2]. exists (take (String.length s - String.length p) s).
    rewrite <- H2 at 2. symmetry; apply take_drop.
  - intros [r ->]. rewrite length_app_s. split; [lia|].
    replace (String.length r + String.length p - String.length p) with (String.length r) by lia.
    apply drop_app.
Qed.

(** ** contains *)
Lemma contains_spec sub s : contains sub s = true <-> exists a b, s = a ++ sub ++ b.
Proof.
  split.
  - induction s as [|c s IH]; simpl.
    + rewrite orb_false_r. intros H. apply startswith_spec in H as [r H]. exists "", r. auto.
    + rewrite orb_true_iff. intros [H|H].
      * apply startswith_spec in H as [r H]. exists "", r. auto.
      * destruct (IH H) as (a & b & ->). exists (String c a), b. auto.
  - intros (a & b & ->). induction a as [|c a IH].
    + change ("" ++ sub ++ b) with (sub ++ b). destruct (sub ++ b) eqn:E.
      * simpl. apply app_eq_nil_s in E as [-> _]. auto.
      * simpl. rewrite <- E, startswith_app. auto.
    + change (String c a ++ sub ++ b) with (String c (a ++ sub ++ b)). simpl. rewrite IH. apply orb_true_r.
Qed.
Lemma contains_app_l sub a b : contains sub a = true -> contains sub (a ++ b) = true.
Proof.
  rewrite !contains_spec. intros (x & y & ->). exists x, (y ++ b). now rewrite !app_assoc_s.
Qed.
Lemma contains_app_r sub a b : contains sub b = true -> contains sub (a ++ b) = true.
Proof.
  rewrite !contains_spec. intros (x & y & ->). exists (a ++ x), y. now rewrite !app_assoc_s.
Qed.
Lemma contains_char c s : contains (String c "") s = str_exists (Ascii.eqb c) s.
Proof.
  induction s as [|d s IH]; simpl; auto.
  rewrite IH. destruct (Ascii.eqb c d); auto.
Qed.

(** ** split_char / join *)
Lemma split_char_nonnil c s : split_char c s <> [].
Proof.
  destruct s; simpl; [discriminate|]. destruct (Ascii.eqb c a); [discriminate|].
  destruct (split_char c s); discriminate.
Qed.
Lemma join_cons sep x l : l <> [] -> join sep (x :: l) = x ++ sep ++ join sep l.
Proof. destruct l; [congruence | auto]. Qed.
Lemma join_split c s : join (String c "") (split_char c s) = s.
Proof.
  induction s as [|d s IH]; auto. simpl. destruct (Ascii.eqb c d) eqn:E.
  - apply Ascii.eqb_eq in E; subst. rewrite join_cons by apply split_char_nonnil. rewrite IH. auto.
  - destruct (split_char c s) as [|h t] eqn:E2; [now apply split_char_nonnil in E2|].
    destruct t as [|h2 t]; simpl in *; now rewrite <- IH.
Qed.
Definition no_char (c : ascii) (s : string) : Prop := str_forall (fun d => negb (Ascii.eqb c d)) s = true.
Lemma split_char_no c s : Forall (no_char c) (split_char c s).
Proof.
  induction s as [|d s IH]; simpl.
  - repeat constructor.
  - destruct (Ascii.eqb c d) eqn:E; [constructor; auto; reflexivity|].
    destruct (split_char c s) as [|h t].
    + repeat constructor. unfold no_char; simpl. now rewrite E.
    + inversion IH; subst. constructor; auto. unfold no_char in *; simpl. now rewrite E.
Qed.
Lemma split_char_single c s : no_char c s -> split_char c s = [s].
Proof.
  unfold no_char; induction s as [|d s IH]; simpl; auto. rewrite andb_true_iff, negb_true_iff.
  intros [-> H]. rewrite (IH H). auto.
Qed.
Lemma split_char_app c a b : no_char c a -> split_char c (a ++ String c b) = a :: split_char c b.
Proof.
  unfold no_char; induction a as [|d a IH]; simpl.
  - intros _. now rewrite Ascii.eqb_refl.
  - rewrite andb_true_iff, negb_true_iff. intros [-> H]. now rewrite (IH H).
Qed.
Lemma split_join c l : l <> [] -> Forall (no_char c) l -> split_char c (join (String c "") l) = l.
Proof.
  intros Hn H; induction H as [|x l Hx Hl IH]; [congruence|].
  destruct l as [|y l].
  - simpl. now apply split_char_single.
  - rewrite join_cons by discriminate. cbn [String.append]. rewrite split_char_app by auto.
    now rewrite IH by discriminate.
Qed.
Lemma str_forall_join p sep l :
  str_forall p sep = true -> Forall (fun s => str_forall p s = true) l -> str_forall p (join sep l) = true.
Proof.
  intros Hs H; induction H as [|x l Hx Hl IH]; auto. destruct l; auto.
  rewrite join_cons by discriminate. now rewrite !str_forall_app, Hx, Hs, IH.
Qed.

(** ** The string order *)
Lemma ascii_compare_refl c : Ascii.compare c c = Eq.
Proof. unfold Ascii.compare. apply N.compare_refl. Qed.
Lemma str_compare_refl s : String.compare s s = Eq.
Proof. induction s; simpl; auto. now rewrite ascii_compare_refl. Qed.
Lemma leb_refl_s s : String.leb s s = true.
Proof. unfold String.leb. now rewrite str_compare_refl. Qed.
Lemma leb_trans_s a b c : String.leb a b = true -> String.leb b c = true -> String.leb a c = true.
Proof.
  revert b c; induction a as [|x a IH]; intros [|y b] [|z c]; unfold String.leb; simpl; auto; try discriminate.
  unfold String.leb in IH. unfold Ascii.compare.
  destruct (N.compare_spec (N_of_ascii x) (N_of_ascii y)) as [E1|E1|E1]; try discriminate;
  destruct (N.compare_spec (N_of_ascii y) (N_of_ascii z)) as [E2|E2|E2]; try discriminate; intros H1 H2.
  - rewrite <- E2, E1, N.compare_refl. eapply IH; eauto.
  - rewrite E1. apply N.compare_lt_iff in E2. now rewrite E2.
  - rewrite <- E2. apply N.compare_lt_iff in E1. now rewrite E1.
  - assert (E3 : (N_of_ascii x < N_of_ascii z)%N) by lia. apply N.compare_lt_iff in E3. now rewrite E3.
Qed.
Definition str_le (a b : string) : Prop := String.leb a b = true.

Lemma insert_perm x l : Permutation (x :: l) (insert x l).
Proof.
  induction l as [|y l IH]; simpl; auto. destruct (String.leb x y); auto.
  rewrite perm_swap. now rewrite <- IH.
Qed.
Lemma sort_perm l : Permutation l (sort l).
Proof. induction l; simpl; auto. rewrite <- insert_perm. now constructor. Qed.
Lemma insert_sorted x l : StronglySorted str_le l -> StronglySorted str_le (insert x l).
Proof.
  induction 1 as [|y l Hl IH Hy]; simpl; [repeat constructor|].
  destruct (String.leb x y) eqn:E.
  - constructor; [constructor; auto|]. constructor; auto.
    eapply Forall_impl; [|exact Hy]. intros z Hz. eapply leb_trans_s; eauto.
  - constructor; auto. rewrite <- insert_perm. constructor; auto.
    destruct (String.leb_total x y); [congruence | auto].
Qed.
Lemma sort_sorted l : StronglySorted str_le (sort l).
Proof. induction l; simpl; [constructor | now apply insert_sorted]. Qed.
Lemma sorted_unique l1 l2 :
  StronglySorted str_le l1 -> StronglySorted str_le l2 -> Permutation l1 l2 -> l1 = l2.
Proof.
  intros H1; revert l2; induction H1 as [|x l1 H1 IH Hx]; intros l2 H2 P.
  - now apply Permutation_nil in P.
  - destruct H2 as [|y l2 H2 Hy]; [symmetry in P; now apply Permutation_nil in P|].
    assert (E : x = y).
    { assert (Ix : In x (y :: l2)) by (eapply Permutation_in; [exact P | now left]).
      assert (Iy : In y (x :: l1)) by (eapply Permutation_in; [symmetry; exact P | now left]).
      destruct Ix as [->|Ix]; auto. destruct Iy as [->|Iy]; auto.
      rewrite Forall_forall in Hx, Hy. apply String.leb_antisym; [now apply Hx | now apply Hy]. }
    subst y. f_equal. apply IH; auto. eapply Permutation_cons_inv; eauto.
Qed.
Lemma sort_perm_eq l1 l2 : Permutation l1 l2 -> sort l1 = sort l2.
Proof.
  intros P. apply sorted_unique; try apply sort_sorted.
  now rewrite <- !sort_perm.
Qed.
Lemma sort_sorted_id l : StronglySorted str_le l -> sort l = l.
Proof. intros H. apply sorted_unique; auto using sort_sorted. symmetry; apply sort_perm. Qed.
Lemma sort_In x l : In x (sort l) <-> In x l.
Proof. split; apply Permutation_in; [symmetry|]; apply sort_perm. Qed.
Lemma sort_NoDup l : NoDup l -> NoDup (sort l).
Proof. apply Permutation_NoDup, sort_perm. Qed.

(** ** mem, dedup *)
Lemma mem_spec x l : mem x l = true <-> In x l.
Proof.
  unfold mem. rewrite existsb_exists. split.
  - intros (y & H & E). apply String.eqb_eq in E. now subst.
  - intros H. exists x. rewrite String.eqb_refl. auto.
Qed.
Lemma mem_false x l : mem x l = false <-> ~ In x l.
Proof. rewrite <- mem_spec. destruct (mem x l); split; congruence. Qed.
Lemma dedup_In x l : In x (dedup l) <-> In x l.
Proof.
  induction l as [|y l IH]; simpl; [tauto|]. rewrite filter_In, IH, negb_true_iff, String.eqb_neq.
  destruct (string_dec y x); [tauto|]. tauto.
Qed.
Lemma NoDup_filter {A} (p : A -> bool) l : NoDup l -> NoDup (filter p l).
Proof.
  induction 1; simpl; [constructor|]. destruct (p x); auto. constructor; auto. rewrite filter_In; tauto.
Qed.
Lemma dedup_NoDup l : NoDup (dedup l).
Proof.
  induction l; simpl; constructor.
  - rewrite filter_In, negb_true_iff, String.eqb_neq. tauto.
  - now apply NoDup_filter.
Qed.
Lemma sort_dedup_ext l1 l2 : (forall x, In x l1 <-> In x l2) -> sort (dedup l1) = sort (dedup l2).
Proof.
  intros H. apply sort_perm_eq. apply NoDup_Permutation; try apply dedup_NoDup.
  intros x. rewrite !dedup_In. apply H.
Qed.

(** ** Decimal printing *)
Lemma str_of_nat_inj n m : str_of_nat n = str_of_nat m -> n = m.
Proof.
  unfold str_of_nat. intros H. apply (f_equal NilEmpty.uint_of_string) in H.
  rewrite !NilEmpty.usu in H. injection H as H.
  apply (f_equal Nat.of_uint) in H. now rewrite !DecimalNat.Unsigned.of_to in H.
Qed.
Lemma string_of_uint_decimal u : str_forall is_decimal (NilEmpty.string_of_uint u) = true.
Proof. induction u; simpl; auto. Qed.
Lemma str_of_nat_decimal n : str_forall is_decimal (str_of_nat n) = true.
Proof. apply string_of_uint_decimal. Qed.
Lemma str_of_nat_nonnil n : str_of_nat n <> "".
Proof.
  unfold str_of_nat. assert (Nat.to_uint n <> Nil).
  { intros H. destruct (Nat.eq_dec n 0) as [->|Hn]; [discriminate|].
    apply (f_equal Nat.of_uint) in H. rewrite DecimalNat.Unsigned.of_to in H. simpl in H. auto. }
  destruct (Nat.to_uint n); simpl; try discriminate; congruence.
Qed.
