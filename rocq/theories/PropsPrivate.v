(** C44, C46: the exact effect of the replacement of assignments and of the removal of private methods, for all files. *)
From Coq Require Import Ascii String List Bool Arith ZArith Lia Sorted Permutation.
From Verif Require Import DocstringFacts DeclarationFacts PyStr PyStrFacts Exc PyFile SpecNames NamesFacts SpecText SpecPyFile PyFileFacts PyFilePrivate LiveMethods SpecMethods PropsMethods PropsPyFile SpecPrivate.
Import ListNotations.
Local Open Scope string_scope.
Local Open Scope nat_scope.

(** ** Ranges *)
Lemma range_nil t e : (e <= t)%Z -> range t e = [].
Proof. intros H. unfold range. replace (Z.to_nat (e - t)) with 0 by lia. reflexivity. Qed.
Lemma range_cons t e : (t < e)%Z -> range t e = t :: range (t + 1) e.
Proof.
  intros H. unfold range. replace (Z.to_nat (e - t)) with (S (Z.to_nat (e - (t + 1)))) by lia. cbn [seq map]. rewrite Z.add_0_r. f_equal.
  rewrite <- seq_shift, map_map. apply map_ext. intros a. lia.
Qed.
Lemma range_app t m e : (t <= m <= e)%Z -> range t e = (range t m ++ range m e)%list.
Proof.
  intros H. remember (Z.to_nat (m - t)) as n eqn:En. revert t H En. induction n as [|n IH]; intros t H En.
  - replace t with m by lia. now rewrite (range_nil m m) by lia.
  - rewrite (range_cons t e), (range_cons t m) by lia. cbn [app]. f_equal. apply IH; lia.
Qed.
Lemma range_snoc t e : (t < e)%Z -> range t e = (range t (e - 1) ++ [(e - 1)%Z])%list.
Proof. intros H. rewrite (range_app t (e - 1) e), (range_cons (e - 1) e), (range_nil (e - 1 + 1)) by lia. reflexivity. Qed.
Lemma range_In t e k : In k (range t e) <-> (t <= k < e)%Z.
Proof.
  unfold range. rewrite in_map_iff. split.
  - intros (x & <- & H). apply in_seq in H. lia.
  - intros H. exists (Z.to_nat (k - t)). split; [lia|]. apply in_seq. lia.
Qed.

(** ** The three parts of a method *)
Lemma decorators_range lines : forall fuel i, (- Z.of_nat (List.length lines) <= i + 1)%Z -> (i < Z.of_nat (List.length lines))%Z -> (i + Z.of_nat (List.length lines) + 1 < Z.of_nat fuel)%Z ->
  (exists t ds, decorators_above fuel lines i = Val ds /\ Top lines (i + 1) t /\ Permutation ds (range t (i + 1))) \/
  (decorators_above fuel lines i = Raise IndexError /\ forall m, (- Z.of_nat (List.length lines) <= m < i + 1)%Z -> exists l, at_index lines m l /\ has_at l).
Proof.
  induction fuel as [|fuel IH]; intros i A B C; [lia|]. cbn [decorators_above]. destruct (Z.eq_dec (i + 1) (- Z.of_nat (List.length lines))) as [E|N].
  - rewrite line_out by lia. cbn [andthen]. right. split; auto. intros; lia.
  - destruct (line_in lines i) as (l & El); [lia|]. rewrite El. cbn [andthen]. destruct (contains "@" l) eqn:Cl.
    + apply PropsMethods.contains_at in Cl. replace (i - 1)%Z with (i - 1)%Z by lia. destruct (IH (i - 1)%Z) as [(t & ds & W & (T1 & T2 & T3) & P)|[W H]]; try lia; rewrite W; cbn [andthen].
      * left. exists t, (i :: ds). split; auto. replace (i - 1 + 1)%Z with i in * by lia. split.
        -- split; [lia|]. split; auto. intros m Hm. destruct (Z.eq_dec m i) as [->|]; [exists l; split; auto; now apply at_nth|]. apply T2. lia.
        -- rewrite range_snoc by lia. replace (i + 1 - 1)%Z with i by lia. rewrite P. apply Permutation_cons_append.
      * right. split; auto. intros m Hm. destruct (Z.eq_dec m i) as [->|]; [exists l; split; auto; now apply at_nth|]. apply H. lia.
    + left. exists (i + 1)%Z, []. split; auto. split; [|now rewrite range_nil by lia]. split; [lia|]. split; [intros; lia|]. exists l. replace (i + 1 - 1)%Z with i by lia.
      split; [now apply at_nth|]. intros H. apply PropsMethods.contains_at in H. congruence.
Qed.
Lemma signature_range lines : forall fuel i, (0 <= i <= Z.of_nat (List.length lines))%Z -> (Z.of_nat (List.length lines) - i < Z.of_nat fuel)%Z ->
  (exists m, rest_of_signature fuel lines i = Val (range (i + 1) (m + 1), m) /\ Closed lines i m) \/
  (rest_of_signature fuel lines i = Raise IndexError /\ forall k, (i <= k < Z.of_nat (List.length lines))%Z -> exists l, at_index lines k l /\ ~ closes l).
Proof.
  induction fuel as [|fuel IH]; intros i A B; [lia|]. cbn [rest_of_signature]. destruct (Z.eq_dec i (Z.of_nat (List.length lines))) as [E|N].
  - rewrite line_out by lia. right. split; [reflexivity|]. intros; lia.
  - destruct (line_in lines i) as (l & El); [lia|]. rewrite El. cbn [andthen]. apply at_nth in El. destruct (contains "):" l || contains "->" l) eqn:C.
    + left. exists i. rewrite range_nil by lia. split; auto. split; [lia|]. split; [intros; lia|]. exists l. split; auto. now apply closes_spec.
    + apply closes_false in C. destruct (IH (i + 1)%Z) as [(m & W & T1 & T2 & T3)|[W H]]; try lia; rewrite W; cbn [andthen fst snd].
      * left. exists m. split; [rewrite (range_cons (i + 1) (m + 1)) by lia; reflexivity|]. split; [lia|]. split; auto. intros k Hk. destruct (Z.eq_dec k i) as [->|]; [eauto|]. apply T2. lia.
      * right. split; auto. intros k Hk. destruct (Z.eq_dec k i) as [->|]; [eauto|]. apply H. lia.
Qed.
Lemma at_nat (a : list string) l b : at_index (a ++ l :: b) (Z.of_nat (List.length a)) l.
Proof. exists a, b. auto. Qed.
Lemma body_range sp : forall rest before,
  exists e, body_after (String.length sp) (List.length before) rest = range (Z.of_nat (List.length before)) e /\
    BodyEnds (before ++ rest) sp (Z.of_nat (List.length before) - 1) e.
Proof.
  induction rest as [|l rest IH]; intros before; cbn [body_after].
  - exists (Z.of_nat (List.length before)). rewrite range_nil by lia. split; auto. exists (Z.of_nat (List.length before)). rewrite app_nil_r. split; [lia|]. split; [intros; lia|auto].
  - destruct (deeper (String.length sp) l) eqn:D.
    + apply deeper_spec in D. destruct (IH (before ++ [l])%list) as (e & E & B). rewrite <- app_assoc in B. cbn [app] in B.
      replace (List.length (before ++ [l])) with (S (List.length before)) in * by (rewrite app_length; cbn; lia). destruct B as (b & Hb & In1 & F).
      assert (Le : (Z.of_nat (List.length before) < e)%Z) by (destruct F as [[_ ->]|(x & _ & _ & _ & ->)]; lia).
      exists e. rewrite E. split.
      * rewrite (range_cons (Z.of_nat (List.length before)) e) by lia. f_equal. f_equal. lia.
      * exists b. split; [lia|]. split; [|exact F].
        intros k Hk. destruct (Z.eq_dec k (Z.of_nat (List.length before))) as [->|]; [exists l; split; auto; apply at_nat|]. apply In1. lia.
    + exists (Z.of_nat (List.length before) + 1)%Z. rewrite range_cons, range_nil by lia. split; auto. exists (Z.of_nat (List.length before)). rewrite app_length. cbn [List.length]. split; [lia|].
      split; [intros; lia|]. right. exists l. split; [apply at_nat|]. split; [lia|]. split; auto. intros H. apply deeper_spec in H. congruence.
Qed.
Lemma body_range_at sp lines m : (0 <= m < Z.of_nat (List.length lines))%Z ->
  exists e, body_after (String.length sp) (S (Z.to_nat m)) (skipn (S (Z.to_nat m)) lines) = range (m + 1) e /\ BodyEnds lines sp m e.
Proof.
  intros H. destruct (body_range sp (skipn (S (Z.to_nat m)) lines) (firstn (S (Z.to_nat m)) lines)) as (e & E & B).
  rewrite firstn_skipn in B. rewrite firstn_length_le in * by lia. replace (Z.of_nat (S (Z.to_nat m)) - 1)%Z with m in B by lia.
  replace (Z.of_nat (S (Z.to_nat m))) with (m + 1)%Z in E by lia. eauto.
Qed.

(** ** One method *)
Lemma method_extent lines p def : nth_error lines p = Some def -> is_private def = true ->
  (exists t e l, lines_of_private lines p def = Val l /\ Extent lines p t e /\ Permutation l (range t e)) \/
  (lines_of_private lines p def = Raise IndexError /\ forall t e, ~ Extent lines p t e).
Proof.
  intros N Pr. pose proof N as N'. assert (Lp : p < List.length lines) by (apply nth_error_Some; congruence).
  assert (At : at_index lines (Z.of_nat p) def) by (apply nth_error_split in N as (a & b & -> & <-); apply at_nat).
  apply is_private_spec in Pr as (sp & Hsp). unfold lines_of_private. rewrite (leading_spaces_def sp def Hsp).
  destruct (decorators_range lines (p + List.length lines + 1) (Z.of_nat p - 1)) as [(t & ds & -> & T & Pd)|[-> H]]; try lia; cbn [andthen].
  2:{ right. split; auto. intros t e (sp' & def' & m & _ & _ & (_ & _ & x & Ax & Nx) & _). apply Nx.
      replace (Z.of_nat p - 1 + 1)%Z with (Z.of_nat p) in H by lia. apply at_in in Ax. destruct (every_line lines x (Z.of_nat p) Ax ltac:(lia)) as (k & Hk & Ak).
      destruct (H k Hk) as (y & Ay & Hy). now rewrite (at_same _ _ _ _ Ak Ay). }
  replace (Z.of_nat p - 1 + 1)%Z with (Z.of_nat p) in * by lia.
  destruct (signature_range lines (List.length lines + 1) (Z.of_nat p)) as [(m & -> & C)|[-> H]]; try lia; cbn [andthen fst snd].
  - assert (Hm : (0 <= m < Z.of_nat (List.length lines))%Z).
    { destruct C as (C1 & _ & x & Ax & _). apply at_nth, line_at_low in Ax. lia. }
    destruct (body_range_at sp lines m Hm) as (e & -> & B). left. eexists t, e, _. split; [reflexivity|]. split; [exists sp, def, m; auto|].
    assert (Lt : (t <= Z.of_nat p)%Z) by apply T. assert (Lm : (Z.of_nat p <= m)%Z) by apply C.
    assert (Le : (m < e)%Z) by (destruct B as (b & Hb & _ & [[_ ->]|(x & _ & _ & _ & ->)]); lia).
    rewrite (range_app t (Z.of_nat p) e), (range_cons (Z.of_nat p) e), (range_app (Z.of_nat p + 1) (m + 1) e) by lia. cbn [app]. now apply Permutation_app_tail.
  - right. split; auto. intros t' e (sp' & def' & m & _ & _ & _ & (C1 & _ & x & Ax & Cx) & _). assert (Hm := proj1 (at_nth _ _ _) Ax). apply line_at_low in Hm.
    destruct (H m ltac:(lia)) as (y & Ay & Ny). apply Ny. now rewrite (at_same _ _ _ _ Ay Ax).
Qed.

(** The extent of a method is unique. *)
Lemma private_indent sp sp' l : PrivateDef sp l -> PrivateDef sp' l -> String.length sp = String.length sp'.
Proof. intros A B. now rewrite <- (leading_spaces_def _ _ A), <- (leading_spaces_def _ _ B). Qed.
Lemma closed_unique lines i m k : Closed lines i m -> Closed lines i k -> m = k.
Proof.
  intros (A1 & A2 & x & Ax & Sx) (B1 & B2 & y & By & Sy). destruct (Z.lt_trichotomy m k) as [L|[E|L]]; auto; exfalso.
  - destruct (B2 m) as (l & Hl & N); [lia|]. apply N. now rewrite <- (at_same _ _ _ _ Ax Hl).
  - destruct (A2 k) as (l & Hl & N); [lia|]. apply N. now rewrite <- (at_same _ _ _ _ By Hl).
Qed.
Lemma deeper_length sp sp' l : String.length sp = String.length sp' -> Deeper sp l -> Deeper sp' l.
Proof. intros E (a & c & b & H1 & H2 & H3). exists a, c, b. rewrite <- E. auto. Qed.
Lemma body_unique lines sp sp' m e e' : String.length sp = String.length sp' -> BodyEnds lines sp m e -> BodyEnds lines sp' m e' -> e = e'.
Proof.
  intros El (b & Hb & I & F) (b' & Hb' & I' & F'). assert (Eb : b = b').
  { destruct (Z.lt_trichotomy b b') as [L|[E|L]]; auto; exfalso.
    - destruct F as [[-> _]|(l & Al & _ & Nl & _)]; [lia|]. destruct (I' b) as (x & Ax & Dx); [lia|]. apply Nl. rewrite (at_same _ _ _ _ Al Ax). eapply deeper_length; [|exact Dx]. auto.
    - destruct F' as [[-> _]|(l & Al & _ & Nl & _)]; [lia|]. destruct (I b') as (x & Ax & Dx); [lia|]. apply Nl. rewrite (at_same _ _ _ _ Al Ax). eapply deeper_length; [|exact Dx]. auto. }
  subst b'. destruct F as [[E1 ->]|(l & Al & L1 & _ & ->)], F' as [[E2 ->]|(l' & Al' & L2 & _ & ->)]; auto; lia.
Qed.
Theorem C46_extent_unique : forall lines p t e t' e', Extent lines p t e -> Extent lines p t' e' -> t = t' /\ e = e'.
Proof.
  intros lines p t e t' e' (sp & def & m & A & Pd & T & C & B) (sp' & def' & m' & A' & Pd' & T' & C' & B'). split; [eapply C93_top_unique; eauto|].
  rewrite <- (at_same _ _ _ _ A A') in Pd'. rewrite <- (closed_unique _ _ _ _ C C') in B'. exact (body_unique _ _ _ _ _ _ (private_indent _ _ _ Pd Pd') B B').
Qed.
Print Assumptions C46_extent_unique.

(** ** All methods *)
Lemma removed_pops idxs : forall lines,
  (forall out, Removed idxs lines out -> pops idxs lines = Val out) /\ ((forall out, ~ Removed idxs lines out) -> pops idxs lines = Raise IndexError).
Proof.
  induction idxs as [|i r IH]; intros lines; cbn [pops].
  - split; [intros out H; inversion H; reflexivity|]. intros N. exfalso. apply (N lines). constructor.
  - split.
    + intros out H. inversion H as [|i0 r0 a x b out0 Hi Hr]; subst i0 r0 out0. assert (E : pop (a ++ x :: b)%list i = Val (a ++ b)%list).
      { destruct Hi as [-> | ->]; [apply pop_nat|]. rewrite <- (pop_nat a x b). unfold pop. rewrite py_index_nat by (rewrite app_length; cbn; lia).
        unfold py_index. rewrite app_length. cbn [List.length]. destruct (Z.leb_spec 0 (- Z.of_nat (S (List.length b)))); [lia|]. cbv zeta.
        replace (Z.of_nat (List.length a + S (List.length b)) + - Z.of_nat (S (List.length b)))%Z with (Z.of_nat (List.length a)) by lia.
        destruct (Z.leb_spec 0 (Z.of_nat (List.length a))); [|lia]. now rewrite Nat2Z.id. }
      rewrite E. cbn [andthen]. now apply (proj1 (IH (a ++ b)%list)).
    + intros N. unfold pop at 1. destruct (py_index (List.length lines) i) as [k|] eqn:E; cbn [andthen]; auto.
      assert (S1 : exists a x b, lines = (a ++ x :: b)%list /\ List.length a = k /\ (i = Z.of_nat (List.length a) \/ i = (- Z.of_nat (List.length (x :: b)))%Z)).
      { unfold py_index in E. destruct (Z.leb_spec 0 i).
        - destruct (Nat.ltb_spec (Z.to_nat i) (List.length lines)) as [L|]; [|discriminate]. injection E as <-. apply nth_error_Some in L.
          destruct (nth_error lines (Z.to_nat i)) as [x|] eqn:Ex; [|congruence]. apply nth_error_split in Ex as (a & b & -> & El). exists a, x, b. split; auto. split; auto. left. lia.
        - cbv zeta in E. destruct (Z.leb_spec 0 (Z.of_nat (List.length lines) + i)); [|discriminate]. injection E as <-.
          destruct (nth_error lines (Z.to_nat (Z.of_nat (List.length lines) + i))) as [x|] eqn:Ex; [|apply nth_error_None in Ex; lia].
          apply nth_error_split in Ex as (a & b & -> & El). exists a, x, b. split; auto. split; auto. right. rewrite app_length in *. cbn [List.length] in *. lia. }
      destruct S1 as (a & x & b & -> & El & Hi). assert (Ed : del_nth k (a ++ x :: b) = (a ++ b)%list) by (subst k; clear; induction a; cbn; [reflexivity|now f_equal]).
      rewrite Ed. apply (proj2 (IH (a ++ b)%list)). intros out H. apply (N out). now apply removed_one with (x := x).
Qed.
Lemma private_all all : forall rest idx before, all = (before ++ rest)%list -> List.length before = idx ->
  exists places, Positions starts_private idx rest places /\
  ((exists extents l, Forall2 (fun p x => Extent all p (fst x) (snd x)) places extents /\ private_lines_from idx all rest = Val l /\
      Permutation l (flat_map (fun x => range (fst x) (snd x)) extents)) \/
   (private_lines_from idx all rest = Raise IndexError /\ exists p, In p places /\ forall t e, ~ Extent all p t e)).
Proof.
  induction rest as [|l rest IH]; intros idx before E L; cbn [private_lines_from].
  - exists []. split; [constructor|]. left. exists [], []. split; [constructor|]. split; auto.
  - destruct (IH (S idx) (before ++ [l])%list) as (places & Hp & R); [now rewrite <- app_assoc|rewrite app_length; cbn; lia|].
    destruct (is_private l) eqn:Pr.
    + exists (idx :: places). split; [constructor; auto; now apply is_private_spec|].
      destruct (method_extent all idx l) as [(t & e & a & -> & X & Pa)|[-> X]]; auto.
      { subst all idx. rewrite nth_error_app2, Nat.sub_diag by lia. reflexivity. }
      * cbn [andthen]. destruct R as [(ex & b & F & -> & Pb)|[-> (p & Hin & Nx)]]; cbn [andthen].
        -- left. exists ((t, e) :: ex), (a ++ b)%list. split; [constructor; auto|]. split; auto. cbn [flat_map fst snd]. now apply Permutation_app.
        -- right. split; auto. exists p. split; [now right|auto].
      * right. cbn [andthen]. split; auto. exists idx. split; [now left|auto].
    + exists places. split; auto. constructor; auto. now apply is_private_false.
Qed.

(** Exactly these lines are removed, in this order; if a method has no end, or all lines have an at sign, or a line is removed that is not there any more, it is
    an IndexError. *)
Theorem C46_all_files : forall lines, exists places, Positions starts_private 0 lines places /\
  ((exists p, In p places /\ forall t e, ~ Extent lines p t e) -> remove_all_private_methods lines = Raise IndexError) /\
  (forall extents, Forall2 (fun p x => Extent lines p (fst x) (snd x)) places extents ->
     exists idxs, Permutation idxs (flat_map (fun x => range (fst x) (snd x)) extents) /\ StronglySorted Z.ge idxs /\
       (forall out, Removed idxs lines out -> remove_all_private_methods lines = Val out) /\
       ((forall out, ~ Removed idxs lines out) -> remove_all_private_methods lines = Raise IndexError)).
Proof.
  intros lines. destruct (private_all lines lines 0 []) as (places & Hp & R); auto. exists places. split; auto. unfold remove_all_private_methods. split.
  - intros (p & Hin & N). destruct R as [(ex & l & F & _ & _)|[-> _]]; [|reflexivity]. exfalso. clear Hp. induction F; [destruct Hin|]. destruct Hin as [->|Hin]; [eapply N; eauto|auto].
  - intros extents F. destruct R as [(ex & l & F' & -> & Pl)|[_ (p & Hin & N)]].
    + assert (ex = extents) as ->.
      { clear Hp Pl. revert ex F'. induction F as [|p x ps xs X F IH]; intros ex F'; inversion F'; subst; auto. f_equal; [|auto].
        destruct x as [t e], y as [t' e']. cbn [fst snd] in *. destruct (C46_extent_unique _ _ _ _ _ _ X H1) as [-> ->]. reflexivity. }
      cbn [andthen]. exists (sort_desc l). split; [now rewrite <- sort_desc_perm|]. split; [apply sort_desc_sorted|]. apply removed_pops.
    + exfalso. clear Hp. induction F; [destruct Hin|]. destruct Hin as [->|Hin]; [eapply N; eauto|auto].
Qed.
Print Assumptions C46_all_files.

(** The methods that do not overlap and begin after the beginning of the file are removed with one line each, and nothing else is. *)
Definition apart (x y : Z * Z) : Prop := (snd x <= fst y)%Z.
Lemma kept_app P : forall a b i out out', Kept P i a out -> Kept P (i + List.length a) b out' -> Kept P i (a ++ b) (out ++ out').
Proof.
  induction a as [|x a IH]; intros b i out out' H H'; inversion H; subst; cbn [app List.length] in *.
  - now rewrite Nat.add_0_r in H'.
  - constructor; auto. apply IH; auto. now rewrite Nat.add_succ_comm.
  - apply kept_miss; auto. apply IH; auto. now rewrite Nat.add_succ_comm.
Qed.
Lemma kept_none P : forall a i, (forall k, i <= k < i + List.length a -> ~ P k) -> Kept P i a [].
Proof. induction a as [|x a IH]; intros i H; constructor; cbn [List.length] in H; [apply H; lia|]. apply IH. intros k Hk. apply H. lia. Qed.
Lemma kept_ext P Q : forall a i out, (forall k, i <= k < i + List.length a -> (P k <-> Q k)) -> Kept P i a out -> Kept Q i a out.
Proof.
  induction a as [|x a IH]; intros i out H K; inversion K; subst; cbn [List.length] in H; try constructor; try (apply IH; auto; intros; apply H; lia); try (apply H; auto; lia).
  intros Hq. apply H in Hq; [auto|lia].
Qed.
Lemma range_desc t e : StronglySorted Z.ge (rev (range t e)).
Proof.
  remember (Z.to_nat (e - t)) as n eqn:E. revert e E. induction n as [|n IH]; intros e E; [rewrite range_nil by lia; constructor|].
  rewrite range_snoc by lia. rewrite rev_app_distr. cbn [rev app]. constructor; [apply IH; lia|]. apply Forall_forall. intros x Hx. apply in_rev, range_In in Hx. lia.
Qed.
Lemma ranges_desc extents : StronglySorted apart extents -> Forall (fun x => (fst x < snd x)%Z) extents ->
  StronglySorted Z.ge (rev (flat_map (fun x => range (fst x) (snd x)) extents)).
Proof.
  induction 1 as [|x xs S1 IH F]; intros W; [constructor|]. inversion W as [|? ? Wx Wxs]; subst. cbn [flat_map]. rewrite rev_app_distr.
  specialize (IH Wxs). clear S1. assert (B : Forall (fun k => (snd x <= k)%Z) (flat_map (fun x => range (fst x) (snd x)) xs)).
  { apply Forall_forall. intros k Hk. apply in_flat_map in Hk as (y & Hy & Hk). apply range_In in Hk. rewrite Forall_forall in F. pose proof (F y Hy). unfold apart in *. lia. }
  apply Forall_rev in B. induction (rev (flat_map (fun x => range (fst x) (snd x)) xs)) as [|k ks IH2]; cbn [app]; [apply range_desc|].
  inversion IH; inversion B; subst. constructor; [now apply IH2|]. apply Forall_app. split; auto. apply Forall_forall. intros j Hj. apply in_rev, range_In in Hj. lia.
Qed.
Lemma range_nat a n : range (Z.of_nat a) (Z.of_nat (a + n)) = map Z.of_nat (seq a n).
Proof.
  revert a. induction n as [|n IH]; intros a; [now rewrite range_nil by lia|]. rewrite range_cons by lia. cbn [seq map]. f_equal. rewrite <- IH. f_equal; lia.
Qed.
Lemma kept_front P : forall ls e out, Kept P 0 ls out -> e <= List.length ls -> (forall k, k < e -> P k) ->
  exists back, out = (firstn e ls ++ back)%list /\ Kept P e (skipn e ls) back.
Proof.
  assert (G : forall ls i e out, Kept P i ls out -> e <= List.length ls -> (forall k, i <= k < i + e -> P k) ->
    exists back, out = (firstn e ls ++ back)%list /\ Kept P (i + e) (skipn e ls) back).
  { induction ls as [|l ls IH]; intros i e out K L H; cbn [List.length] in L.
    - replace e with 0 in * by lia. exists out. rewrite Nat.add_0_r. auto.
    - destruct e as [|e]; [exists out; rewrite Nat.add_0_r; auto|]. inversion K; subst; [|exfalso; match goal with N : ~ P i |- _ => apply N end; apply H; lia].
      destruct (IH (S i) e out0) as (back & -> & Kb); auto; try lia; [intros; apply H; lia|]. exists back. cbn [firstn skipn app]. split; auto. now rewrite <- Nat.add_succ_comm. }
  intros ls e out K L H. destruct (G ls 0 e out K L) as (back & E & Kb); [intros; apply H; lia|]. eauto.
Qed.
Lemma ranges_kept lines : forall extents, StronglySorted apart extents -> Forall (fun x => (0 <= fst x < snd x)%Z /\ (snd x <= Z.of_nat (List.length lines))%Z) extents ->
  exists out, pops (rev (flat_map (fun x => range (fst x) (snd x)) extents)) lines = Val out /\
    Kept (fun k => forall x, In x extents -> ~ (fst x <= Z.of_nat k < snd x)%Z) 0 lines out.
Proof.
  induction extents as [|[t e] xs IH]; intros S1 W.
  - exists lines. split; [reflexivity|]. assert (G : forall ls i, Kept (fun k => forall x : Z * Z, In x [] -> ~ (fst x <= Z.of_nat k < snd x)%Z) i ls ls); [|apply G].
    induction ls; intros i; constructor; auto.
  - inversion S1 as [|? ? S2 F]; subst. inversion W as [|? ? [Wx Wl] Wxs]; subst. cbn [fst snd] in *. destruct (IH S2 Wxs) as (out1 & E1 & K1). clear IH.
    cbn [flat_map fst snd]. rewrite rev_app_distr, pops_app, E1. cbn [andthen].
    destruct (kept_front _ _ (Z.to_nat e) _ K1) as (back & -> & Kb); [lia| |].
    { intros k Hk x Hx. rewrite Forall_forall in F. pose proof (F x Hx) as A. unfold apart in A. cbn [snd] in A. lia. }
    set (a := Z.to_nat t). set (n := Z.to_nat (e - t)). assert (Ea : Z.to_nat e = a + n) by lia. rewrite Ea in *.
    assert (El : firstn (a + n) lines = (firstn a lines ++ firstn n (skipn a lines))%list).
    { clear. revert lines. induction a as [|a IH]; intros lines; [reflexivity|]. destruct lines; cbn [Nat.add firstn skipn app]; [now rewrite firstn_nil|]. now rewrite IH. }
    assert (La : List.length (firstn a lines) = a) by (apply firstn_length_le; lia).
    assert (Ln : List.length (firstn n (skipn a lines)) = n) by (apply firstn_length_le; rewrite skipn_length; lia).
    exists (firstn a lines ++ back)%list. split.
    + pose proof (pops_block (firstn n (skipn a lines)) (firstn a lines) back) as B. rewrite La, Ln in B. rewrite El, <- app_assoc. rewrite <- B. f_equal.
      rewrite map_rev. f_equal. rewrite <- range_nat. f_equal; lia.
    + rewrite <- (firstn_skipn (a + n) lines) at 1. rewrite El, <- app_assoc.
      assert (Cond : forall k, (forall x, In x ((t, e) :: xs) -> ~ (fst x <= Z.of_nat k < snd x)%Z) <-> ~ (t <= Z.of_nat k < e)%Z /\ forall x, In x xs -> ~ (fst x <= Z.of_nat k < snd x)%Z).
      { intros k. split; [intros H; split; [apply (H (t, e)); now left|intros x Hx; apply H; now right]|]. intros [H1 H2] x [<-|Hx]; auto. }
      apply kept_app; [|rewrite La; change back with ([] ++ back)%list; apply kept_app].
      * assert (G : forall ls i, i + List.length ls <= a -> Kept (fun k => forall x, In x ((t, e) :: xs) -> ~ (fst x <= Z.of_nat k < snd x)%Z) i ls ls); [|apply G; lia].
        induction ls as [|l ls IH]; intros i Hi; constructor; cbn [List.length] in Hi; [|apply IH; lia]. apply Cond. split; [lia|].
        intros x Hx. rewrite Forall_forall in F. pose proof (F x Hx) as A. unfold apart in A. cbn [snd] in A. lia.
      * apply kept_none. rewrite Ln. intros k Hk H. apply Cond in H as [H _]. apply H. lia.
      * rewrite Ln. cbn [Nat.add]. eapply kept_ext; [|exact Kb]. intros k Hk. split; [|intros H; now apply Cond].
        intros H. apply Cond. split; [lia|exact H].
Qed.
Lemma extent_bounds lines p t e : Extent lines p t e -> (t <= Z.of_nat p < e)%Z /\ (e <= Z.of_nat (List.length lines))%Z.
Proof.
  intros (sp & def & m & _ & _ & (T & _) & (C & _ & x & Ax & _) & b & Hb & _ & F). apply at_nth, line_at_low in Ax. destruct F as [[-> ->]|(l & _ & L & _ & ->)]; lia.
Qed.
Theorem C46_apart_partial : forall lines places extents, Positions starts_private 0 lines places ->
  Forall2 (fun p x => Extent lines p (fst x) (snd x)) places extents -> Forall (fun x => (0 <= fst x)%Z) extents -> StronglySorted apart extents ->
  exists out, remove_all_private_methods lines = Val out /\ Kept (fun k => forall x, In x extents -> ~ (fst x <= Z.of_nat k < snd x)%Z) 0 lines out.
Proof.
  intros lines places extents Hp F N S1. destruct (C46_all_files lines) as (places' & Hp' & _ & A). rewrite (positions_unique _ _ _ _ Hp _ Hp') in F.
  destruct (A extents F) as (idxs & P & S2 & V & _).
  assert (W : Forall (fun x => (0 <= fst x < snd x)%Z /\ (snd x <= Z.of_nat (List.length lines))%Z) extents).
  { apply Forall_forall. intros x Hx. rewrite Forall_forall in N. specialize (N x Hx). clear -F N Hx. induction F as [|p y ps xs X F IH]; [destruct Hx|].
    destruct Hx as [->|Hx]; [|auto]. apply extent_bounds in X. lia. }
  destruct (ranges_kept lines extents S1 W) as (out & E & K). exists out. split; auto.
  assert (idxs = rev (flat_map (fun x => range (fst x) (snd x)) extents)) as ->.
  { apply desc_unique; auto; [|now rewrite <- Permutation_rev]. apply ranges_desc; auto. eapply Forall_impl; [|exact W]. cbv beta. intros; lia. }
  destruct (removed_pops (rev (flat_map (fun x => range (fst x) (snd x)) extents)) lines) as [_ R].
  apply V. clear -E. revert E. generalize (rev (flat_map (fun x => range (fst x) (snd x)) extents)). intros l. revert lines.
  induction l as [|i r IH]; intros lines E; cbn [pops] in E; [injection E as <-; constructor|].
  destruct (pop lines i) as [l1| |] eqn:Ep; cbn [andthen] in E; try discriminate. apply IH in E. unfold pop in Ep. destruct (py_index (List.length lines) i) as [k|] eqn:Ek; [|discriminate].
  injection Ep as <-. destruct (nth_error lines k) as [x|] eqn:Ex.
  - assert (Lk : (k = Z.to_nat i /\ 0 <= i)%Z \/ (i < 0 /\ Z.of_nat k = Z.of_nat (List.length lines) + i)%Z).
    { unfold py_index in Ek. destruct (Z.leb_spec 0 i); [destruct (Nat.ltb _ _); [injection Ek as <-; left; lia|discriminate]|]. cbv zeta in Ek.
      destruct (Z.leb_spec 0 (Z.of_nat (List.length lines) + i)); [|discriminate]. injection Ek as <-. right. lia. }
    apply nth_error_split in Ex as (a & b & -> & El). assert (Ed : del_nth k (a ++ x :: b) = (a ++ b)%list) by (subst k; clear; induction a; cbn; [reflexivity|now f_equal]).
    rewrite Ed in E. apply removed_one; auto. rewrite app_length in Lk. cbn [List.length] in *. lia.
  - apply nth_error_None in Ex. unfold py_index in Ek. destruct (Z.leb_spec 0 i); [destruct (Nat.ltb_spec (Z.to_nat i) (List.length lines)); [injection Ek as <-; lia|discriminate]|].
    cbv zeta in Ek. destruct (Z.leb_spec 0 (Z.of_nat (List.length lines) + i)); [|discriminate]. injection Ek as <-. lia.
Qed.
Print Assumptions C46_apart_partial.

(** Witnesses: a private function inside another one; a method whose signature has no end. *)
Theorem C46_nested_refuted : exists lines, remove_all_private_methods lines = Raise IndexError /\ lines = ["def _a():"; "    def _b(): ..."].
Proof. eexists. split; [|reflexivity]. vm_compute. reflexivity. Qed.
Print Assumptions C46_nested_refuted.
Example C46_apart_example : exists extents,
  Positions starts_private 0 ["class A:"; "    @final"; "    def _a("; "    ) -> int:"; "        return 1"; "    x = 1"; "    def b(self): ..."; "    def _c(self) -> int: ..."] [2; 7] /\
  Forall2 (fun p x => Extent ["class A:"; "    @final"; "    def _a("; "    ) -> int:"; "        return 1"; "    x = 1"; "    def b(self): ..."; "    def _c(self) -> int: ..."] p (fst x) (snd x)) [2; 7] extents /\
  Forall (fun x => (0 <= fst x)%Z) extents /\ StronglySorted apart extents /\ extents = [(1, 6); (7, 8)]%Z /\
  remove_all_private_methods ["class A:"; "    @final"; "    def _a("; "    ) -> int:"; "        return 1"; "    x = 1"; "    def b(self): ..."; "    def _c(self) -> int: ..."] =
    Val ["class A:"; "    def b(self): ..."].
Proof.
  set (lines := ["class A:"; "    @final"; "    def _a("; "    ) -> int:"; "        return 1"; "    x = 1"; "    def b(self): ..."; "    def _c(self) -> int: ..."]).
  assert (Priv : forall i l, nth_error lines i = Some l -> is_private l = true -> exists t e r, lines_of_private lines i l = Val r /\ Extent lines i t e /\ Permutation r (range t e)).
  { intros i l N P. destruct (method_extent lines i l N P) as [X|[X _]]; auto. do 8 (destruct i as [|i]; [injection N as <-; vm_compute in X; discriminate|]). destruct i; discriminate. }
  assert (X2 : Extent lines 2 1 6).
  { destruct (Priv 2 "    def _a(" eq_refl eq_refl) as (t & e & r & E & X & P). vm_compute in E. injection E as <-. pose proof (extent_bounds _ _ _ _ X) as B. cbn [lines List.length] in B.
    assert (Lr := Permutation_length P). unfold range in Lr. rewrite map_length, seq_length in Lr. cbn [List.length] in Lr.
    assert (I1 : In 1%Z (range t e)) by (rewrite <- P; cbn; auto). assert (I5 : In 5%Z (range t e)) by (rewrite <- P; cbn; auto 6). apply range_In in I1, I5.
    assert (t = 1 /\ e = 6)%Z as [-> ->] by lia. exact X. }
  assert (X7 : Extent lines 7 7 8).
  { destruct (Priv 7 "    def _c(self) -> int: ..." eq_refl eq_refl) as (t & e & r & E & X & P). vm_compute in E. injection E as <-. pose proof (extent_bounds _ _ _ _ X) as B. cbn [lines List.length] in B.
    assert (Lr := Permutation_length P). unfold range in Lr. rewrite map_length, seq_length in Lr. cbn [List.length] in Lr.
    assert (t = 7 /\ e = 8)%Z as [-> ->] by lia. exact X. }
  exists [(1, 6); (7, 8)]%Z. split.
  - unfold lines. repeat (first [apply positions_nil | apply positions_miss; [apply is_private_false; vm_compute; reflexivity|] | apply positions_hit; [apply is_private_spec; vm_compute; reflexivity|]]).
  - split; [constructor; [exact X2|constructor; [exact X7|constructor]]|]. split; [repeat constructor; cbn; lia|]. split; [|split; [reflexivity|vm_compute; reflexivity]].
    constructor; [constructor; [constructor|constructor]|]. constructor; [unfold apart; cbn; lia|constructor].
Qed.

(** ** C44 *)
Lemma empty_label_search lines idx : search_assignment_from idx "" lines = Raise ValueError \/ search_assignment_from idx "" lines = Val [].
Proof.
  revert idx. induction lines as [|l lines IH]; intros idx; cbn [search_assignment_from]; auto. unfold assigns. unfold it_is_string, before.
  destruct (contains "" l && contains "=" l); cbn [andthen]; auto.
Qed.
Lemma split_of l : In equals_sign (chars l) -> exists p, SplitAtLast l p (last_field l) /\ forall v, with_value l v = p ++ "=" ++ v.
Proof.
  intros H. apply contains_eq in H. destruct (with_value_spec l "" H) as (p & old & S1 & E & _). rewrite E. exists p. split; auto. intros v.
  destruct (with_value_spec l v H) as (p' & old' & S2 & _ & ->). destruct (split_at_last_unique _ _ _ _ _ S1 S2) as [-> _]. reflexivity.
Qed.
Theorem C44_search_all : forall label lines,
  (label <> "" ->
     ((exists l, In l lines /\ Unassigned label l) -> search_assignment label lines = Raise IndexError) /\
     (~ (exists l, In l lines /\ Unassigned label l) -> exists found, Assigned label 0 lines found /\ search_assignment label lines = Val found)) /\
  (label = "" ->
     ((exists l, In l lines /\ In equals_sign (chars l)) -> search_assignment label lines = Raise ValueError) /\
     (~ (exists l, In l lines /\ In equals_sign (chars l)) -> search_assignment label lines = Val [])).
Proof.
  intros label lines. unfold search_assignment. generalize 0 as idx. split.
  - intros NE. revert idx. induction lines as [|l lines IH]; intros idx; cbn [search_assignment_from].
    + split; [intros (l & [] & _)|]. intros _. exists []. split; [constructor|reflexivity].
    + destruct (IH (S idx)) as [R V]. destruct (assigns_spec label l NE) as (b & -> & Hb). cbn [andthen]. destruct b.
      * assert (M : Mentions label l) by now apply Hb. destruct (split_of l (proj1 M)) as (p & Sp & _).
        assert (C : contains "=" l = true) by (apply contains_eq, M). destruct (assigned_value_spec l C) as [[B ->]|(w & -> & Cw)]; cbn [andthen].
        -- split; [reflexivity|]. intros N. exfalso. apply N. exists l. split; [now left|]. split; auto. eauto.
        -- split.
           ++ intros (l' & [<-|H] & U); [|rewrite R; [reflexivity|eauto]]. exfalso. destruct U as (_ & p' & v' & Sp' & B').
              destruct (split_at_last_unique _ _ _ _ _ Sp Sp') as [_ E]. rewrite <- E in B'. unfold blank in B'. clear -Cw B'.
              assert (X : exists c, In c (chars (last_field l)) /\ ~ white c).
              { assert (Q : forall c, quote_mark c -> ~ white c) by (intros c Q W; unfold quote_mark, white in *; cbn [In] in W; lia).
                destruct Cw as [a c w b _ _ Nc _ _|a c w d b _ _ Qc _|a c b _ _ Qc]; exists c; rewrite DeclarationFacts.chars_app; (split; [apply in_or_app; right; now left|auto]). }
              destruct X as (c & Hc & Nc). apply Nc. rewrite Forall_forall in B'. auto.
           ++ intros N. destruct V as (found & A & ->). { intros (l' & H & U). apply N. exists l'. split; [now right|auto]. }
              cbn [andthen]. exists ((idx, w) :: found). split; auto. eapply assigned_hit; eauto.
      * assert (NM : ~ Mentions label l) by (intros M; apply Hb in M; discriminate). split.
        -- intros (l' & [<-|H] & U); [exfalso; apply NM, U|]. apply R. eauto.
        -- intros N. destruct V as (found & A & ->). { intros (l' & H & U). apply N. exists l'. split; [now right|auto]. }
           exists found. split; auto. now apply assigned_miss.
  - intros ->. revert idx. induction lines as [|l lines IH]; intros idx; cbn [search_assignment_from]; [split; [intros (l & [] & _)|reflexivity]|].
    destruct (IH (S idx)) as [R V]. unfold assigns. replace (contains "" l) with true by (destruct l; reflexivity). cbn [andb].
    destruct (contains "=" l) eqn:C; cbn [andthen it_is_string before].
    + split; [reflexivity|]. intros N. exfalso. apply N. exists l. split; [now left|]. now apply contains_eq.
    + assert (NE : ~ In equals_sign (chars l)) by (intros H; apply contains_eq in H; congruence). split.
      * intros (l' & [<-|H] & U); [contradiction|]. apply R. eauto.
      * intros N. apply V. intros (l' & H & U). apply N. exists l'. split; [now right|auto].
Qed.
Print Assumptions C44_search_all.

Theorem C44_all_files : forall label v lines,
  (label = "" -> replace_assignment label v lines = Raise ValueError) /\
  (label <> "" -> (exists l, In l lines /\ Unassigned label l) -> replace_assignment label v lines = Raise IndexError) /\
  (label <> "" -> ~ (exists l, In l lines /\ Unassigned label l) ->
     (forall a line b p old, lines = (a ++ line :: b)%list -> Mentions label line -> Forall (fun l => ~ Mentions label l) (a ++ b) -> SplitAtLast line p old ->
        replace_assignment label v lines = Val (a ++ (p ++ "=" ++ v)%string :: b)%list) /\
     (Forall (fun l => ~ Mentions label l) lines -> replace_assignment label v lines = Raise ValueError) /\
     (forall a l1 b l2 c, lines = (a ++ l1 :: b ++ l2 :: c)%list -> Mentions label l1 -> Mentions label l2 -> replace_assignment label v lines = Raise ValueError)).
Proof.
  intros label v lines. destruct (C44_search_all label lines) as [A B]. split; [|split].
  - intros ->. unfold replace_assignment. destruct (B eq_refl) as [R V]. unfold search_assignment in *. destruct (empty_label_search lines 0) as [-> | ->]; reflexivity.
  - intros NE U. unfold replace_assignment. destruct (A NE) as [-> _]; auto.
  - intros NE U. split; [|split].
    + intros a line b p old -> M F Sp. destruct (split_of line (proj1 M)) as (p' & Sp' & Ew). destruct (split_at_last_unique _ _ _ _ _ Sp Sp') as [-> _]. rewrite <- Ew.
      assert (C : contains "=" line = true) by (apply contains_eq, M). apply Forall_app in F as [Fa Fb].
      destruct (assigned_value_spec line C) as [[Bl _]|(w & Ev & _)].
      * exfalso. apply U. exists line. split; [apply in_or_app; right; now left|]. split; auto. eauto.
      * apply replace_assignment_one with (w := w); auto; [| |now apply assigns_true]; (eapply Forall_impl; [|eassumption]; intros l Hm; now apply assigns_false).
    + intros F. now apply (proj1 (C44_refuses_partial label v lines NE)).
    + intros a l1 b l2 c E M1 M2. apply (proj2 (C44_refuses_partial label v lines NE) a l1 b l2 c); auto. intros l p old Hl M Sp Bl. apply U. exists l. split; auto. split; auto. eauto.
Qed.
Print Assumptions C44_all_files.
Example C44_all_example : Assigned "x" 0 ["x = 1"; "y = 2"; "print('x = 3')"; "self.x: str = 'a' "] [(0, "1"); (3, "a")] /\
  search_assignment "x" ["x = 1"; "y = 2"; "print('x = 3')"; "self.x: str = 'a' "] = Val [(0, "1"); (3, "a")] /\
  Unassigned "x" "x =" /\ replace_assignment "x" "2" ["x ="] = Raise IndexError /\ replace_assignment "y" "3" ["x = 1"; "a = y = 2"] = Val ["x = 1"; "a = y =3"].
Proof.
  assert (E : search_assignment "x" ["x = 1"; "y = 2"; "print('x = 3')"; "self.x: str = 'a' "] = Val [(0, "1"); (3, "a")]) by (vm_compute; reflexivity).
  split; [|split; [exact E|]].
  - destruct (C44_search_all "x" ["x = 1"; "y = 2"; "print('x = 3')"; "self.x: str = 'a' "]) as [A _]. destruct A as [R V]; [discriminate|].
    destruct V as (found & A & E').
    + intros H. apply R in H. rewrite E in H. discriminate.
    + rewrite E in E'. injection E' as <-. exact A.
  - split; [|split; vm_compute; reflexivity]. split.
    + split; [cbn; auto|]. exists "", " =". split; [reflexivity|constructor].
    + exists "x ", "". split; [split; [reflexivity|intros []]|constructor].
Qed.
