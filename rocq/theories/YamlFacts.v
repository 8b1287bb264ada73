(** Facts about the model of the YAML file modifier. *)
From Coq Require Import Ascii String List Bool Arith ZArith Lia.
From Verif Require Import PyStr PyStrFacts Exc Yaml SpecNames SpecText SpecImports NamesFacts DocstringFacts SpecYaml.
Import ListNotations.
Local Open Scope string_scope.
Local Open Scope nat_scope.

(** ** Strings *)
Lemma lstrip_by_spec p s :
  exists a, s = a ++ lstrip_by p s /\ str_forall p a = true /\
  (lstrip_by p s = "" \/ exists c r, lstrip_by p s = String c r /\ p c = false).
Proof.
  induction s as [|c s IH]; simpl.
  - exists "". auto.
  - destruct (p c) eqn:E.
    + destruct IH as (a & H1 & H2 & H3). exists (String c a). simpl. rewrite E. split; [congruence|auto].
    + exists "". split; [auto|split; [auto|]]. right. eauto.
Qed.
Lemma rstrip_by_app p s : exists b, s = rstrip_by p s ++ b /\ str_forall p b = true.
Proof.
  induction s as [|c s IH]; simpl; [exists ""; auto|].
  destruct IH as (b & H1 & H2). destruct (rstrip_by p s) as [|d t] eqn:E.
  - simpl in H1. subst b. destruct (p c) eqn:Ec.
    + exists (String c s). simpl. now rewrite Ec.
    + exists s. auto.
  - exists b. split; [|auto]. simpl. simpl in H1. congruence.
Qed.
Lemma strip_by_spec p s : exists a b, s = a ++ strip_by p s ++ b /\ str_forall p a = true /\ str_forall p b = true.
Proof.
  unfold strip_by. destruct (lstrip_by_spec p s) as (a & H1 & H2 & _).
  destruct (rstrip_by_app p (lstrip_by p s)) as (b & H3 & H4).
  exists a, b. split; [congruence|auto].
Qed.
Lemma rstrip_head p c r : p c = false -> exists r', rstrip_by p (String c r) = String c r'.
Proof. intros E. simpl. destruct (rstrip_by p r); [rewrite E|]; eauto. Qed.
Lemma strip_by_head p s c r : strip_by p s = String c r ->
  exists a t, s = a ++ String c t /\ str_forall p a = true /\ p c = false.
Proof.
  unfold strip_by. destruct (lstrip_by_spec p s) as (a & H1 & H2 & [H3|(d & t & H3 & H4)]); rewrite H3 in *.
  - simpl. discriminate.
  - destruct (rstrip_head p d t H4) as (r' & ->). intros E. injection E as -> _. eauto.
Qed.
Lemma strip_by_all p s : strip_by p s = "" -> str_forall p s = true.
Proof.
  intros H. destruct (strip_by_spec p s) as (a & b & E & Ha & Hb). rewrite H in E. simpl in E.
  now rewrite E, str_forall_app, Ha, Hb.
Qed.

Lemma str_nth_app a c b : str_nth (a ++ String c b) (String.length a) = Some c.
Proof. induction a; simpl; auto. Qed.
Lemma str_nth_Some s i c : str_nth s i = Some c -> exists a b, s = a ++ String c b /\ String.length a = i.
Proof.
  revert i; induction s as [|d s IH]; intros i; [destruct i; discriminate|].
  destruct i as [|i]; simpl.
  - intros E. injection E as ->. exists "", s. auto.
  - intros E. destruct (IH _ E) as (a & b & -> & <-). exists (String d a), b. auto.
Qed.
Lemma str_nth_None s i : str_nth s i = None <-> String.length s <= i.
Proof.
  revert i; induction s as [|d s IH]; intros i; simpl.
  - split; [lia|destruct i; auto].
  - destruct i as [|i]; [split; [discriminate|lia]|]. rewrite IH. lia.
Qed.

Lemma find_char_app c a b : str_forall (fun d => negb (Ascii.eqb c d)) a = true ->
  find_str (String c "") (a ++ String c b) = Some (String.length a).
Proof.
  induction a as [|d a IH]; intros H.
  - simpl. rewrite Ascii.eqb_refl. reflexivity.
  - simpl in H. apply andb_true_iff in H as [H1 H2]. apply negb_true_iff in H1.
    cbn [String.append find_str]. simpl startswith. rewrite H1. cbn [andb]. now rewrite (IH H2).
Qed.

Lemma str_forall_not p c a : str_forall p a = true -> p c = false -> str_forall (fun d => negb (Ascii.eqb c d)) a = true.
Proof.
  intros H Hc. eapply str_forall_impl; [|exact H]. intros d Hd. apply negb_true_iff, Ascii.eqb_neq. congruence.
Qed.

Lemma str_repeat_length n s : String.length (str_repeat n s) = n * String.length s.
Proof. induction n; simpl; auto. rewrite length_app_s. lia. Qed.

(** ** Quote-aware search *)
Fixpoint parity (s : string) : bool :=
  match s with "" => false | String c r => xorb (is_quote c) (parity r) end.
Lemma parity_app a b : parity (a ++ b) = xorb (parity a) (parity b).
Proof. induction a; simpl; [now destruct (parity b)|]. rewrite IHa. now rewrite xorb_assoc. Qed.

Lemma find_unquoted_aux_Some occ q i line j :
  is_quote occ = false ->
  find_unquoted_aux occ q i line = Some j ->
  exists a b, line = a ++ String occ b /\ j = i + String.length a /\ xorb q (parity a) = false /\
  forall a' b', line = a' ++ String occ b' -> xorb q (parity a') = false -> String.length a <= String.length a'.
Proof.
  intros Ho. revert q i; induction line as [|c line IH]; intros q i; simpl; [discriminate|].
  destruct (is_quote c) eqn:E.
  - intros H. destruct (IH _ _ H) as (a & b & -> & -> & H3 & H4). exists (String c a), b.
    simpl. split; [auto|split; [lia|]]. rewrite E. split; [destruct q, (parity a); auto|].
    intros [|d a'] b' H5 H6; simpl in *; [injection H5 as -> _; congruence|].
    injection H5 as <- H5. rewrite E in H6. apply le_n_S, (H4 a' b'); auto. destruct q, (parity a'); auto.
  - destruct (Ascii.eqb c occ) eqn:Ec; simpl.
    + apply Ascii.eqb_eq in Ec. subst c. destruct q; simpl.
      * intros H. destruct (IH _ _ H) as (a & b & -> & -> & H3 & H4). exists (String occ a), b.
        simpl. rewrite E. split; [auto|split; [lia|split; [destruct (parity a); auto|]]].
        intros [|d a'] b' H5 H6; simpl in *; [discriminate|].
        injection H5 as <- H5. rewrite E in H6. apply le_n_S, (H4 a' b'); auto. destruct (parity a'); auto.
      * intros H. injection H as <-. exists "", line. simpl. split; [auto|split; [lia|split; [auto|]]]. intros; lia.
    + intros H. destruct (IH _ _ H) as (a & b & -> & -> & H3 & H4). exists (String c a), b.
      simpl. rewrite E. split; [auto|split; [lia|]]. split; [destruct q, (parity a); auto|].
      intros [|d a'] b' H5 H6; simpl in *.
      * injection H5 as -> _. rewrite Ascii.eqb_refl in Ec. discriminate.
      * injection H5 as <- H5. rewrite E in H6. apply le_n_S, (H4 a' b'); auto. destruct q, (parity a'); auto.
Qed.
Lemma find_unquoted_aux_None occ q i line :
  is_quote occ = false ->
  find_unquoted_aux occ q i line = None ->
  forall a b, line = a ++ String occ b -> xorb q (parity a) = true.
Proof.
  intros Ho. revert q i; induction line as [|c line IH]; intros q i H a b E; simpl in *; [destruct a; discriminate|].
  destruct a as [|d a]; simpl in *.
  - injection E as -> ->. rewrite Ho, Ascii.eqb_refl in H. destruct q; [reflexivity|]. simpl in H. discriminate.
  - injection E as <- ->. destruct (is_quote c) eqn:Ec.
    + specialize (IH _ _ H _ _ eq_refl). destruct q, (parity a); auto.
    + destruct (Ascii.eqb c occ && negb q) eqn:Eb; [discriminate|]. specialize (IH _ _ H _ _ eq_refl).
      destruct q, (parity a); auto.
Qed.

Lemma is_quote_spec c : is_quote c = true <-> quote c.
Proof.
  assert (H : Bool.eqb (is_quote c) (Nat.eqb (code c) 39 || Nat.eqb (code c) 34) = true) by by_chars c.
  apply eqb_prop in H. rewrite H, orb_true_iff, !Nat.eqb_eq. reflexivity.
Qed.

Lemma not_quote c : ~ quote c -> is_quote c = false.
Proof. intros H. destruct (is_quote c) eqn:E; auto. apply is_quote_spec in E. contradiction. Qed.

Lemma chars_app a b : chars (a ++ b) = (chars a ++ chars b)%list.
Proof. induction a; simpl; congruence. Qed.

Lemma parity_plain w : (forall c, In c (chars w) -> ~ quote c) -> parity w = false.
Proof.
  induction w as [|c w IH]; intros H; simpl; auto. rewrite (not_quote c) by (apply H; simpl; auto).
  rewrite IH; auto. intros d Hd. apply H. simpl; auto.
Qed.

(** A string up to its first quote. *)
Lemma first_quote s : (forall c, In c (chars s) -> ~ quote c) \/
  exists w q r, s = w ++ String q r /\ quote q /\ forall c, In c (chars w) -> ~ quote c.
Proof.
  induction s as [|c s IH]; [left; intros c []|]. destruct (is_quote c) eqn:E.
  - apply is_quote_spec in E. right. exists "", c, s. split; [reflexivity|split; [exact E|intros d []]].
  - assert (N : ~ quote c) by (intros Q; apply is_quote_spec in Q; congruence).
    destruct IH as [IH|(w & q & r & -> & Q & W)].
    + left. intros d [<-|Hd]; auto.
    + right. exists (String c w), q, r. repeat split; auto. intros d [<-|Hd]; auto.
Qed.
Lemma plain_cut : forall w w' p q r r', w ++ String p r = w' ++ String q r' -> quote p -> quote q ->
  (forall c, In c (chars w) -> ~ quote c) -> (forall c, In c (chars w') -> ~ quote c) -> w = w' /\ p = q /\ r = r'.
Proof.
  induction w as [|c w IH]; intros [|d w'] p q r r' E P Q W W'; simpl in E.
  - injection E as -> ->. auto.
  - injection E as -> E. exfalso. apply (W' d); simpl; auto.
  - injection E as -> E. exfalso. apply (W q); simpl; auto.
  - injection E as -> E. destruct (IH w' p q r r' E P Q) as (-> & -> & ->); auto.
    + intros x Hx. apply W. simpl; auto.
    + intros x Hx. apply W'. simpl; auto.
Qed.

Lemma even_parity a : even_quotes a <-> parity a = false.
Proof.
  split.
  - induction 1 as [|c r N _ IH|p w q r P Q W _ IH]; simpl; auto.
    + now rewrite (not_quote c), IH.
    + apply is_quote_spec in P, Q. rewrite P, parity_app, (parity_plain w W). simpl. now rewrite Q, IH.
  - assert (G : forall n a, String.length a <= n -> parity a = false -> even_quotes a); [|apply (G (String.length a)); auto].
    induction n as [|n IH]; intros [|c b] L H; try exact even_nil; try (simpl in L; lia).
    simpl in H, L. destruct (is_quote c) eqn:E.
    + apply is_quote_spec in E. destruct (first_quote b) as [W|(w & q & r & -> & Q & W)].
      * rewrite (parity_plain b W) in H. discriminate.
      * apply even_pair; auto. rewrite length_app_s in L. simpl in L. apply IH; [lia|].
        rewrite parity_app, (parity_plain w W) in H. simpl in H. apply is_quote_spec in Q. rewrite Q in H. destruct (parity r); auto.
    + apply even_plain; [intros Q; apply is_quote_spec in Q; congruence|]. apply IH; [lia|]. destruct (parity b); auto.
Qed.

Lemma simple_prefix l : simple_quotes l -> forall a b, l = a ++ b -> simple_quotes a.
Proof.
  assert (PW : forall a b (w : string), w = a ++ b -> (forall c, In c (chars w) -> ~ quote c) -> forall c, In c (chars a) -> ~ quote c).
  { intros a b w -> W c Hc. apply W. rewrite chars_app, in_app_iff. auto. }
  assert (CUT : forall w a b p (r : string), w ++ String p r = a ++ b -> (exists x, w = a ++ x) \/ exists a', a = w ++ String p a' /\ r = a' ++ b).
  { induction w as [|c w IH]; intros [|d a] b p r E; simpl in E.
    - left. exists "". reflexivity.
    - injection E as -> ->. right. exists a. auto.
    - left. exists (String c w). reflexivity.
    - injection E as -> E. destruct (IH a b p r E) as [(x & ->)|(a' & -> & ->)]; [left; exists x|right; exists a']; auto. }
  induction 1 as [|c r N H IH|q w r Q W H IH|q w Q W]; intros [|d a] b E; try (simpl in E; discriminate); try exact simple_nil; simpl in E; injection E as -> E.
  - apply simple_plain; eauto.
  - destruct (CUT _ _ _ _ _ E) as [(x & ->)|(a' & -> & ->)].
    + apply simple_open; [exact Q|]. exact (PW a x _ eq_refl W).
    + apply simple_scalar; [exact Q|exact W|]. exact (IH a' b eq_refl).
  - apply simple_open; [exact Q|]. exact (PW a b w E W).
Qed.

Lemma simple_parity a : simple_quotes a -> (outside a <-> parity a = false).
Proof.
  intros K. split.
  - intros H. induction H as [|c r Hc H IH|q w r Hq Hw H IH]; simpl; auto.
    + rewrite (not_quote c Hc), IH; auto. inversion K; subst; auto; contradiction.
    + assert (P : (forall c, In c (chars w) -> ~ quote c) /\ simple_quotes r).
      { remember (String q (w ++ String q r)) as l eqn:E. destruct K as [|c r' N K|q' w' r' Q' W' K|q' w' Q' W'].
        - discriminate.
        - injection E as -> _. contradiction.
        - injection E as -> E. assert (C : w = w' /\ r = r'); [|destruct C as [-> ->]; auto].
          clear -E W' Hw Hq. revert w' E W'. induction w as [|c w IH]; intros [|d w'] E W'; simpl in E.
          + now injection E as ->.
          + injection E as -> E. exfalso. apply (W' q); simpl; auto.
          + injection E as -> E. exfalso. apply Hw. simpl; auto.
          + injection E as -> E. destruct (IH (fun x => Hw (or_intror x)) w' E) as [-> ->]; auto.
            intros x Hx. apply W'. simpl; auto.
        - injection E as -> E. exfalso. apply (W' q); auto. rewrite E, chars_app, in_app_iff. simpl. auto. }
      destruct P as [W Kr]. apply is_quote_spec in Hq. rewrite Hq, parity_app, (parity_plain w W). simpl. now rewrite Hq, IH.
  - induction K as [|c r N K IH|q w r Q W K IH|q w Q W]; simpl; intros H.
    + constructor.
    + constructor; auto. apply IH. rewrite (not_quote c N) in H. destruct (parity r); auto.
    + constructor; auto; [intros C; exact (W q C Q)|]. apply IH. apply is_quote_spec in Q. rewrite Q, parity_app, (parity_plain w W) in H.
      simpl in H. rewrite Q in H. destruct (parity r); auto.
    + apply is_quote_spec in Q. rewrite Q, (parity_plain w W) in H. discriminate.
Qed.

(** Lines in which at most one of the two quote characters occurs are simple. *)
Lemma one_kind_simple line : (forall c d, In c (chars line) -> In d (chars line) -> quote c -> quote d -> c = d) -> simple_quotes line.
Proof.
  assert (G : forall n l, String.length l <= n ->
    (forall c d, In c (chars l) -> In d (chars l) -> quote c -> quote d -> c = d) -> simple_quotes l); [|apply (G (String.length line)); auto].
  induction n as [|n IH]; intros [|c l] L K; try exact simple_nil; try (simpl in L; lia).
  simpl in L. destruct (is_quote c) eqn:E.
  - apply is_quote_spec in E. destruct (first_quote l) as [W|(w & q & r & -> & Q & W)]; [now apply simple_open|].
    assert (q = c); [apply K; auto; simpl; auto; rewrite chars_app, in_app_iff; simpl; auto|subst q].
    apply simple_scalar; auto. rewrite length_app_s in L. simpl in L. apply IH; [lia|].
    intros x y Hx Hy. apply K; simpl; right; rewrite chars_app, in_app_iff; simpl; auto.
  - apply simple_plain; [intros Q; apply is_quote_spec in Q; congruence|]. apply IH; [lia|].
    intros x y Hx Hy. apply K; simpl; auto.
Qed.

(** The search for all lines, and what it means where quotes are simple. *)
Lemma find_unquoted_exact occ line : ~ quote occ ->
  (forall i, find_unquoted occ line = Some i <-> first_even occ line i) /\
  (find_unquoted occ line = None <-> forall a b, line = a ++ String occ b -> ~ even_quotes a).
Proof.
  intros Ho. apply not_quote in Ho.
  assert (S1 : forall i, find_unquoted occ line = Some i -> first_even occ line i).
  { intros i H. destruct (find_unquoted_aux_Some _ _ _ _ _ Ho H) as (a & b & E & -> & H2 & H3).
    exists a, b. split; [auto|split; [auto|split]].
    - apply even_parity. destruct (parity a); auto.
    - intros a' b' E' Q. apply (H3 a' b'); auto. apply even_parity in Q. now rewrite Q. }
  assert (N1 : find_unquoted occ line = None -> forall a b, line = a ++ String occ b -> ~ even_quotes a).
  { intros H a b E Q. apply even_parity in Q.
    pose proof (find_unquoted_aux_None _ _ _ _ Ho H _ _ E) as P. rewrite Q in P. discriminate. }
  split.
  - intros i. split; [apply S1|]. intros (a & b & E & L & Q & M).
    destruct (find_unquoted occ line) as [j|] eqn:F.
    + destruct (S1 j eq_refl) as (a2 & b2 & E2 & L2 & Q2 & M2).
      specialize (M _ _ E2 Q2). specialize (M2 _ _ E Q). f_equal. lia.
    + exfalso. exact (N1 eq_refl _ _ E Q).
  - split; [apply N1|]. intros H. destruct (find_unquoted occ line) as [j|] eqn:F; auto.
    destruct (S1 j eq_refl) as (a2 & b2 & E2 & L2 & Q2 & M2). exfalso. exact (H _ _ E2 Q2).
Qed.
Lemma simple_even line : simple_quotes line -> forall a b, line = a ++ b -> (even_quotes a <-> outside a).
Proof. intros K a b E. rewrite even_parity. symmetry. apply simple_parity. eapply simple_prefix; eauto. Qed.
Lemma simple_first line : simple_quotes line -> forall c i, first_even c line i <-> first_outside c line i.
Proof.
  intros K c i. pose proof (simple_even line K) as E.
  split; intros (a & b & L & Li & P & M); exists a, b; (split; [exact L|split; [exact Li|split; [apply (E a (String c b) L); exact P|]]]);
    intros a' b' L' P'; apply (M a' b' L'), (E a' (String c b') L'), P'.
Qed.
Lemma find_unquoted_simple occ line : ~ quote occ -> simple_quotes line ->
  (forall i, find_unquoted occ line = Some i <-> first_outside occ line i) /\
  (find_unquoted occ line = None <-> forall a b, line = a ++ String occ b -> ~ outside a).
Proof.
  intros Ho K. destruct (find_unquoted_exact occ line Ho) as [A B]. split.
  - intros i. rewrite A. now apply simple_first.
  - rewrite B. split; intros H a b L P; apply (H a b L), (simple_even line K a (String occ b) L), P.
Qed.
