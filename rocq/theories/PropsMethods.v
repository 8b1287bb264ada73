(** C93: finding methods, their decorators and their signatures. *)
From Coq Require Import Ascii String List Bool Arith ZArith Lia.
From Verif Require Import DocstringFacts DeclarationFacts PyStr PyStrFacts Exc PyFile SpecNames NamesFacts SpecText SpecPyFile PyFileFacts PyFilePrivate LiveMethods SpecMethods.
Import ListNotations.
Local Open Scope string_scope.
Local Open Scope nat_scope.

Lemma at_nth lines i l : at_index lines i l <-> line_at lines i = Val l.
Proof.
  unfold line_at, py_nth, py_index. split.
  - intros (a & b & -> & [-> | ->]); rewrite app_length; cbn [List.length].
    + destruct (Z.leb_spec 0 (Z.of_nat (List.length a))); [|lia]. rewrite Nat2Z.id. destruct (Nat.ltb_spec (List.length a) (List.length a + S (List.length b))); [|lia].
      rewrite nth_error_app2, Nat.sub_diag by lia. reflexivity.
    + destruct (Z.leb_spec 0 (- Z.of_nat (S (List.length b)))); [lia|]. cbv zeta.
      replace (Z.of_nat (List.length a + S (List.length b)) + - Z.of_nat (S (List.length b)))%Z with (Z.of_nat (List.length a)) by lia.
      destruct (Z.leb_spec 0 (Z.of_nat (List.length a))); [|lia]. rewrite Nat2Z.id, nth_error_app2, Nat.sub_diag by lia. reflexivity.
  - intros H. destruct (Z.leb_spec 0 i).
    + destruct (Nat.ltb_spec (Z.to_nat i) (List.length lines)); [|discriminate]. destruct (nth_error lines (Z.to_nat i)) as [x|] eqn:E; [|discriminate]. injection H as <-.
      apply nth_error_split in E as (a & b & -> & L). exists a, b. split; auto. left. lia.
    + cbv zeta in H. destruct (Z.leb_spec 0 (Z.of_nat (List.length lines) + i)); [|discriminate].
      destruct (nth_error lines _) as [x|] eqn:E; [|discriminate]. injection H as <-. apply nth_error_split in E as (a & b & -> & L). exists a, b. split; auto. right.
      rewrite app_length in *. cbn [List.length] in *. lia.
Qed.
Lemma line_in lines i : (- Z.of_nat (List.length lines) <= i < Z.of_nat (List.length lines))%Z -> exists l, line_at lines i = Val l.
Proof.
  intros H. unfold line_at, py_nth, py_index. destruct (Z.leb_spec 0 i).
  - destruct (Nat.ltb_spec (Z.to_nat i) (List.length lines)); [|lia]. destruct (nth_error lines (Z.to_nat i)) eqn:E; [eexists; reflexivity|]. apply nth_error_None in E. lia.
  - cbv zeta. destruct (Z.leb_spec 0 (Z.of_nat (List.length lines) + i)); [|lia]. destruct (nth_error lines _) eqn:E; [eexists; reflexivity|]. apply nth_error_None in E. lia.
Qed.
Lemma line_out lines i : ~ (- Z.of_nat (List.length lines) <= i < Z.of_nat (List.length lines))%Z -> line_at lines i = Raise IndexError.
Proof.
  intros H. unfold line_at, py_nth, py_index. destruct (Z.leb_spec 0 i).
  - destruct (Nat.ltb_spec (Z.to_nat i) (List.length lines)); [lia|reflexivity].
  - cbv zeta. destruct (Z.leb_spec 0 (Z.of_nat (List.length lines) + i)); [lia|reflexivity].
Qed.
Lemma contains_at l : contains "@" l = true <-> has_at l.
Proof. apply (contains_char_In (ascii_of_nat 64) l). Qed.
Lemma stop_spec l : contains ")" l || contains ":" l = true <-> stops l.
Proof. rewrite orb_true_iff. unfold stops. rewrite <- (contains_char_In (ascii_of_nat 41) l), <- (contains_char_In (ascii_of_nat 58) l). reflexivity. Qed.

(** ** Lines that define the method *)
Lemma strip_starts p line : (exists u c, p = u ++ String c "" /\ ~ white c) -> (exists c r, p = String c r /\ ~ white c) ->
  startswith p (strip line) = true <-> exists sp r, line = sp ++ p ++ r /\ blank sp.
Proof.
  intros (u & c & Eu & Hc) (d & q & Ed & Hd). rewrite startswith_spec. split.
  - intros (r & E). destruct (YamlFacts.strip_by_spec is_space line) as (a & b & El & Ha & _). exists a, (r ++ b). split; [|now apply blank_spec].
    rewrite El at 1. change (strip_by is_space line) with (strip line). rewrite E, !app_assoc_s. reflexivity.
  - intros (sp & r & -> & B). unfold strip, strip_by. change (lstrip_by is_space) with lstrip.
    assert (Es : lstrip (sp ++ p ++ r) = p ++ r) by (rewrite Ed; cbn [append]; now apply lstrip_blank). rewrite Es, Eu, app_assoc_s. cbn [append].
    assert (G : forall x y, exists z, rstrip_by is_space (x ++ String c y) = x ++ String c z).
    { assert (Nc : is_space c = false) by (destruct (is_space c) eqn:E; auto; apply is_space_white in E; contradiction).
      intros x y. induction x as [|e x (z & IH)]; cbn [append rstrip_by].
      - destruct (rstrip_by is_space y) as [|f t]; [rewrite Nc; exists ""; reflexivity|]. eexists; reflexivity.
      - rewrite IH. destruct (x ++ String c z) eqn:Ex; [destruct x; discriminate|]. exists z. cbn [append]. now rewrite Ex. }
    destruct (G u r) as (z & ->). exists z. rewrite app_assoc_s. reflexivity.
Qed.
Lemma find_before sub : forall line i, find_str sub line = Some i -> exists x y, line = x ++ sub ++ y /\ take i line = x /\ forall x' y', line = x' ++ sub ++ y' -> String.length x <= String.length x'.
Proof.
  induction line as [|c line IH]; intros i H.
  - cbn [find_str] in H. destruct (startswith sub "") eqn:E; [|discriminate]. injection H as <-. apply startswith_spec in E as (r & E). exists "", r. split; [exact E|]. split; auto. intros; cbn; lia.
  - cbn [find_str] in H. destruct (startswith sub (String c line)) eqn:E.
    + injection H as <-. apply startswith_spec in E as (r & E). exists "", r. split; [exact E|]. split; auto. intros; cbn; lia.
    + destruct (find_str sub line) as [k|] eqn:F; [|discriminate]. injection H as <-. destruct (IH k eq_refl) as (x & y & E1 & E2 & M). exists (String c x), y.
      split; [cbn; congruence|]. split; [cbn; congruence|]. intros x' y' E'. destruct x' as [|d x'].
      * exfalso. cbn in E'. assert (startswith sub (String c line) = true) by (apply startswith_spec; exists y'; exact E'). congruence.
      * cbn in E'. injection E' as _ E'. apply M in E'. cbn. lia.
Qed.
Lemma find_some sub line : (exists x y, line = x ++ sub ++ y) -> exists i, find_str sub line = Some i.
Proof.
  induction line as [|c line IH]; intros (x & y & E); cbn [find_str].
  - destruct (startswith sub "") eqn:F; [eauto|]. destruct x; [|discriminate]. assert (startswith sub "" = true) by (apply startswith_spec; exists y; exact E). congruence.
  - destruct (startswith sub (String c line)) eqn:F; [eauto|]. destruct x as [|d x].
    + assert (startswith sub (String c line) = true) by (apply startswith_spec; exists y; exact E). congruence.
    + cbn in E. injection E as _ E. destruct IH as (i & ->); [eauto|]. eexists. reflexivity.
Qed.
Lemma prefix_chars x : forall x' r r', x ++ r = x' ++ r' -> String.length x <= String.length x' -> exists z, x' = x ++ z.
Proof.
  induction x as [|c x IH]; intros x' r r' E L; [exists x'; reflexivity|]. destruct x' as [|d x']; [cbn in L; lia|]. cbn in E, L. injection E as -> E.
  destruct (IH _ _ _ E) as (z & ->); [lia|]. exists z. reflexivity.
Qed.
Lemma defines_spec name line : proper name -> exists b, defines name line = Val b /\ (b = true <-> DefLine name line).
Proof.
  intros (u & c & En & Hc). unfold defines.
  assert (S1 : startswith ("def " ++ name) (strip line) = true <-> exists sp r, line = sp ++ ("def " ++ name) ++ r /\ blank sp).
  { apply strip_starts; [exists ("def " ++ u), c; split; [rewrite En; reflexivity|auto]|exists "d"%char, ("ef " ++ name); split; [reflexivity|]]. apply not_white_d. }
  destruct (startswith ("def " ++ name) (strip line)) eqn:E.
  - destruct (proj1 S1 eq_refl) as (sp & r & El & B). destruct name as [|n0 nr] eqn:Nn; [destruct u; discriminate|]. rewrite <- Nn in *.
    assert (It : it_is_string line name = Val false).
    { unfold it_is_string, before. rewrite Nn. rewrite <- Nn. destruct (find_some name line) as (i & F); [exists (sp ++ "def "), r; rewrite El, !app_assoc_s; reflexivity|].
      rewrite F. cbn [andthen]. f_equal. destruct (find_before _ _ _ F) as (x & y & E1 & -> & M).
      assert (L : String.length x <= String.length (sp ++ "def ")) by (apply (M _ r); rewrite El, !app_assoc_s; reflexivity).
      assert (P : exists z, sp ++ "def " = x ++ z). { apply (prefix_chars x (sp ++ "def ") (name ++ y) (name ++ r)); auto. rewrite <- E1, El, !app_assoc_s. reflexivity. }
      destruct P as (z & P). apply str_exists_chars. apply Forall_forall. intros q Hq.
      assert (H : In q (chars (sp ++ "def "))) by (rewrite P, chars_app; apply in_or_app; now left).
      rewrite chars_app in H. apply in_app_or in H as [H|H].
      - unfold blank in B. rewrite Forall_forall in B. specialize (B _ H). apply is_space_white in B. apply not_true_iff_false. intros Qq. clear -B Qq.
        unfold is_quote in Qq. apply orb_true_iff in Qq as [Qq|Qq]; apply Ascii.eqb_eq in Qq; subst q; discriminate.
      - cbn in H. destruct H as [<-|[<-|[<-|[<-|[]]]]]; reflexivity. }
    rewrite It. cbn [andthen negb]. exists true. split; [reflexivity|exact S1].
  - exists false. split; [reflexivity|exact S1].
Qed.

(** ** Going up over decorators *)
Lemma walk_up_spec lines : forall fuel i, (- Z.of_nat (List.length lines) <= i)%Z -> (i < Z.of_nat (List.length lines))%Z -> (i + Z.of_nat (List.length lines) < Z.of_nat fuel)%Z ->
  (exists j, walk_up fuel lines i = Val j /\ Top lines i j) \/
  (walk_up fuel lines i = Raise IndexError /\ forall m, (- Z.of_nat (List.length lines) <= m < i)%Z -> exists l, at_index lines m l /\ has_at l).
Proof.
  induction fuel as [|fuel IH]; intros i A B C; [lia|]. cbn [walk_up]. destruct (Z.eq_dec i (- Z.of_nat (List.length lines))) as [E|N].
  - rewrite line_out by lia. cbn [andthen]. right. split; auto. intros; lia.
  - destruct (line_in lines (i - 1)) as (l & El); [lia|]. rewrite El. cbn [andthen]. destruct (contains "@" l) eqn:Cl.
    + apply contains_at in Cl. destruct (IH (i - 1)%Z) as [(j & W & T1 & T2 & T3)|[W H]]; try lia.
      * left. exists j. split; auto. split; [lia|]. split; auto. intros m Hm. destruct (Z.eq_dec m (i - 1)) as [->|]; [exists l; split; auto; now apply at_nth|]. apply T2. lia.
      * right. split; auto. intros m Hm. destruct (Z.eq_dec m (i - 1)) as [->|]; [exists l; split; auto; now apply at_nth|]. apply H. lia.
    + left. exists i. split; auto. split; [lia|]. split; [intros; lia|]. exists l. split; [now apply at_nth|]. intros H. apply contains_at in H. congruence.
Qed.
Lemma at_same lines i a b : at_index lines i a -> at_index lines i b -> a = b.
Proof. rewrite !at_nth. congruence. Qed.
Lemma at_in lines i l : at_index lines i l -> In l lines.
Proof. intros (a & b & -> & _). apply in_or_app. right. now left. Qed.
Theorem C93_top_unique : forall lines i j k, Top lines i j -> Top lines i k -> j = k.
Proof.
  intros lines i j k (A1 & A2 & x & Ax & Nx) (B1 & B2 & y & By & Ny). destruct (Z.lt_trichotomy j k) as [L|[E|L]]; auto; exfalso.
  - destruct (A2 (k - 1)%Z) as (l & Hl & At); [lia|]. apply Ny. now rewrite (at_same _ _ _ _ By Hl).
  - destruct (B2 (j - 1)%Z) as (l & Hl & At); [lia|]. apply Nx. now rewrite (at_same _ _ _ _ Ax Hl).
Qed.
Print Assumptions C93_top_unique.

Lemma search_places name all ls : proper name -> forall idx, exists ps, Positions (DefLine name) idx ls ps /\
  search_method_from false idx name all ls = Val (map Z.of_nat ps) /\
  search_method_from true idx name all ls = exc_map (fun p => walk_up (p + List.length all + 1) all (Z.of_nat p)) ps.
Proof.
  intros Pn. induction ls as [|l ls IH]; intros idx; cbn [search_method_from].
  - exists []. split; [constructor|]. split; reflexivity.
  - destruct (IH (S idx)) as (ps & Hp & E1 & E2). destruct (defines_spec name l Pn) as (b & -> & Hb). cbn [andthen]. destruct b.
    + exists (idx :: ps). split; [constructor; auto; now apply Hb|]. rewrite E1, E2. cbn [andthen]. split; reflexivity.
    + exists ps. split; [constructor; auto; intros D; apply Hb in D; discriminate|]. rewrite E1, E2. split; reflexivity.
Qed.
Lemma positions_bound P i ls ps : Positions P i ls ps -> Forall (fun p => i <= p < i + List.length ls) ps.
Proof.
  induction 1 as [| |]; [constructor|constructor|]; cbn [List.length]; try lia; (eapply Forall_impl; [|eassumption]; cbv beta; intros; lia).
Qed.
Lemma every_line lines l i : In l lines -> (0 <= i)%Z -> exists m, (- Z.of_nat (List.length lines) <= m < i)%Z /\ at_index lines m l.
Proof.
  intros H Hi. apply in_split in H as (a & b & ->). exists (- Z.of_nat (List.length (l :: b)))%Z. split; [rewrite app_length; cbn [List.length]; lia|]. exists a, b. auto.
Qed.
(** Exactly the lines that begin with [def] and the name are found, and the first line of the decorators above each of them; going up from
    the first line leads to the last.  It fails exactly if a line is found and all lines have an at sign. *)
Theorem C93_methods : forall name lines, proper name ->
  exists places, Positions (DefLine name) 0 lines places /\ search_method false name lines = Val (map Z.of_nat places) /\
    ((exists l, In l lines /\ ~ has_at l) ->
       exists tops, search_method true name lines = Val tops /\ Forall2 (fun p t => Top lines (Z.of_nat p) t) places tops) /\
    ((forall l, In l lines -> has_at l) -> places <> [] -> search_method true name lines = Raise IndexError).
Proof.
  intros name lines Pn. destruct (search_places name lines lines Pn 0) as (ps & Hp & E1 & E2). exists ps. split; auto. split; [exact E1|].
  unfold search_method. rewrite E2. apply positions_bound in Hp. cbn [Nat.add] in Hp. clear E1 E2. split.
  - intros (l & Hl & Nl). induction ps as [|p ps IH]; cbn [exc_map]; [exists []; split; [reflexivity|constructor]|]. inversion Hp; subst.
    destruct (walk_up_spec lines (p + List.length lines + 1) (Z.of_nat p)) as [(j & -> & T)|[_ Bad]]; try lia.
    + cbn [andthen]. destruct IH as (ts & -> & F); auto. cbn [andthen]. exists (j :: ts). split; auto.
    + exfalso. destruct (every_line lines l (Z.of_nat p) Hl) as (m & Hm & Am); [lia|]. destruct (Bad m Hm) as (l' & Al & At). apply Nl. now rewrite (at_same _ _ _ _ Am Al).
  - intros All N. destruct ps as [|p ps]; [congruence|]. cbn [exc_map]. inversion Hp; subst.
    destruct (walk_up_spec lines (p + List.length lines + 1) (Z.of_nat p)) as [(j & _ & _ & _ & l & Al & Nl)|[-> _]]; try lia; [|reflexivity].
    exfalso. apply Nl, All. eapply at_in; eauto.
Qed.
Print Assumptions C93_methods.

(** A decorator is found exactly if the line above the definition contains it. *)
Theorem C93_decorators : forall decorator name lines, proper name ->
  exists places found, Positions (DefLine name) 0 lines places /\ search_decorator decorator name lines = Val found /\ Marked ("@" ++ decorator) lines places found.
Proof.
  intros dec name lines Pn. destruct (C93_methods name lines Pn) as (ps & Hp & E & _). unfold search_decorator. rewrite E. cbn [andthen].
  pose proof (positions_bound _ _ _ _ Hp) as B. cbn [Nat.add] in B. clear E.
  set (f := fun idx => andthen (line_at lines (idx - 1)) (fun l => Val (if contains "@" l && contains ("@" ++ dec) l then [(idx - 1)%Z] else []))).
  assert (G : exists ls, exc_map f (map Z.of_nat ps) = Val ls /\ Marked ("@" ++ dec) lines ps (concat ls)).
  { clear Hp. induction ps as [|p ps IH]; [exists []; split; [reflexivity|constructor]|]. inversion B; subst. destruct IH as (ls & E & M); auto.
    destruct (line_in lines (Z.of_nat p - 1)) as (l & El); [lia|]. cbn [map exc_map]. unfold f at 1. rewrite El. cbn [andthen]. rewrite E. cbn [andthen].
    eexists. split; [reflexivity|]. cbn [concat]. apply at_nth in El. destruct (contains ("@" ++ dec) l) eqn:C.
    - assert (contains "@" l = true) as ->. { apply contains_spec in C as (x & y & ->). apply contains_spec. exists x, (dec ++ y). reflexivity. }
      cbn [andb app]. apply contains_spec in C as (x & y & Ex). eapply marked_hit; eauto.
    - rewrite andb_false_r. cbn [app]. eapply marked_miss; eauto. intros x y Ex. assert (contains ("@" ++ dec) l = true) by (apply contains_spec; eauto). congruence. }
  destruct G as (ls & -> & M). cbn [andthen]. exists ps, (concat ls). auto.
Qed.
Print Assumptions C93_decorators.

(** ** The signature *)
Lemma walk_down_spec lines : forall fuel i, (- Z.of_nat (List.length lines) <= i <= Z.of_nat (List.length lines))%Z -> (Z.of_nat (List.length lines) - i < Z.of_nat fuel)%Z ->
  (exists m, walk_down fuel lines i = Val m /\ Ends lines i m) \/
  (walk_down fuel lines i = Raise IndexError /\ forall k, (i <= k < Z.of_nat (List.length lines))%Z -> exists l, at_index lines k l /\ ~ stops l).
Proof.
  induction fuel as [|fuel IH]; intros i A B; [lia|]. cbn [walk_down]. destruct (Z.eq_dec i (Z.of_nat (List.length lines))) as [E|N].
  - rewrite line_out by lia. right. split; [reflexivity|]. intros; lia.
  - destruct (line_in lines i) as (l & El); [lia|]. rewrite El. cbn [andthen]. apply at_nth in El. destruct (contains ")" l || contains ":" l) eqn:C.
    + left. exists i. split; auto. split; [lia|]. split; [intros; lia|]. exists l. split; auto. now apply stop_spec.
    + assert (Ns : ~ stops l) by (intros H; apply stop_spec in H; congruence). destruct (IH (i + 1)%Z) as [(m & W & T1 & T2 & T3)|[W H]]; try lia.
      * left. exists m. split; auto. split; [lia|]. split; auto. intros k Hk. destruct (Z.eq_dec k i) as [->|]; [eauto|]. apply T2. lia.
      * right. split; auto. intros k Hk. destruct (Z.eq_dec k i) as [->|]; [eauto|]. apply H. lia.
Qed.
Lemma ends_unique lines i m k : Ends lines i m -> Ends lines i k -> m = k.
Proof.
  intros (A1 & A2 & x & Ax & Sx) (B1 & B2 & y & By & Sy). destruct (Z.lt_trichotomy m k) as [L|[E|L]]; auto; exfalso.
  - destruct (B2 m) as (l & Hl & N); [lia|]. apply N. now rewrite <- (at_same _ _ _ _ Ax Hl).
  - destruct (A2 k) as (l & Hl & N); [lia|]. apply N. now rewrite <- (at_same _ _ _ _ By Hl).
Qed.
Lemma clamp_place n i : clamp n i = place n i.
Proof. unfold clamp, place. destruct (Z.leb_spec 0 i), (Z.ltb_spec i 0); lia. Qed.
Lemma slice_between i j lines : Between lines i j (slice i j lines).
Proof.
  unfold slice. rewrite !clamp_place. set (n := List.length lines). set (p := place n i). set (q := place n j).
  assert (Lp : p <= n) by (unfold p, place; lia). assert (Lq : q <= n) by (unfold q, place; lia).
  exists (firstn p lines), (skipn (q - p) (skipn p lines)). fold n p q. split; [now rewrite !firstn_skipn|].
  destruct (Nat.le_gt_cases p q) as [L|L].
  - left. split; auto. rewrite app_length, !firstn_length, skipn_length. fold n. lia.
  - right. split; [lia|]. replace (q - p) with 0 by lia. reflexivity.
Qed.
Lemma last_of_snoc ps p : last_of (ps ++ [p]) = Val p.
Proof. unfold last_of. now rewrite rev_app_distr. Qed.
Lemma top_bound lines p t : 0 <= p < List.length lines -> Top lines (Z.of_nat p) t -> (- Z.of_nat (List.length lines) <= t <= Z.of_nat p)%Z.
Proof.
  intros B (A & _ & l & Al & _). split; auto. apply at_nth in Al. destruct (Z.lt_ge_cases (t - 1) (- Z.of_nat (List.length lines))) as [X|X]; [|lia].
  rewrite line_out in Al by lia. discriminate.
Qed.
Lemma positions_unique P i ls ps : Positions P i ls ps -> forall qs, Positions P i ls qs -> ps = qs.
Proof.
  induction 1 as [i|i l ls ps H Hp IH|i l ls ps H Hp IH]; intros qs Hq; inversion Hq; subst; auto; try contradiction. f_equal. auto.
Qed.
(** The signature of the last definition: from its first decorator on to the first line with a closing parenthesis or a colon. *)
Theorem C93_signature : forall name lines, proper name ->
  exists places, Positions (DefLine name) 0 lines places /\
    (places = [] -> get_signature name lines = Raise IndexError) /\
    ((forall l, In l lines -> has_at l) -> get_signature name lines = Raise IndexError) /\
    (forall before p t, (exists l, In l lines /\ ~ has_at l) -> places = (before ++ [p])%list -> Top lines (Z.of_nat p) t ->
       (forall m, Ends lines t m -> exists block, Between lines t (m + 1) block /\ get_signature name lines = Val (join (String (ascii_of_nat 10) "") block)) /\
       ((forall k, (t <= k < Z.of_nat (List.length lines))%Z -> exists l, at_index lines k l /\ ~ stops l) -> get_signature name lines = Raise IndexError)).
Proof.
  intros name lines Pn. destruct (C93_methods name lines Pn) as (ps & Hp & _ & T & Bad). exists ps. split; auto.
  pose proof (positions_bound _ _ _ _ Hp) as B. cbn [Nat.add] in B. unfold get_signature. split; [|split].
  - intros ->. unfold search_method. assert (E : search_method_from true 0 name lines lines = Val []).
    { destruct (search_places name lines lines Pn 0) as (qs & Hq & _ & ->). rewrite <- (positions_unique _ _ _ _ Hp _ Hq). reflexivity. }
    rewrite E. reflexivity.
  - intros All. destruct ps as [|p ps].
    + destruct (search_places name lines lines Pn 0) as (qs & Hq & _ & E). rewrite <- (positions_unique _ _ _ _ Hp _ Hq) in E. unfold search_method. rewrite E. reflexivity.
    + rewrite Bad by (auto; discriminate). reflexivity.
  - intros before p t Ex -> Tp. destruct (T Ex) as (tops & -> & F). apply Forall2_app_inv_l in F as (t1 & t2 & F1 & F2 & ->). inversion F2 as [|? t' ? ts' Tp' F3]; subst. inversion F3; subst.
    rewrite (C93_top_unique _ _ _ _ Tp' Tp) in *. cbn [andthen]. rewrite last_of_snoc. cbn [andthen].
    apply Forall_app in B as [_ B]. inversion B as [|? ? Bp _]; subst. pose proof (top_bound _ _ _ Bp Tp) as Bt.
    destruct (walk_down_spec lines (2 * List.length lines + 1) t) as [(m & -> & M)|[-> M]]; [lia|lia| |].
    + cbn [andthen]. split.
      * intros m' M'. rewrite (ends_unique _ _ _ _ M' M). eexists. split; [apply slice_between|reflexivity].
      * intros H. exfalso. destruct M as (M1 & _ & l & Al & Sl). assert (Lm : (m < Z.of_nat (List.length lines))%Z).
        { destruct (Z.lt_ge_cases m (Z.of_nat (List.length lines))); auto. apply at_nth in Al. rewrite line_out in Al by lia. discriminate. }
        destruct (H m) as (l' & Al' & N); [lia|]. apply N. now rewrite <- (at_same _ _ _ _ Al Al').
    + cbn [andthen]. split; auto. intros m (M1 & _ & l & Al & Sl). exfalso. assert (Lm : (m < Z.of_nat (List.length lines))%Z).
      { destruct (Z.lt_ge_cases m (Z.of_nat (List.length lines))); auto. apply at_nth in Al. rewrite line_out in Al by lia. discriminate. }
      destruct (M m) as (l' & Al' & N); [lia|]. apply N. now rewrite <- (at_same _ _ _ _ Al Al').
Qed.
Print Assumptions C93_signature.

(** If the decorators do not reach the top of the file, these are the lines from the first decorator to the end of the signature. *)
Theorem C93_signature_lines_partial : forall name lines above decorators def tail last below,
  proper name -> lines = (above ++ decorators ++ def :: (tail ++ last :: below))%list ->
  above <> [] -> (forall a l, above = (a ++ [l])%list -> ~ has_at l) -> Forall has_at decorators -> DefLine name def ->
  Forall (fun l => ~ DefLine name l) (tail ++ last :: below) ->
  Forall (fun l => ~ stops l) (decorators ++ def :: tail) -> stops last ->
  get_signature name lines = Val (join (String (ascii_of_nat 10) "") (decorators ++ def :: tail ++ [last])).
Proof.
  intros name lines above decs def tail last below Pn E Na Top0 Hd Hdef Rest Ns Hl.
  destruct (C93_signature name lines Pn) as (places & Hp & _ & _ & C).
  assert (Pl : exists before, places = (before ++ [List.length above + List.length decs])%list).
  { assert (G : forall a i ls ps, Positions (DefLine name) i (a ++ def :: ls) ps -> Forall (fun l => ~ DefLine name l) ls -> exists before, ps = (before ++ [i + List.length a])%list).
    { assert (N : forall i ls ps, Positions (DefLine name) i ls ps -> Forall (fun l => ~ DefLine name l) ls -> ps = []).
      { induction 1; intros F; auto; inversion F; subst; [contradiction|auto]. }
      induction a as [|x a IH]; intros i ls ps H F; cbn [app] in H.
      - inversion H as [|? ? ? ? Hx Hq|]; subst; [|contradiction]. rewrite (N _ _ _ Hq F). exists []. cbn. now rewrite Nat.add_0_r.
      - inversion H as [|? ? ? ? Hx Hq|? ? ? ? Hx Hq]; subst.
        + destruct (IH _ _ _ Hq F) as (b & ->). exists (i :: b). cbn [app List.length]. rewrite Nat.add_succ_r. reflexivity.
        + destruct (IH _ _ _ Hq F) as (b & ->). exists b. cbn [app List.length]. rewrite Nat.add_succ_r. reflexivity. }
    subst lines. rewrite app_assoc in Hp. destruct (G _ _ _ _ Hp Rest) as (b & ->). exists b. rewrite app_length. reflexivity. }
  destruct Pl as (before & ->).
  destruct (exists_last Na) as (a0 & l0 & Ea). specialize (Top0 a0 l0 Ea).
  assert (Mid : forall k, (Z.of_nat (List.length above) <= k < Z.of_nat (List.length above + List.length (decs ++ def :: tail ++ [last])))%Z ->
     exists l, nth_error (decs ++ def :: tail ++ [last]) (Z.to_nat k - List.length above) = Some l /\ at_index lines k l).
  { intros k Hk. destruct (nth_error (decs ++ def :: tail ++ [last]) (Z.to_nat k - List.length above)) as [l|] eqn:En; [|apply nth_error_None in En; lia].
    exists l. split; auto. apply nth_error_split in En as (x & y & Ex & Lx). exists (above ++ x)%list, (y ++ below)%list. split; [|left; rewrite app_length; lia].
    rewrite E. replace (decs ++ def :: tail ++ last :: below)%list with ((decs ++ def :: tail ++ [last]) ++ below)%list by (rewrite <- !app_assoc; cbn [app]; now rewrite <- app_assoc).
    rewrite Ex, <- !app_assoc. reflexivity. }
  destruct (C before (List.length above + List.length decs) (Z.of_nat (List.length above))) as [D _].
  - exists l0. split; auto. rewrite E, Ea. apply in_or_app. left. apply in_or_app. right. now left.
  - reflexivity.
  - split; [lia|]. split.
    + intros m Hm. destruct (Mid m) as (l & Nl & Al); [rewrite app_length; lia|]. exists l. split; auto. rewrite nth_error_app1 in Nl by lia. apply nth_error_In in Nl. rewrite Forall_forall in Hd. auto.
    + exists l0. split; auto. exists a0, (decs ++ def :: (tail ++ last :: below))%list. split; [rewrite E, Ea, <- app_assoc; reflexivity|]. left. rewrite Ea, app_length. cbn [List.length]. lia.
  - set (len := List.length (decs ++ def :: tail)).
    destruct (D (Z.of_nat (List.length above + len))) as (block & Bt & ->).
    { assert (Ll : List.length (decs ++ def :: tail ++ [last]) = S len).
      { unfold len. rewrite !app_length. cbn [List.length]. rewrite app_length. cbn [List.length]. lia. }
      split; [lia|]. split.
      - intros k Hk. destruct (Mid k) as (l & Nl & Al); [rewrite Ll; lia|]. exists l. split; auto.
        replace (decs ++ def :: tail ++ [last])%list with ((decs ++ def :: tail) ++ [last])%list in Nl by (rewrite <- app_assoc; reflexivity).
        rewrite nth_error_app1 in Nl by (fold len; lia). apply nth_error_In in Nl. rewrite Forall_forall in Ns. auto.
      - exists last. split; auto. destruct (Mid (Z.of_nat (List.length above + len))) as (l & Nl & Al); [rewrite Ll; lia|].
        replace (decs ++ def :: tail ++ [last])%list with ((decs ++ def :: tail) ++ [last])%list in Nl by (rewrite <- app_assoc; reflexivity).
        rewrite nth_error_app2 in Nl by (fold len; lia). replace (_ - _ - _) with 0 in Nl by (fold len; lia). cbn in Nl. injection Nl as <-. exact Al. }
    f_equal. f_equal. destruct Bt as (x & y & Exy & [(L1 & L2 & L3)|[L1 _]]).
    + assert (Pa : place (List.length lines) (Z.of_nat (List.length above)) = List.length above). { unfold place. rewrite E, !app_length. destruct (Z.ltb_spec (Z.of_nat (List.length above)) 0); lia. }
      assert (Pb : place (List.length lines) (Z.of_nat (List.length above + len) + 1) = List.length above + len + 1).
      { unfold place. rewrite E. unfold len. rewrite !app_length. cbn [List.length]. rewrite !app_length. cbn [List.length]. destruct (Z.ltb_spec (Z.of_nat (List.length above + (List.length decs + S (List.length tail))) + 1) 0); lia. }
      rewrite Pa in L2. rewrite Pb, app_length in L3. rewrite E in Exy.
      replace (decs ++ def :: tail ++ last :: below)%list with ((decs ++ def :: tail ++ [last]) ++ below)%list in Exy by (rewrite <- !app_assoc; cbn [app]; now rewrite <- app_assoc).
      assert (Cut : forall (p q p' q' : list string), (p ++ q = p' ++ q')%list -> List.length p = List.length p' -> p = p' /\ q = q').
      { induction p as [|z p IH]; intros q [|z' p'] q' H Hl0; try discriminate; auto. cbn in H, Hl0. injection H as -> H. destruct (IH _ _ _ H) as [-> ->]; auto. }
      apply Cut in Exy as [<- Exy]; auto. apply Cut in Exy as [<- _]; auto.
      unfold len in L3. rewrite !app_length in *. cbn [List.length] in *. rewrite app_length. cbn [List.length]. lia.
    + exfalso. assert (Pa : place (List.length lines) (Z.of_nat (List.length above)) = List.length above). { unfold place. rewrite E, !app_length. destruct (Z.ltb_spec (Z.of_nat (List.length above)) 0); lia. }
      assert (Pb : place (List.length lines) (Z.of_nat (List.length above + len) + 1) = List.length above + len + 1).
      { unfold place. rewrite E. unfold len. rewrite !app_length. cbn [List.length]. rewrite !app_length. cbn [List.length]. destruct (Z.ltb_spec (Z.of_nat (List.length above + (List.length decs + S (List.length tail))) + 1) 0); lia. }
      lia.
Qed.
Print Assumptions C93_signature_lines_partial.

(** The claim (methods of exactly this name, with their decorators) is false: longer names count, a decorator in the last line is one of the
    first, a decorator further up is not found, and a decorator with a parenthesis ends the signature. *)
Theorem C93_longer_name_refuted : exists lines, search_method false "run" lines = Val [0%Z] /\ lines = ["def run_all(self):"].
Proof. eexists; split; [|reflexivity]. vm_compute. reflexivity. Qed.
Print Assumptions C93_longer_name_refuted.
Theorem C93_last_line_refuted : exists lines, search_method true "f" lines = Val [(-1)%Z] /\ get_signature "f" lines = Val "" /\ lines = ["def f():"; "    return a"; "x = a @ b"].
Proof. eexists; split; [|split; [|reflexivity]]; vm_compute; reflexivity. Qed.
Print Assumptions C93_last_line_refuted.
Theorem C93_second_decorator_refuted : exists lines, search_decorator "overload" "f" lines = Val [] /\ lines = ["import a"; "@overload"; "@final"; "def f():"].
Proof. eexists; split; [|reflexivity]. vm_compute. reflexivity. Qed.
Print Assumptions C93_second_decorator_refuted.
Theorem C93_decorator_call_refuted : exists lines, get_signature "f" lines = Val "@cache(1)" /\ lines = ["import a"; "@cache(1)"; "def f():"].
Proof. eexists; split; [|reflexivity]. vm_compute. reflexivity. Qed.
Print Assumptions C93_decorator_call_refuted.
Example C93_example :
  get_signature "f" ["class A:"; "    @overload"; "    @final"; "    def f("; "        self, x: int"; "    ) -> int: ..."; "    y = 1"] =
    Val (join (String (ascii_of_nat 10) "") (["    @overload"; "    @final"] ++ "    def f(" :: [] ++ ["        self, x: int"])) /\
  search_decorator "final" "f" ["class A:"; "    @overload"; "    @final"; "    def f("; "        self, x: int"; "    ) -> int: ..."; "    y = 1"] = Val [2%Z] /\
  proper "f" /\ DefLine "f" "    def f(" /\ ~ has_at "class A:" /\ stops "        self, x: int" /\ ~ stops "    @final".
Proof.
  split; [vm_compute; reflexivity|]. split; [vm_compute; reflexivity|]. split; [exists "", "f"%char; split; [reflexivity|intros W; vm_compute in W; lia]|].
  split; [exists "    ", "("; split; [reflexivity|apply blank_spec; reflexivity]|]. split; [intros H; apply contains_at in H; discriminate|]. split; [apply stop_spec; reflexivity|intros H; apply stop_spec in H; discriminate].
Qed.
