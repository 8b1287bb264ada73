(** Lemmas about [Source.v]. *)
From Coq Require Import Ascii String List Bool Arith Lia.
From Verif Require Import PyStr PyStrFacts Exc Ast Bodies SpecBodies BodiesFacts SpecNames NamesFacts Source SpecSource.
Import ListNotations.
Local Open Scope string_scope.
Local Open Scope nat_scope.

(** ** The loop *)
Lemma const_no_part c fs ty v : ~ part (ANode c fs) (AConst ty v).
Proof. intros H. inversion H. Qed.
Definition queue_ok (h : heap) (q : list nat) (ts : list ast) : Prop := Forall2 (fun a t => shows h t (FItem (INode a))) q ts.
Definition summary (h : heap) (q : list nat) (w : nat) (M : Prop) : Prop :=
  exists ts, queue_ok h q ts /\ total (map weight ts) <= w /\ ((exists t, In t ts /\ mentions_return t) <-> M).
Lemma summary_app h q q' w w' M M' : summary h q w M -> summary h q' w' M' -> summary h (q ++ q') (w + w') (M \/ M').
Proof.
  intros (ts & A & B & C) (ts' & A' & B' & C'). exists (ts ++ ts')%list. split; [now apply Forall2_app|]. split; [rewrite map_app, total_app; lia|].
  rewrite <- C, <- C'. split.
  - intros (t & H & R). apply in_app_or in H as [H|H]; eauto.
  - intros [(t & H & R)|(t & H & R)]; exists t; split; auto; apply in_or_app; auto.
Qed.
Lemma summary_nil h w (M : Prop) : ~ M -> summary h [] w M.
Proof. intros N. exists []. split; [constructor|]. split; [cbn; lia|]. split; [intros (t & [] & _)|tauto]. Qed.
Lemma summary_iff h q w (M M' : Prop) : (M <-> M') -> summary h q w M -> summary h q w M'.
Proof. intros E (ts & A & B & C). exists ts. rewrite <- E. auto. Qed.
Lemma item_summary h t i : shows h t (FItem i) -> summary h (of_item i) (weight t) (mentions_return t).
Proof.
  intros H. destruct i as [a|ty v]; cbn [of_item].
  - exists [t]. split; [constructor; [exact H|constructor]|]. split; [cbn; lia|]. split; [intros (x & [<-|[]] & R); auto|]. intros R. exists t. cbn. auto.
  - apply summary_nil. destruct t; cbn [shows] in H; try contradiction. intros (fs & P). now apply const_no_part in P.
Qed.
Lemma field_summary h t f : shows h t f -> summary h (of_field f) (weight t) (mentions_return t).
Proof.
  destruct f as [i|is]; cbn [of_field]; [apply item_summary|]. intros H. destruct t as [c fs|ts|ty v]; try contradiction.
  apply shows_list in H. cbn [weight]. assert (G : summary h (flat_map of_item is) (total (map weight ts)) (exists t, In t ts /\ mentions_return t)).
  { induction H as [|t i ts is H _ IH]; cbn [flat_map map]; [apply summary_nil; intros (t & [] & _)|].
    change (total (weight t :: map weight ts)) with (weight t + total (map weight ts)).
    eapply summary_iff; [|exact (summary_app _ _ _ _ _ _ _ (item_summary h t i H) IH)]. split; [intros [R|(x & Hx & R)]; [exists t|exists x]; cbn; auto|].
    intros (x & [<-|Hx] & R); eauto. }
  eapply summary_iff; [|exact G]. split.
  - intros (t & Ht & fs & P). exists fs. econstructor; eauto.
  - intros (fs & P). inversion P as [|? t l Ht Pt|]; subst. exists t. split; auto. exists fs. auto.
Qed.
Lemma fields_summary h fs ns : Forall2 (shows_field h) fs ns ->
  summary h (flat_map (fun f => of_field (snd f)) ns) (total (map (fun e => weight (snd e)) fs)) (exists e, In e fs /\ mentions_return (snd e)).
Proof.
  induction 1 as [|e n fs ns [_ H] _ IH]; cbn [flat_map map]; [apply summary_nil; intros (e & [] & _)|].
  match goal with |- summary _ _ (total (?a :: ?b)) _ => change (total (a :: b)) with (a + total b) end.
  eapply summary_iff; [|exact (summary_app _ _ _ _ _ _ _ (field_summary h _ _ H) IH)]. split; [intros [R|(x & Hx & R)]; [exists e|exists x]; cbn; auto|].
  intros (x & [<-|Hx] & R); eauto.
Qed.
Lemma any_return_spec h fuel : forall q ts, queue_ok h q ts -> total (map weight ts) < fuel ->
  exists b, any_return fuel h q = Val b /\ (b = true <-> exists t, In t ts /\ mentions_return t).
Proof.
  induction fuel as [|fuel IH]; intros q ts Q L; [lia|]. cbn [any_return]. inversion Q as [|a t q' ts' Sh Q']; subst.
  - exists false. split; auto. split; [discriminate|intros (t & [] & _)].
  - destruct t as [c fs|l|ty v]; cbn [shows] in Sh; try contradiction. apply shows_node in Sh as (ns & E & F). rewrite E. cbn [n_class].
    destruct (String.eqb_spec c "Return") as [->|Nc].
    + exists true. split; auto. split; auto. intros _. eexists. split; [left; reflexivity|]. exists fs. constructor.
    + destruct (fields_summary h fs ns F) as (cs & Qc & Wc & Mc). destruct (IH (q' ++ child_nodes (Node c ns))%list (ts' ++ cs)%list) as (b & Eb & Sb).
      * apply Forall2_app; auto.
      * rewrite map_app, total_app. cbn [map weight] in L. unfold total at 1 in L. cbn [fold_right] in L. fold (total (map weight ts')) in L. destruct (String.eqb c "FunctionDef"); lia.
      * exists b. split; auto. rewrite Sb. split.
        -- intros (t & H & R). apply in_app_or in H as [H|H]; [exists t; cbn; auto|]. destruct Mc as [Mc _]. destruct Mc as ([k x] & Hx & fs' & P); [eauto|].
           exists (ANode c fs). split; [now left|]. exists fs'. econstructor; eauto.
        -- intros (t & [<-|H] & R); [|exists t; split; auto; apply in_or_app; auto]. destruct R as (fs' & P).
           assert (X : exists e, In e fs /\ mentions_return (snd e)).
           { inversion P as [|?|? k t c' fs'' Hk Pt]; subst; [congruence|]. exists (k, t). split; auto. exists fs'. auto. }
           apply Mc in X as (t & Ht & R). exists t. split; auto. apply in_or_app. auto.
Qed.

(** ** Indentation *)
Lemma is_blank_char c : is_blank c = true <-> blank_char c.
Proof. unfold is_blank, blank_char, code, ord. rewrite orb_true_iff, !Nat.eqb_eq. reflexivity. Qed.
Lemma blank_line l : str_forall is_blank l = true <-> empty_line l.
Proof.
  unfold empty_line. rewrite Forall_chars, !Forall_forall. split; intros H c Hc; apply is_blank_char; auto.
Qed.
Definition prefix_of (p s : string) : Prop := exists r, s = p ++ r.
Lemma common_prefix a : forall b p, prefix_of p (common a b) <-> prefix_of p a /\ prefix_of p b.
Proof.
  induction a as [|x a IH]; intros b p.
  - split; [intros H; split; auto; destruct H as (r & E); destruct p; [exists b; auto|discriminate]|tauto].
  - destruct b as [|y b]; cbn [common].
    + split; [intros H; split; auto; destruct H as (r & E); destruct p; [exists (String x a); auto|discriminate]|tauto].
    + destruct (Ascii.eqb_spec x y) as [->|N].
      * destruct p as [|c p]; [split; [intros _; split; eexists; reflexivity|intros _; eexists; reflexivity]|].
        specialize (IH b p). split.
        -- intros (r & E). cbn in E. injection E as -> E. destruct (proj1 IH (ex_intro _ r E)) as [(u & ->) (v & ->)]. split; eexists; reflexivity.
        -- intros [(u & E) (v & E')]. cbn in E, E'. injection E as -> E. injection E' as E'. destruct (proj2 IH (conj (ex_intro _ u E) (ex_intro _ v E'))) as (w & ->). eexists; reflexivity.
      * destruct p as [|c p]; [split; [intros _; split; eexists; reflexivity|intros _; eexists; reflexivity]|].
        split; [intros (r & E); discriminate|]. intros [(u & E) (v & E')]. cbn in E, E'. injection E as -> _. injection E' as -> _. congruence.
Qed.
Lemma prefix_antisym a b : prefix_of a b -> prefix_of b a -> a = b.
Proof.
  intros (r & ->) (t & E). rewrite app_assoc_s in E. assert (L := f_equal String.length E). rewrite !length_app_s in L. destruct r; [now rewrite app_nil_r_s|cbn in L; lia].
Qed.
Lemma prefix_refl a : prefix_of a a.
Proof. exists "". now rewrite app_nil_r_s. Qed.
Lemma common_one a b c : (forall p, prefix_of p c <-> prefix_of p a /\ prefix_of p b) -> c = common a b.
Proof. intros H. apply prefix_antisym; [apply common_prefix, H, prefix_refl|]. apply H, common_prefix, prefix_refl. Qed.
Lemma prefix_trans a b c : prefix_of a b -> prefix_of b c -> prefix_of a c.
Proof. intros (r & ->) (t & ->). exists (r ++ t). now rewrite app_assoc_s. Qed.
Lemma narrow_common m i : narrow (Some m) i = Some (common m i).
Proof.
  cbn [narrow]. f_equal. destruct (startswith m i) eqn:A.
  - apply startswith_spec in A. apply common_one. intros p. split; [|tauto]. intros H. split; auto. eapply prefix_trans; eauto.
  - destruct (startswith i m) eqn:B; auto. apply startswith_spec in B. apply common_one. intros p. split; [|tauto]. intros H. split; auto. eapply prefix_trans; eauto.
Qed.
Lemma fold_narrow is : forall m, exists m', fold_left narrow is (Some m) = Some m' /\ forall p, prefix_of p m' <-> prefix_of p m /\ Forall (prefix_of p) is.
Proof.
  induction is as [|i is IH]; intros m.
  - exists m. split; auto. intros p. split; [auto|tauto].
  - cbn [fold_left]. rewrite narrow_common. destruct (IH (common m i)) as (m' & E & H). exists m'. split; auto. intros p. rewrite H, common_prefix. split.
    + intros [[A B] C]. split; auto.
    + intros [A C]. inversion C; subst. auto.
Qed.
Lemma margin_spec is : match fold_left narrow is None with None => is = [] | Some m => is <> [] /\ forall p, prefix_of p m <-> Forall (prefix_of p) is end.
Proof.
  destruct is as [|i is]; [reflexivity|]. cbn [fold_left narrow]. destruct (fold_narrow is i) as (m & -> & H). split; [discriminate|].
  intros p. rewrite H. split; [intros [A B]; auto|intros C; inversion C; auto].
Qed.
Lemma indent_split l : exists r, l = indent_of l ++ r /\ str_forall is_blank (indent_of l) = true /\ (r = "" \/ exists c t, r = String c t /\ is_blank c = false).
Proof.
  induction l as [|c l (r & E & B & N)]; [exists ""; auto|]. cbn [indent_of]. destruct (is_blank c) eqn:Bc.
  - exists r. split; [cbn; congruence|]. split; auto. cbn [str_forall]. now rewrite Bc, B.
  - exists (String c l). split; auto. split; auto. right. eauto.
Qed.
Lemma prefix_indent p l : str_forall is_blank p = true -> prefix_of p l -> prefix_of p (indent_of l).
Proof.
  revert l. induction p as [|c p IH]; intros l B (r & ->); [eexists; reflexivity|]. cbn [str_forall] in B. apply andb_true_iff in B as [Bc B].
  cbn [append indent_of]. rewrite Bc. destruct (IH (p ++ r) B) as (t & ->); [eexists; reflexivity|]. exists t. reflexivity.
Qed.
Lemma is_nil_spec s : is_nil s = true <-> s = "".
Proof. destruct s; split; intros; try discriminate; auto. Qed.
Lemma cleared_spec l : empty_line l /\ cleared l = "" \/ ~ empty_line l /\ cleared l = l /\ l <> "".
Proof.
  unfold cleared. destruct (str_forall is_blank l) eqn:E; [left; split; auto; now apply blank_line|]. right. split; [rewrite <- blank_line; congruence|]. split; auto. intros ->. discriminate.
Qed.
Definition dedented (ls : list string) : list string :=
  match margin_of (map cleared ls) with None => map cleared ls | Some m => map (cut m) (map cleared ls) end.
Lemma cut_nil l : cut "" l = l.
Proof. reflexivity. Qed.
Lemma dedent_lines text : dedent text = join nl (dedented (split_char (chr 10) text)).
Proof.
  unfold dedent, dedented. cbv zeta. destruct (margin_of _) as [m|]; auto. destruct m as [|c m]; cbn [is_nil]; auto.
  f_equal. symmetry. rewrite <- (map_id (map cleared _)) at 2. apply map_ext. intros l. apply cut_nil.
Qed.
Lemma dedented_spec ls : Dedented ls (dedented ls).
Proof.
  unfold dedented, margin_of. set (is := map indent_of (filter (fun l => negb (is_nil l)) (map cleared ls))).
  assert (I : forall i, In i is <-> exists l, In l ls /\ ~ empty_line l /\ i = indent_of l).
  { intros i. unfold is. rewrite in_map_iff. split.
    - intros (l & <- & H). apply filter_In in H as [H N]. apply in_map_iff in H as (l0 & <- & H). destruct (cleared_spec l0) as [[_ E]|(A & E & _)]; rewrite E in *; [discriminate|]. eauto.
    - intros (l & H & N & ->). exists l. split; auto. apply filter_In. destruct (cleared_spec l) as [[E _]|(_ & E & Nn)]; [contradiction|]. split; [apply in_map_iff; eauto|].
      apply negb_true_iff, not_true_iff_false. now rewrite is_nil_spec. }
  pose proof (margin_spec is) as M. destruct (fold_left narrow is None) as [m|].
  - destruct M as [Ne M]. pose proof (proj1 (M m) (prefix_refl m)) as Mm. rewrite Forall_forall in Mm.
    assert (Bm : str_forall is_blank m = true).
    { destruct is as [|i is']; [congruence|]. destruct (proj1 (I i) (or_introl eq_refl)) as (l & _ & _ & ->). destruct (Mm (indent_of l) (or_introl eq_refl)) as (r & E).
      destruct (indent_split l) as (_ & _ & B & _). rewrite E, str_forall_app in B. now apply andb_true_iff in B as [B _]. }
    assert (Cut : forall l, In l ls -> ~ empty_line l -> cleared l = l /\ exists r, l = m ++ r /\ cut m l = r).
    { intros l H N. destruct (cleared_spec l) as [[E _]|(_ & E & _)]; [contradiction|]. split; auto. destruct (Mm (indent_of l)) as (r & Er); [apply I; eauto|].
      destruct (indent_split l) as (t & El & _). rewrite Er, app_assoc_s in El. exists (r ++ t). split; auto. unfold cut. rewrite El. rewrite startswith_app. apply drop_app. }
    exists m. split; [now apply blank_line|]. split.
    + rewrite map_map. assert (G : forall sub, incl sub ls -> Forall2 (fun l o => empty_line l /\ o = "" \/ ~ empty_line l /\ l = m ++ o) sub (map (fun x => cut m (cleared x)) sub)).
      { induction sub as [|l sub IHs]; intros S0; constructor; [|apply IHs; intros x Hx; apply S0; now right]. assert (Hl : In l ls) by (apply S0; now left).
        destruct (cleared_spec l) as [[E C]|(N & C & _)].
        - left. split; auto. rewrite C. unfold cut. destruct m; reflexivity.
        - right. split; auto. destruct (Cut l Hl N) as (C' & r & E & Er). rewrite C, Er. auto. }
      apply G. apply incl_refl.
    + right. intros c Bc. apply is_blank_char in Bc.
      assert (Np : ~ prefix_of (m ++ String c "") m). { intros (r & E). assert (L := f_equal String.length E). rewrite !length_app_s in L. cbn in L. lia. }
      rewrite (M (m ++ String c "")) in Np.
      assert (X : exists i, In i is /\ ~ prefix_of (m ++ String c "") i).
      { clear -Np. induction is as [|i is IH]; [exfalso; apply Np; constructor|]. destruct (startswith (m ++ String c "") i) eqn:E.
        - destruct IH as (j & Hj & P); [intros F; apply Np; constructor; auto; now apply startswith_spec|]. exists j. split; auto. now right.
        - exists i. split; [now left|]. intros H. apply startswith_spec in H. congruence. }
      destruct X as (i & Hi & P). apply I in Hi as (l & Hl & N & ->). destruct (Cut l Hl N) as (C & r & E & Er). exists r.
      split; [rewrite map_map; apply in_map_iff; exists l; split; auto; now rewrite C|]. split.
      * intros ->. apply N. rewrite E, app_nil_r_s. now apply blank_line.
      * intros t ->. apply P. apply prefix_indent; [rewrite str_forall_app, Bm; cbn [str_forall]; now rewrite Bc|]. exists t. rewrite app_assoc_s. exact E.
  - assert (A : forall l, In l ls -> empty_line l).
    { intros l Hl. destruct (cleared_spec l) as [[E _]|(N & _)]; auto. assert (X : In (indent_of l) is) by (apply I; eauto). rewrite M in X. destruct X. }
    exists "". split; [constructor|]. split; [|left; auto].
    assert (G : forall sub, incl sub ls -> Forall2 (fun l o => empty_line l /\ o = "" \/ ~ empty_line l /\ l = "" ++ o) sub (map cleared sub)).
    { induction sub as [|l sub IHs]; intros S0; constructor; [|apply IHs; intros x Hx; apply S0; now right]. left. assert (Hl : In l ls) by (apply S0; now left).
      split; auto. destruct (cleared_spec l) as [[_ E]|(N & _)]; auto. exfalso. apply N. auto. }
    apply G, incl_refl.
Qed.
