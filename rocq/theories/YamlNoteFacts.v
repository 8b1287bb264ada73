(** Facts on files read together with their comments. *)
From Coq Require Import Ascii String List Bool Arith Lia.
From Verif Require Import PyStr PyStrFacts SpecNames SpecText SpecYaml SpecYamlDoc YamlDocFacts Dispatch Values Strategies Tree Build SpecData SpecMerge SpecTypes SpecDocs DocMap TreeFacts SpecNotes SpecYamlNotes.
Import ListNotations.
Local Open Scope string_scope.
Local Open Scope nat_scope.

Lemma doc_name_key k : doc_key (KStr (doc_name k)).
Proof. now exists k. Qed.

(** ** The keys of commented entries *)
Inductive flat : list (key * pyval) -> list (key * pyval) -> Prop :=
  | fl_nil : flat [] []
  | fl_cons : forall k o x x' d d', flat d d' -> flat ((KStr k, x) :: d) (doc_entry k o ++ (KStr k, x') :: d')%list.
Lemma flat_of inline text c ts d d' : CEntries inline text c ts d d' -> flat d d'.
Proof. induction 1; constructor; auto. Qed.
Lemma flat_In d d' : flat d d' -> forall q y, In (q, y) d' -> In q (map fst d) \/ exists k, q = KStr (doc_name k) /\ In (KStr k) (map fst d) /\ exists t, y = VStr t.
Proof.
  induction 1 as [|k o x x' d d' H IH]; intros q y Hy; [destruct Hy|]. apply in_app_iff in Hy as [Hy|[E|Hy]].
  - destruct o as [t|]; [|destruct Hy]. destruct Hy as [E|[]]. right. exists k. split; [congruence|]. split; [now left|]. exists t. congruence.
  - left. left. cbn [fst]. congruence.
  - destruct (IH _ _ Hy) as [A|(k' & A & B & C)]; [left; now right|right]. exists k'. split; auto. split; auto. now right.
Qed.
Lemma flat_keys d d' : flat d d' -> forall q, In q (map fst d) -> In q (map fst d').
Proof. induction 1 as [|k o x x' d d' H IH]; intros q Hq; [destruct Hq|]. rewrite map_app. apply in_app_iff. right. destruct Hq as [E|Hq]; [left; exact E|right; auto]. Qed.
Lemma flat_nodup d d' : flat d d' -> (forall q, In q (map fst d) -> ~ doc_key q) -> NoDup (map fst d) -> NoDup (map fst d').
Proof.
  induction 1 as [|k o x x' d d' H IH]; intros N U; [constructor|]. cbn [map fst] in *. inversion U as [|? ? U1 U2]; subst.
  assert (A : ~ In (KStr k) (map fst d')).
  { intros F. apply in_map_iff in F as ([q y] & E & Hy). cbn [fst] in E. subst q. destruct (flat_In _ _ H _ _ Hy) as [B|(k' & E & B & _)]; [contradiction|]. apply (N (KStr k)); [now left|]. rewrite E. apply doc_name_key. }
  assert (B : NoDup (KStr k :: map fst d')) by (constructor; [exact A|apply IH; auto; intros q Hq; apply N; now right]).
  destruct o as [t|]; cbn [doc_entry app map fst]; [|exact B]. constructor; [|exact B]. intros [E|F].
  - apply (N (KStr k)); [now left|]. rewrite E. apply doc_name_key.
  - apply in_map_iff in F as ([q y] & E & Hy). cbn [fst] in E. subst q. destruct (flat_In _ _ H _ _ Hy) as [C|(k' & E & C & _)].
    + apply (N (KStr (doc_name k))); [now right|apply doc_name_key].
    + assert (E' : doc_name k = doc_name k') by congruence. apply doc_name_inj in E'. subst k'. contradiction.
Qed.

(** ** The copy of a file means the value with the comments *)
Section Read.
  Variable inline : string -> pyval -> Prop.
  Variable text : nat -> string -> option string -> Prop.
  Notation Annotated := (Annotated text).
  Lemma annotated_commented :
    (forall c ts d, Entries inline c ts d -> forall ts', Annotated ts ts' -> (forall q x, In (q, x) d -> ~ doc_key q /\ undocumented x) -> exists d', CEntries inline text c ts d d' /\ Entries inline c ts' d') /\
    (forall c ts l, Items inline c ts l -> forall ts', Annotated ts ts' -> (forall x, In x l -> undocumented x) -> exists l', CItems inline text c ts l l' /\ Items inline c ts' l') /\
    (forall ts v, Collection inline ts v -> forall ts', Annotated ts ts' -> undocumented v -> exists v', CCollection inline text ts v v' /\ Collection inline ts' v').
  Proof.
    apply structure_ind.
    - intros c ts' H _. inversion H; subst. exists []. split; constructor.
    - intros c i k rest v ts d Hi _ IH ts' H U. inversion H; subst; destruct (IH _ ltac:(eassumption)) as (d' & A & B); try (intros; apply U; now right).
      + exists (doc_entry k None ++ (KStr k, v) :: d')%list. split; [now apply ce_inline|now constructor].
      + exists (doc_entry k (Some t) ++ (KStr k, v) :: d')%list. split; [now apply ce_inline|apply en_text; now constructor].
    - intros c i k x ts d _ IH ts' H U. inversion H; subst; destruct (IH _ ltac:(eassumption)) as (d' & A & B); try (intros; apply U; now right).
      + exists (doc_entry k None ++ (KStr k, VStr x) :: d')%list. split; [now apply ce_text|now constructor].
      + exists (doc_entry k (Some t) ++ (KStr k, VStr x) :: d')%list. split; [now apply ce_text|apply en_text; now constructor].
    - intros c i k rest ts d Br _ IH ts' H U. inversion H; subst; destruct (IH _ ltac:(eassumption)) as (d' & A & B); try (intros; apply U; now right).
      + exists (doc_entry k None ++ (KStr k, VInst ty_none) :: d')%list. split; [now apply ce_null|now apply en_null].
      + exists (doc_entry k (Some t) ++ (KStr k, VInst ty_none) :: d')%list. split; [now apply ce_null|apply en_text; now apply en_null].
    - intros c i k rest body v ts d Br W _ IHb _ IH ts' H U.
      inversion H; subst; match goal with X : Annotated (body ++ ts) _ |- _ => apply annotated_app in X as (b' & t' & -> & Ab & At) end;
        (destruct (IHb _ Ab) as (v' & Ev & Sv); [exact (proj2 (U _ _ (or_introl eq_refl)))|]); (destruct (IH _ At) as (d' & A & B); [intros; apply U; now right|]); pose proof (annotated_within _ _ _ _ Ab W) as W'.
      + exists (doc_entry k None ++ (KStr k, v') :: d')%list. split; [now apply ce_block|now apply en_block].
      + exists (doc_entry k (Some t) ++ (KStr k, v') :: d')%list. split; [now apply ce_block|apply en_text; now apply en_block].
    - intros c ts' H _. inversion H; subst. exists []. split; constructor.
    - intros c rest v ts l Hi _ IH ts' H U. inversion H; subst. destruct (IH _ ltac:(eassumption)) as (l' & A & B); [intros; apply U; now right|]. exists (v :: l'). split; now constructor.
    - intros c body v ts l W _ IHb _ IH ts' H U. inversion H; subst. match goal with X : Annotated (body ++ ts) _ |- _ => apply annotated_app in X as (b' & t' & -> & Ab & At) end.
      destruct (IHb _ Ab) as (v' & Ev & Sv); [apply U; now left|]. destruct (IH _ At) as (l' & A & B); [intros; apply U; now right|]. pose proof (annotated_deeper _ _ _ _ Ab W) as W'. exists (v' :: l'). split; now constructor.
    - intros c ts d Ne _ IH U ts' H V. assert (V' : forall q x, In (q, x) d -> ~ doc_key q /\ undocumented x) by (intros q x Hx; eapply undocumented_entry; eauto).
      destruct (IH _ H V') as (d' & A & B). exists (VMap MDict ty_dict d'). split; [apply (cc_map inline text c); auto|]. apply (co_map inline c); auto; [eapply annotated_some; eauto|].
      apply (flat_nodup d); auto; [eapply flat_of; eauto|]. intros q Hq. apply in_map_iff in Hq as ([q' x] & <- & Hx). exact (proj1 (V' _ _ Hx)).
    - intros c ts l Ne _ IH ts' H V. destruct (IH _ H) as (l' & A & B); [intros x Hx; eapply undocumented_item; eauto|]. exists (VSeq KList ty_list l'). split; [apply (cc_seq inline text c); auto|].
      apply (co_seq inline c); auto. eapply annotated_some; eauto.
  Qed.

  Lemma strips_doc_entry k o d d' : strips_entries d d' -> strips_entries (doc_entry k o ++ d)%list d'.
  Proof. intros H. destruct o as [t|]; [|exact H]. apply se_drop; [apply doc_name_key|exact H]. Qed.
  Lemma commented_strips :
    (forall c ts d d', CEntries inline text c ts d d' -> (forall q x, In (q, x) d -> ~ doc_key q /\ undocumented x) -> strips_entries d' d) /\
    (forall c ts l l', CItems inline text c ts l l' -> (forall x, In x l -> undocumented x) -> strips_all l' l) /\
    (forall ts v v', CCollection inline text ts v v' -> undocumented v -> strips v' v).
  Proof.
    apply commented_ind.
    - constructor.
    - intros c i k o rest v ts d d' _ _ _ IH U. destruct (U _ _ (or_introl eq_refl)) as [N V]. apply strips_doc_entry, se_keep; auto using strips_self. apply IH. intros. apply U. now right.
    - intros c i k o x ts d d' _ _ IH U. destruct (U _ _ (or_introl eq_refl)) as [N V]. apply strips_doc_entry, se_keep; auto using strips_self. apply IH. intros. apply U. now right.
    - intros c i k o rest ts d d' _ _ _ IH U. destruct (U _ _ (or_introl eq_refl)) as [N V]. apply strips_doc_entry, se_keep; auto using strips_self. apply IH. intros. apply U. now right.
    - intros c i k o rest body v v' ts d d' _ _ _ _ IHb _ IH U. destruct (U _ _ (or_introl eq_refl)) as [N V]. apply strips_doc_entry, se_keep; auto. apply IH. intros. apply U. now right.
    - constructor.
    - intros c rest v ts l l' _ _ IH U. constructor; [apply strips_self, U; now left|]. apply IH. intros. apply U. now right.
    - intros c body v v' ts l l' _ _ IHb _ IH U. constructor; [apply IHb, U; now left|]. apply IH. intros. apply U. now right.
    - intros c ts d d' _ _ IH _ V. apply st_map, IH. intros q x Hx. eapply undocumented_entry; eauto.
    - intros c ts l l' _ _ IH V. apply st_seq, IH. intros x Hx. eapply undocumented_item; eauto.
  Qed.

  Lemma flat_texts d d' : flat d d' -> (forall q, In q (map fst d) -> ~ doc_key q) -> doc_texts d'.
  Proof.
    intros F N q x Hx D. destruct (flat_In _ _ F _ _ Hx) as [B|(k & -> & B & t & ->)]; [exfalso; exact (N _ B D)|]. split; [eauto|]. exists k. split; [reflexivity|]. split; [now apply N|]. unfold has_key. now apply (flat_keys _ _ F).
  Qed.
  Lemma doc_entry_noted k o q x : In (q, x) (doc_entry k o) -> noted x.
  Proof. destruct o as [t|]; [|intros []]. intros [E|[]]. injection E as _ <-. apply undocumented_noted, leaf_undocumented. exact I. Qed.
  Lemma commented_noted :
    (forall c ts d d', CEntries inline text c ts d d' -> (forall q x, In (q, x) d -> ~ doc_key q /\ undocumented x) -> forall q x, In (q, x) d' -> noted x) /\
    (forall c ts l l', CItems inline text c ts l l' -> (forall x, In x l -> undocumented x) -> forall x, In x l' -> noted x) /\
    (forall ts v v', CCollection inline text ts v v' -> undocumented v -> noted v').
  Proof.
    apply commented_ind.
    - intros c _ q x [].
    - intros c i k o rest v ts d d' _ _ _ IH U q x Hx. apply in_app_iff in Hx as [Hx|[E|Hx]]; [eapply doc_entry_noted; eauto| |].
      + injection E as <- <-. apply undocumented_noted. exact (proj2 (U _ _ (or_introl eq_refl))).
      + eapply IH; eauto. intros. apply U. now right.
    - intros c i k o y ts d d' _ _ IH U q x Hx. apply in_app_iff in Hx as [Hx|[E|Hx]]; [eapply doc_entry_noted; eauto| |].
      + injection E as <- <-. apply undocumented_noted. exact (proj2 (U _ _ (or_introl eq_refl))).
      + eapply IH; eauto. intros. apply U. now right.
    - intros c i k o rest ts d d' _ _ _ IH U q x Hx. apply in_app_iff in Hx as [Hx|[E|Hx]]; [eapply doc_entry_noted; eauto| |].
      + injection E as <- <-. apply undocumented_noted. exact (proj2 (U _ _ (or_introl eq_refl))).
      + eapply IH; eauto. intros. apply U. now right.
    - intros c i k o rest body v v' ts d d' _ _ _ _ IHb _ IH U q x Hx. apply in_app_iff in Hx as [Hx|[E|Hx]]; [eapply doc_entry_noted; eauto| |].
      + injection E as <- <-. apply IHb. exact (proj2 (U _ _ (or_introl eq_refl))).
      + eapply IH; eauto. intros. apply U. now right.
    - intros c _ x [].
    - intros c rest v ts l l' _ _ IH U x [<-|Hx]; [apply undocumented_noted, U; now left|]. apply IH; auto. intros. apply U. now right.
    - intros c body v v' ts l l' _ _ IHb _ IH U x [<-|Hx]; [apply IHb, U; now left|]. apply IH; auto. intros. apply U. now right.
    - intros c ts d d' _ C IH _ V. apply noted_map; [eapply flat_texts; [eapply flat_of; eauto|]|].
      + intros q Hq. apply in_map_iff in Hq as ([q' x] & <- & Hx). exact (proj1 (undocumented_entry _ _ _ _ _ V Hx)).
      + intros q x Hx. eapply IH; eauto. intros q' x' Hx'. eapply undocumented_entry; eauto.
    - intros c ts l l' _ _ IH V. apply noted_seq. apply IH. intros x Hx. eapply undocumented_item; eauto.
  Qed.

  (** ** Every entry is a comment, and the keys are unique *)
  Definition sourced (v : pyval) : Prop := forall mk ty d, sub (VMap mk ty d) v -> NoDup (map fst d) /\ forall k x, In (KStr (doc_name k), x) d -> exists i t, x = VStr t /\ text i k (Some t).
  Definition fresh (v : pyval) : Prop := undocumented v /\ unique_keys v.
  Lemma fresh_sourced v : fresh v -> sourced v.
  Proof.
    intros [U K] mk ty d Hd. split; [exact (K _ _ _ Hd)|]. intros k x Hx. exfalso. apply (U _ _ _ Hd (KStr (doc_name k))); [|apply doc_name_key]. change (KStr (doc_name k)) with (fst (KStr (doc_name k), x)). now apply in_map.
  Qed.
  Lemma fresh_entry mk ty d q x : fresh (VMap mk ty d) -> In (q, x) d -> ~ doc_key q /\ fresh x.
  Proof. intros [U K] H. destruct (undocumented_entry _ _ _ _ _ U H) as [A B]. split; auto. split; auto. intros mk' t' d' Hd. apply (K mk' t'). eapply sub_map; eauto. Qed.
  Lemma fresh_item k ty l x : fresh (VSeq k ty l) -> In x l -> fresh x.
  Proof. intros [U K] H. split; [eapply undocumented_item; eauto|]. intros mk' t' d' Hd. apply (K mk' t'). eapply sub_seq; eauto. Qed.
  Definition entry_sourced (q : key) (x : pyval) : Prop := sourced x /\ forall k, q = KStr (doc_name k) -> exists i t, x = VStr t /\ text i k (Some t).
  Lemma doc_entry_sourced i k o q x : text i k o -> In (q, x) (doc_entry k o) -> entry_sourced q x.
  Proof.
    destruct o as [t|]; [|intros _ []]. intros T [E|[]]. injection E as <- <-. split; [intros mk ty d Hd; inversion Hd|].
    intros k' E. assert (E' : doc_name k = doc_name k') by congruence. apply doc_name_inj in E'. subst k'. eauto.
  Qed.
  Lemma plain_entry_sourced k x : ~ doc_key (KStr k) -> sourced x -> entry_sourced (KStr k) x.
  Proof. intros N H. split; auto. intros k' E. exfalso. apply N. exists k'. exact E. Qed.
  Lemma leaf_sourced x : match x with VSeq _ _ _ | VMap _ _ _ => False | _ => True end -> sourced x.
  Proof. intros L mk ty d Hd. inversion Hd; subst; contradiction. Qed.
  Lemma commented_sourced :
    (forall c ts d d', CEntries inline text c ts d d' -> (forall q x, In (q, x) d -> ~ doc_key q /\ fresh x) -> forall q x, In (q, x) d' -> entry_sourced q x) /\
    (forall c ts l l', CItems inline text c ts l l' -> (forall x, In x l -> fresh x) -> forall x, In x l' -> sourced x) /\
    (forall ts v v', CCollection inline text ts v v' -> fresh v -> sourced v').
  Proof.
    apply commented_ind.
    - intros c _ q x [].
    - intros c i k o rest v ts d d' T _ _ IH U q x Hx. destruct (U _ _ (or_introl eq_refl)) as [N V]. apply in_app_iff in Hx as [Hx|[E|Hx]]; [eapply doc_entry_sourced; eauto| |].
      + injection E as <- <-. apply plain_entry_sourced; auto using fresh_sourced.
      + apply IH; auto. intros. apply U. now right.
    - intros c i k o y ts d d' T _ IH U q x Hx. destruct (U _ _ (or_introl eq_refl)) as [N V]. apply in_app_iff in Hx as [Hx|[E|Hx]]; [eapply doc_entry_sourced; eauto| |].
      + injection E as <- <-. apply plain_entry_sourced; auto using fresh_sourced.
      + apply IH; auto. intros. apply U. now right.
    - intros c i k o rest ts d d' T _ _ IH U q x Hx. destruct (U _ _ (or_introl eq_refl)) as [N V]. apply in_app_iff in Hx as [Hx|[E|Hx]]; [eapply doc_entry_sourced; eauto| |].
      + injection E as <- <-. apply plain_entry_sourced; auto using fresh_sourced.
      + apply IH; auto. intros. apply U. now right.
    - intros c i k o rest body v v' ts d d' T _ _ _ IHb _ IH U q x Hx. destruct (U _ _ (or_introl eq_refl)) as [N V]. apply in_app_iff in Hx as [Hx|[E|Hx]]; [eapply doc_entry_sourced; eauto| |].
      + injection E as <- <-. apply plain_entry_sourced; auto.
      + apply IH; auto. intros. apply U. now right.
    - intros c _ x [].
    - intros c rest v ts l l' _ _ IH U x [<-|Hx]; [apply fresh_sourced, U; now left|]. apply IH; auto. intros. apply U. now right.
    - intros c body v v' ts l l' _ _ IHb _ IH U x [<-|Hx]; [apply IHb, U; now left|]. apply IH; auto. intros. apply U. now right.
    - intros c ts d d' _ C IH Nd V mk ty dd Hd. assert (E : forall q x, In (q, x) d' -> entry_sourced q x) by (apply IH; intros q x Hx; eapply fresh_entry; eauto).
      inversion Hd as [|? ? ? ? Hin Hs|? ? ? q y Hin Hs]; subst; [|exact (proj1 (E _ _ Hin) _ _ _ Hs)]. split; [|intros k x Hx; exact (proj2 (E _ _ Hx) k eq_refl)].
      apply (flat_nodup d); auto; [eapply flat_of; eauto|]. intros q Hq. apply in_map_iff in Hq as ([q' x] & <- & Hx). exact (proj1 (fresh_entry _ _ _ _ _ V Hx)).
    - intros c ts l l' _ _ IH V mk ty dd Hd. inversion Hd as [|? ? ? ? Hin Hs|]; subst. eapply IH; eauto. intros x Hx. eapply fresh_item; eauto.
  Qed.

  (** ** The documentation of the key in a line *)
  Lemma key_not_within i c k t : key_of i c k t -> ~ within c t.
  Proof. destruct t; cbn [key_of]; try contradiction; intros (-> & -> & ->) [H|H]; cbn [col_of] in H; lia || contradiction. Qed.
  Lemma centries_key : forall c ts d d', CEntries inline text c ts d d' -> forall i k t, In t ts -> key_of i c k t -> exists x, In (KStr k, x) d.
  Proof.
    induction 1 as [|c i0 k0 o rest v ts d d' T Hi C IH|c i0 k0 o x0 ts d d' T C IH|c i0 k0 o rest ts d d' T Br C IH|c i0 k0 o rest body v v' ts d d' T Br W Cb C IH]; intros i k t Ht K; [destruct Ht| | | |];
      (destruct Ht as [<-|Ht]; [cbn [key_of] in K; destruct K as (_ & _ & ->); eexists; left; reflexivity|]);
      try (destruct (IH _ _ _ Ht K) as (x & Hx); exists x; now right).
    apply in_app_iff in Ht as [Ht|Ht]; [|destruct (IH _ _ _ Ht K) as (x & Hx); exists x; now right].
    exfalso. rewrite Forall_forall in W. exact (key_not_within _ _ _ _ K (W _ Ht)).
  Qed.
  Lemma centries_here c ts d d' : CEntries inline text c ts d d' -> forall i k t, In t ts -> key_of i c k t -> NoDup (map fst d) -> (forall q, In q (map fst d) -> ~ doc_key q) ->
    exists o, text i k o /\ forall x, In (KStr (doc_name k), x) d' <-> exists w, o = Some w /\ x = VStr w.
  Proof.
    assert (Here : forall k o i x x' d d', flat d d' -> text i k o -> NoDup (map fst ((KStr k, x) :: d)) -> (forall q, In q (map fst ((KStr k, x) :: d)) -> ~ doc_key q) ->
      exists o', text i k o' /\ forall y, In (KStr (doc_name k), y) (doc_entry k o ++ (KStr k, x') :: d')%list <-> exists w, o' = Some w /\ y = VStr w).
    { intros k o i x x' dd dd' F T Nd N. exists o. split; [exact T|]. intros y. inversion Nd as [|? ? N1 N2]; subst. rewrite in_app_iff. split.
      - intros [H|[H|H]].
        + destruct o as [w|]; [|destruct H]. destruct H as [H|[]]. exists w. split; congruence.
        + exfalso. apply (N (KStr k)); [now left|]. assert (E : KStr k = KStr (doc_name k)) by congruence. rewrite E. apply doc_name_key.
        + exfalso. destruct (flat_In _ _ F _ _ H) as [B|(k' & E & B & _)]; [apply (N (KStr (doc_name k))); [now right|apply doc_name_key]|].
          assert (E' : doc_name k = doc_name k') by congruence. apply doc_name_inj in E'. subst k'. contradiction.
      - intros (w & -> & ->). left. now left. }
    assert (Next : forall k0 o0 (x0 x0' : pyval) (d d' : list (key * pyval)) i k, (exists t, In (KStr k, t) d) -> NoDup (map fst ((KStr k0, x0) :: d)) -> (forall q, In q (map fst ((KStr k0, x0) :: d)) -> ~ doc_key q) ->
      (exists o, text i k o /\ forall y, In (KStr (doc_name k), y) d' <-> exists w, o = Some w /\ y = VStr w) ->
      exists o, text i k o /\ forall y, In (KStr (doc_name k), y) (doc_entry k0 o0 ++ (KStr k0, x0') :: d')%list <-> exists w, o = Some w /\ y = VStr w).
    { intros k0 o0 x0 x0' dd dd' i k (t & Hk) Nd N (o & T & Ho). exists o. split; [exact T|]. intros y. inversion Nd as [|? ? N1 N2]; subst. rewrite <- Ho, in_app_iff. split; [|intros H; right; now right].
      intros [H|[H|H]]; auto; exfalso.
      - destruct o0 as [w|]; [|destruct H]. destruct H as [H|[]]. assert (E' : doc_name k0 = doc_name k) by congruence. apply doc_name_inj in E'. subst k0. apply N1. exact (in_map fst _ _ Hk).
      - apply (N (KStr k0)); [now left|]. assert (E : KStr k0 = KStr (doc_name k)) by congruence. rewrite E. apply doc_name_key. }
    pose proof centries_key as Key.
    induction 1 as [|c i0 k0 o rest v ts d d' T Hi C IH|c i0 k0 o x0 ts d d' T C IH|c i0 k0 o rest ts d d' T Br C IH|c i0 k0 o rest body v v' ts d d' T Br W Cb C IH]; intros i k t Ht K Nd N; [destruct Ht| | | |];
      (destruct Ht as [<-|Ht]; [cbn [key_of] in K; destruct K as (<- & _ & <-); eapply Here; eauto using flat_of|]).
    1-3: eapply Next; eauto; (apply (IH i k t Ht K); [now inversion Nd|intros q Hq; apply N; now right]).
    apply in_app_iff in Ht as [Ht|Ht]; [exfalso; rewrite Forall_forall in W; exact (key_not_within _ _ _ _ K (W _ Ht))|].
    eapply Next; eauto; (apply (IH i k t Ht K); [now inversion Nd|intros q Hq; apply N; now right]).
  Qed.
  Lemma centries_starts c c' ts d d' : CEntries inline text c ts d d' -> starts c' ts -> c' = c.
  Proof. intros H (t & r & E & Ec). destruct H; try discriminate; injection E as <- _; cbn [col_of] in Ec; auto. Qed.
  Lemma centries_head c t r d d' : CEntries inline text c (t :: r) d d' -> ~ within c t.
  Proof. intros H. inversion H; subst; intros [W|W]; cbn [col_of] in W; lia || contradiction. Qed.
  Lemma split_block c body ts a (t : token) r : Forall (within c) body -> ~ within c t -> (body ++ ts = a ++ t :: r)%list -> exists a', a = (body ++ a')%list /\ ts = (a' ++ t :: r)%list.
  Proof.
    revert a. induction body as [|x body IH]; intros a W N E; [exists a; auto|]. inversion W; subst. destruct a as [|y a]; cbn [app] in E; [injection E as -> _; contradiction|]. injection E as -> E.
    destruct (IH a ltac:(assumption) N E) as (a' & -> & ->). exists a'. auto.
  Qed.
  Lemma centries_split c ts d d' : CEntries inline text c ts d d' -> forall a t r, ts = (a ++ t :: r)%list -> ~ within c t -> col_of t = c ->
    exists d1 d2 d1' d2', d = (d1 ++ d2)%list /\ d' = (d1' ++ d2')%list /\ CEntries inline text c (t :: r) d2 d2'.
  Proof.
    induction 1 as [c|c i0 k0 o rest v ts d d' T Hi C IH|c i0 k0 o x0 ts d d' T C IH|c i0 k0 o rest ts d d' T Br C IH|c i0 k0 o rest body v v' ts d d' T Br W Cb C IH]; intros a t r E N Ec.
    - destruct a; discriminate.
    - destruct a as [|y a]; cbn [app] in E; injection E as <- E; [subst; eexists [], _, [], _; split; [reflexivity|]; split; [reflexivity|]; eapply ce_inline; eauto|].
      destruct (IH a t r E N Ec) as (d1 & d2 & d1' & d2' & -> & -> & X). exists ((KStr k0, v) :: d1), d2, (doc_entry k0 o ++ (KStr k0, v) :: d1')%list, d2'. split; [reflexivity|]. split; [now rewrite <- app_assoc|exact X].
    - destruct a as [|y a]; cbn [app] in E; injection E as <- E; [subst; eexists [], _, [], _; split; [reflexivity|]; split; [reflexivity|]; eapply ce_text; eauto|].
      destruct (IH a t r E N Ec) as (d1 & d2 & d1' & d2' & -> & -> & X). exists ((KStr k0, VStr x0) :: d1), d2, (doc_entry k0 o ++ (KStr k0, VStr x0) :: d1')%list, d2'. split; [reflexivity|]. split; [now rewrite <- app_assoc|exact X].
    - destruct a as [|y a]; cbn [app] in E; injection E as <- E; [subst; eexists [], _, [], _; split; [reflexivity|]; split; [reflexivity|]; eapply ce_null; eauto|].
      destruct (IH a t r E N Ec) as (d1 & d2 & d1' & d2' & -> & -> & X). exists ((KStr k0, VInst ty_none) :: d1), d2, (doc_entry k0 o ++ (KStr k0, VInst ty_none) :: d1')%list, d2'. split; [reflexivity|]. split; [now rewrite <- app_assoc|exact X].
    - destruct a as [|y a]; cbn [app] in E; injection E as <- E; [subst r; eexists [], _, [], _; split; [reflexivity|]; split; [reflexivity|]; eapply ce_block; eauto|].
      destruct (split_block _ _ _ _ _ _ W N E) as (a' & -> & E'). destruct (IH a' t r E' N Ec) as (d1 & d2 & d1' & d2' & -> & -> & X).
      exists ((KStr k0, v) :: d1), d2, (doc_entry k0 o ++ (KStr k0, v') :: d1')%list, d2'. split; [reflexivity|]. split; [now rewrite <- app_assoc|exact X].
  Qed.
  Lemma same_body c (a b a' b' : list token) : Forall (within c) a -> Forall (within c) a' -> (b = [] \/ exists t r, b = t :: r /\ ~ within c t) -> (b' = [] \/ exists t r, b' = t :: r /\ ~ within c t) ->
    (a ++ b = a' ++ b')%list -> a = a' /\ b = b'.
  Proof.
    intros Wa. revert a'. induction Wa as [|x a Wx Wa IH]; intros a' Wa' B B' E.
    - destruct Wa' as [|y a' Wy Wa']; [auto|]. cbn [app] in E. subst b. destruct B as [B|(t & r & B & N)]; [discriminate|]. injection B as <- _. contradiction.
    - destruct Wa' as [|y a' Wy Wa'].
      + cbn [app] in E. subst b'. destruct B' as [B'|(t & r & B' & N)]; [discriminate|]. injection B' as <- _. contradiction.
      + cbn [app] in E. injection E as -> E. destruct (IH a' Wa' B B' E) as [-> ->]. auto.
  Qed.
  Lemma citems_starts c c' ts l l' : CItems inline text c ts l l' -> starts c' ts -> c' = c.
  Proof. intros H (t & r & E & Ec). destruct H; try discriminate; injection E as <- _; cbn [col_of] in Ec; auto. Qed.
  Lemma citems_key c ts l l' : CItems inline text c ts l l' -> forall i k t, In t ts -> ~ key_of i c k t.
  Proof.
    induction 1 as [|c rest v ts l l' Hi C IH|c body v v' ts l l' W Cb C IH]; intros i k t Ht K; [destruct Ht| |]; (destruct Ht as [<-|Ht]; [exact K|]).
    - exact (IH _ _ _ Ht K).
    - apply in_app_iff in Ht as [Ht|Ht]; [|exact (IH _ _ _ Ht K)]. rewrite Forall_forall in W. specialize (W _ Ht). destruct t; cbn [key_of col_of] in *; try contradiction; lia.
  Qed.
  Lemma line_token ts p k i : line_of ts p k i -> exists c t, In t ts /\ key_of i c k t.
  Proof.
    induction 1 as [c i k t ts Hs Ht K|c j key rest a body b p k i Hs W B L IH]; [eauto|]. destruct IH as (c' & t & Ht & K). exists c', t. split; [|exact K].
    apply in_app_iff. right. right. apply in_app_iff. now left.
  Qed.
  Lemma line_notes ts p k i : line_of ts p k i -> forall v v', CCollection inline text ts v v' -> undocumented v ->
    exists d', value_at v' p (VMap MDict ty_dict d') /\ has_key (KStr k) d' /\ exists o, text i k o /\ forall x, In (KStr (doc_name k), x) d' <-> exists w, o = Some w /\ x = VStr w.
  Proof.
    induction 1 as [c i k t ts Hs Ht K|c j key rest a body b p k i Hs W B L IH]; intros v v' CC U.
    - inversion CC as [c' us d d' Ne C Nd E1 E2 E3|c' us l l' Ne C E1 E2 E3]; subst us v v'.
      + pose proof (centries_starts _ _ _ _ _ C Hs) as ->. exists d'. split; [constructor|]. split; [destruct (centries_key _ _ _ _ C _ _ _ Ht K) as (x & Hx); apply (flat_keys d d'); [eapply flat_of; eauto|exact (in_map fst _ _ Hx)]|]. apply (centries_here _ _ _ _ C i k t Ht K Nd). intros q Hq. apply (U _ _ _ (sub_refl _)). exact Hq.
      + exfalso. pose proof (citems_starts _ _ _ _ _ C Hs) as ->. exact (citems_key _ _ _ _ C _ _ _ Ht K).
    - assert (Kk : key_of j c key (TKey j c key rest)) by (cbn [key_of]; auto). pose proof (key_not_within _ _ _ _ Kk) as Nk.
      inversion CC as [c' us d d' Ne C Nd E1 E2 E3|c' us l l' Ne C E1 E2 E3]; subst us v v'.
      + pose proof (centries_starts _ _ _ _ _ C Hs) as E. subst c'. destruct (centries_split _ _ _ _ C _ _ _ eq_refl Nk eq_refl) as (d1 & d2 & d1' & d2' & -> & -> & X).
        assert (Nb : body <> []) by (intros ->; inversion L as [? ? ? ? ? (? & ? & F & _)|? ? ? ? a0 ? ? ? ? ? ? ? ? ? F]; [discriminate|destruct a0; discriminate]).
        destruct body as [|tb body]; [congruence|]. assert (Wb : within c tb) by now inversion W.
        inversion X as [|? ? ? o ? v0 ts0 d0 d0' T0 Hi C0| |? ? ? o ? ts0 d0 d0' T0 Br C0|? ? ? o ? body0 v0 v0' ts0 d0 d0' T0 Br W0 Cb C0 F1 F2]; subst.
        * exfalso. exact (centries_head _ _ _ _ _ C0 Wb).
        * exfalso. exact (centries_head _ _ _ _ _ C0 Wb).
        * assert (E : body0 = tb :: body /\ ts0 = b).
          { apply (same_body c); auto. destruct ts0 as [|t0 r0]; [now left|right]. exists t0, r0. split; auto. eapply centries_head; eauto. }
          destruct E as [-> ->]. destruct (IH _ _ Cb) as (d3 & V3 & O3).
          { intros mk ty dd Hd. apply (U mk ty dd). eapply sub_map; [apply in_app_iff; right; left; reflexivity|exact Hd]. }
          exists d3. split; [|exact O3]. eapply va_key; [|exact V3]. apply in_app_iff. right. apply in_app_iff. right. left. reflexivity.
      + exfalso. pose proof (citems_starts _ _ _ _ _ C Hs) as E. subst c'. apply (citems_key _ _ _ _ C j key (TKey j c key rest)); [apply in_app_iff; right; now left|exact Kk].
  Qed.
End Read.
