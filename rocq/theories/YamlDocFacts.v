(** The tokens of a file with documentation keys mean the value of the file with documentation entries. *)
From Coq Require Import Ascii String List Bool Arith Lia.
From Verif Require Import PyStr PyStrFacts SpecNames SpecText SpecYaml Dispatch Values Tree Build SpecData SpecMerge SpecTypes SpecDocs DocMap TreeFacts SpecYamlDoc.
Import ListNotations.
Local Open Scope string_scope.
Local Open Scope nat_scope.

(** Values whose mappings have no documentation keys. *)
Definition undocumented (v : pyval) : Prop := forall k t d, sub (VMap k t d) v -> forall key, has_key key d -> ~ doc_key key.
(** The documentation entries of all mappings are texts beside the keys that they document. *)
Definition noted (v : pyval) : Prop := forall k t d, sub (VMap k t d) v -> doc_texts d /\ (k = MDict \/ forall key, has_key key d -> ~ doc_key key).
Definition named (t : token) : Prop := match t with TKey _ _ k _ | TText _ _ k _ => ~ doc_key (KStr k) | _ => True end.

Lemma strips_self v : undocumented v -> strips v v.
Proof.
  induction v as [s|t|f|m n|t|t|t d|k t l IH|k t d IH] using pyval_ind'; intros U; try (apply st_leaf; exact I).
  - apply st_seq. assert (G : forall x, In x l -> undocumented x) by (intros x Hx kk tt dd Hd; apply (U kk tt dd); eapply sub_seq; eauto).
    clear U. induction IH as [|x l H F IHl]; constructor; [apply H, G; now left|]. apply IHl. intros y Hy. apply G. now right.
  - apply st_map. assert (G : forall e, In e d -> ~ doc_key (fst e) /\ undocumented (snd e)).
    { intros e He. split; [apply (U k t d); [constructor|]; now apply in_map|]. intros kk tt dd Hd. apply (U kk tt dd). destruct e as [a x]. eapply sub_map; eauto. }
    clear U. induction IH as [|[a x] d H F IHd]; constructor; [exact (proj1 (G (a, x) (or_introl eq_refl)))| |].
    + apply H. exact (proj2 (G (a, x) (or_introl eq_refl))).
    + apply IHd. intros e He. apply G. now right.
Qed.
Lemma undocumented_noted v : undocumented v -> noted v.
Proof. intros U k t d Hd. split; [|right; now apply (U k t)]. intros q x Hx D. exfalso. apply (U k t d Hd q); auto. change q with (fst (q, x)). now apply in_map. Qed.
Lemma leaf_undocumented v : match v with VSeq _ _ _ | VMap _ _ _ => False | _ => True end -> undocumented v.
Proof. intros L k t d H. inversion H; subst; contradiction. Qed.
Lemma noted_seq k t l : (forall x, In x l -> noted x) -> noted (VSeq k t l).
Proof. intros H a b d Hd. inversion Hd; subst. eapply H; eauto. Qed.
Lemma noted_map t d : doc_texts d -> (forall q x, In (q, x) d -> noted x) -> noted (VMap MDict t d).
Proof. intros D H a b d' Hd. inversion Hd; subst; auto. eapply H; eauto. Qed.

Lemma doc_name_inj a b : doc_name a = doc_name b -> a = b.
Proof. apply app_inj_l. Qed.

Section Annotate.
  Variable text : nat -> string -> option string -> Prop.
  Notation Annotated := (Annotated text).
  Lemma annotated_app a b : forall ts', Annotated (a ++ b)%list ts' -> exists a' b', ts' = (a' ++ b')%list /\ Annotated a a' /\ Annotated b b'.
  Proof.
    induction a as [|t a IH]; intros ts' H; [exists [], ts'; split; auto; split; auto; constructor|].
    cbn [app] in H. inversion H; subst; destruct (IH _ ltac:(eassumption)) as (a' & b' & -> & A & B);
      first [eexists (_ :: a')%list, b'; split; [reflexivity|]; split; [|exact B]|eexists (_ :: _ :: a')%list, b'; split; [reflexivity|]; split; [|exact B]]; constructor; auto.
  Qed.
  Lemma annotated_forall (Q : token -> Prop) : (forall i i' c k r, Q (TKey i c k r) -> Q (TKey i' c k r)) -> (forall i i' c k r, Q (TText i c k r) -> Q (TText i' c k r)) ->
    (forall i i' c k k' r t, Q (TKey i c k r) -> Q (TText i' c k' t)) -> (forall i i' c k k' r t, Q (TText i c k r) -> Q (TText i' c k' t)) ->
    forall ts ts', Annotated ts ts' -> Forall Q ts -> Forall Q ts'.
  Proof. intros Q1 Q2 Q3 Q4. induction 1; intros F; inversion F; subst; repeat match goal with |- Forall _ (_ :: _) => constructor end; auto;
    first [eapply Q1; eassumption|eapply Q2; eassumption|eapply Q3; eassumption|eapply Q4; eassumption]. Qed.
  Lemma annotated_within c ts ts' : Annotated ts ts' -> Forall (within c) ts -> Forall (within c) ts'.
  Proof. apply annotated_forall; unfold within; cbn [col_of]; tauto. Qed.
  Lemma annotated_deeper c ts ts' : Annotated ts ts' -> Forall (fun t => c < col_of t) ts -> Forall (fun t => c < col_of t) ts'.
  Proof. apply annotated_forall; cbn [col_of]; tauto. Qed.
  Lemma annotated_some ts ts' : Annotated ts ts' -> ts <> [] -> ts' <> [].
  Proof. intros H N. inversion H; subst; congruence. Qed.
End Annotate.

Section Values.
  Variable text : nat -> string -> option string -> Prop.
  Variable inline : string -> pyval -> Prop.
  Hypothesis clean : forall rest v, inline rest v -> undocumented v.
  Notation Annotated := (Annotated text).
  Notation Entries := (Entries inline).
  Notation Items := (Items inline).
  Notation Collection := (Collection inline).

  (** The entries [d'] are the entries [d] with documentation before some of them. *)
  Inductive noted_entries : list (key * pyval) -> list (key * pyval) -> Prop :=
    | ne_nil : noted_entries [] []
    | ne_keep : forall k x x' d d', ~ doc_key (KStr k) -> strips x' x -> noted x' -> noted_entries d' d -> noted_entries ((KStr k, x') :: d') ((KStr k, x) :: d)
    | ne_doc : forall k t x x' d d', ~ doc_key (KStr k) -> strips x' x -> noted x' -> noted_entries d' d ->
        noted_entries ((KStr (doc_name k), VStr t) :: (KStr k, x') :: d') ((KStr k, x) :: d).
  Lemma noted_strips d' d : noted_entries d' d -> strips_entries d' d.
  Proof. induction 1; [constructor|apply se_keep; auto|apply se_drop; [eexists; reflexivity|]; apply se_keep; auto]. Qed.
  Lemma noted_keys d' d : noted_entries d' d -> (forall q, In q (map fst d) -> ~ doc_key q /\ In q (map fst d')) /\
    (forall q x, In (q, x) d' -> noted x /\ ((~ doc_key q /\ In q (map fst d)) \/ exists t n, q = KStr (doc_name n) /\ x = VStr t /\ In (KStr n) (map fst d))).
  Proof.
    induction 1 as [|k x x' d d' N St Nt H [I1 I2]|k t x x' d d' N St Nt H [I1 I2]]; (split; [intros q|intros q z]); cbn [map fst In].
    - tauto.
    - tauto.
    - intros [<-|Hq]; auto. destruct (I1 q Hq). auto.
    - intros [E|Hq]; [injection E as <- <-; auto|]. destruct (I2 q z Hq) as (A & [[B C]|(t & n & E1 & E2 & E3)]); split; auto. right. eauto 6.
    - intros [<-|Hq]; auto. destruct (I1 q Hq). auto.
    - intros [E|[E|Hq]].
      + injection E as <- <-. split; [apply undocumented_noted, leaf_undocumented; exact I|]. right. exists t, k. auto.
      + injection E as <- <-. auto.
      + destruct (I2 q z Hq) as (A & [[B C]|(t' & n & E1 & E2 & E3)]); split; auto. right. eauto 6.
  Qed.
  Lemma noted_texts d' d : noted_entries d' d -> doc_texts d'.
  Proof.
    intros H q x Hx D. destruct (noted_keys _ _ H) as [I1 I2]. destruct (I2 q x Hx) as (_ & [[N _]|(t & n & -> & -> & Hn)]); [contradiction|].
    split; [eauto|]. exists n. destruct (I1 _ Hn). auto.
  Qed.
  Lemma noted_nodup d' d : noted_entries d' d -> NoDup (map fst d) -> NoDup (map fst d').
  Proof.
    induction 1 as [|k x x' d d' N St Nt H IH|k t x x' d d' N St Nt H IH]; cbn [map fst]; intros U; [constructor| |]; inversion U as [|? ? U1 U2]; subst; destruct (noted_keys _ _ H) as [I1 I2].
    - constructor; [|auto]. intros F. apply in_map_iff in F as ([q y] & E & Hy). cbn [fst] in E. subst q. destruct (I2 _ _ Hy) as (_ & [[_ B]|(t & n & E & _)]); [auto|]. apply N. exists n. exact E.
    - assert (A : ~ In (KStr k) (map fst d')). { intros F. apply in_map_iff in F as ([q y] & E & Hy). cbn [fst] in E. subst q. destruct (I2 _ _ Hy) as (_ & [[_ B]|(t' & n & E & _)]); [auto|]. apply N. exists n. exact E. }
      constructor; [|constructor; auto]. intros [E|F]; [apply N; exists k; exact E|].
      apply in_map_iff in F as ([q y] & E & Hy). cbn [fst] in E. subst q. destruct (I2 _ _ Hy) as (_ & [[B _]|(t' & n & E & _ & B)]); [apply B; exists k; reflexivity|].
      injection E as E. subst n. auto.
  Qed.

  Definition all_named (ts : list token) : Prop := Forall named ts.
  Lemma annotated_value :
    (forall c ts d, Entries c ts d -> forall ts', Annotated ts ts' -> all_named ts -> exists d', Entries c ts' d' /\ noted_entries d' d) /\
    (forall c ts l, Items c ts l -> forall ts', Annotated ts ts' -> all_named ts -> exists l', Items c ts' l' /\ strips_all l' l /\ forall x, In x l' -> noted x) /\
    (forall ts v, Collection ts v -> forall ts', Annotated ts ts' -> all_named ts -> exists v', Collection ts' v' /\ strips v' v /\ noted v').
  Proof.
    apply structure_ind.
    - intros c ts' H _. inversion H; subst. exists []. split; constructor.
    - intros c i k rest v ts d Hi _ IH ts' H N. inversion N as [|? ? Nk N']; subst. pose proof (clean _ _ Hi) as U.
      inversion H; subst; destruct (IH _ ltac:(eassumption) N') as (d' & E & S').
      + eexists ((KStr k, v) :: d'). split; [now constructor|]. constructor; auto using strips_self, undocumented_noted.
      + eexists (_ :: (KStr k, v) :: d'). split; [apply en_text; now constructor|]. constructor; auto using strips_self, undocumented_noted.
    - intros c i k x ts d _ IH ts' H N. inversion N as [|? ? Nk N']; subst. assert (U : undocumented (VStr x)) by (apply leaf_undocumented; exact I).
      inversion H; subst; destruct (IH _ ltac:(eassumption) N') as (d' & E & S').
      + eexists ((KStr k, VStr x) :: d'). split; [now constructor|]. constructor; auto using strips_self, undocumented_noted.
      + eexists (_ :: (KStr k, VStr x) :: d'). split; [apply en_text; now constructor|]. constructor; auto using strips_self, undocumented_noted.
    - intros c i k rest ts d B _ IH ts' H N. inversion N as [|? ? Nk N']; subst. assert (U : undocumented (VInst ty_none)) by (apply leaf_undocumented; exact I).
      inversion H; subst; destruct (IH _ ltac:(eassumption) N') as (d' & E & S').
      + eexists ((KStr k, VInst ty_none) :: d'). split; [now apply en_null|]. constructor; auto using strips_self, undocumented_noted.
      + eexists (_ :: (KStr k, VInst ty_none) :: d'). split; [apply en_text; now apply en_null|]. constructor; auto using strips_self, undocumented_noted.
    - intros c i k rest body v ts d B W _ IHb _ IH ts' H N. inversion N as [|? ? Nk N']; subst. apply Forall_app in N' as [Nb Nt].
      inversion H; subst; match goal with X : Annotated (body ++ ts) _ |- _ => apply annotated_app in X as (b' & t' & -> & Ab & At) end;
        destruct (IHb _ Ab Nb) as (v' & Ev & Sv & Nv); destruct (IH _ At Nt) as (d' & E & S'); pose proof (annotated_within _ _ _ _ Ab W) as W'.
      + eexists ((KStr k, v') :: d'). split; [now apply en_block|]. constructor; auto.
      + eexists (_ :: (KStr k, v') :: d'). split; [apply en_text; now apply en_block|]. constructor; auto.
    - intros c ts' H _. inversion H; subst. exists []. split; [constructor|]. split; [constructor|]. intros x [].
    - intros c rest v ts l Hi _ IH ts' H N. inversion N as [|? ? Nk N']; subst. pose proof (clean _ _ Hi) as U. inversion H; subst. destruct (IH _ ltac:(eassumption) N') as (l' & E & S' & Nl).
      exists (v :: l'). split; [now constructor|]. split; [constructor; auto using strips_self|]. intros x [<-|Hx]; auto using undocumented_noted.
    - intros c body v ts l W _ IHb _ IH ts' H N. inversion N as [|? ? Nk N']; subst. apply Forall_app in N' as [Nb Nt]. inversion H; subst.
      match goal with X : Annotated (body ++ ts) _ |- _ => apply annotated_app in X as (b' & t' & -> & Ab & At) end.
      destruct (IHb _ Ab Nb) as (v' & Ev & Sv & Nv). destruct (IH _ At Nt) as (l' & E & S' & Nl). pose proof (annotated_deeper _ _ _ _ Ab W) as W'.
      exists (v' :: l'). split; [now constructor|]. split; [now constructor|]. intros x [<-|Hx]; auto.
    - intros c ts d Ne _ IH U ts' H N. destruct (IH _ H N) as (d' & E & S'). exists (VMap MDict ty_dict d'). split; [|split].
      + apply (co_map inline c); auto; [eapply annotated_some; eauto|eapply noted_nodup; eauto].
      + apply st_map. now apply noted_strips.
      + apply noted_map; [eapply noted_texts; eauto|]. intros q x Hx. exact (proj1 (proj2 (noted_keys _ _ S') q x Hx)).
    - intros c ts l Ne _ IH ts' H N. destruct (IH _ H N) as (l' & E & S' & Nl). exists (VSeq KList ty_list l'). split; [|split].
      + apply (co_seq inline c); auto. eapply annotated_some; eauto.
      + now apply st_seq.
      + now apply noted_seq.
  Qed.
End Values.

(** ** Values without documentation keys *)
Lemma undocumented_entry k t d q x : undocumented (VMap k t d) -> In (q, x) d -> ~ doc_key q /\ undocumented x.
Proof.
  intros U H. split; [apply (U k t d); [constructor|]; change q with (fst (q, x)); now apply in_map|]. intros k' t' d' Hs. apply (U k' t' d'). eapply sub_map; eauto.
Qed.
Lemma undocumented_item k t l x : undocumented (VSeq k t l) -> In x l -> undocumented x.
Proof. intros U H k' t' d' Hs. apply (U k' t' d'). eapply sub_seq; eauto. Qed.

Lemma structure_mono (inline inline' : string -> pyval -> Prop) : (forall r v, inline r v -> inline' r v) ->
  (forall c ts d, Entries inline c ts d -> Entries inline' c ts d) /\ (forall c ts l, Items inline c ts l -> Items inline' c ts l) /\ (forall ts v, Collection inline ts v -> Collection inline' ts v).
Proof.
  intros M. apply structure_ind; intros; try (constructor; auto; fail).
  - eapply co_map; eauto.
  - eapply co_seq; eauto.
Qed.
(** The keys of the tokens are keys of the value, and the values in one line are in it. *)
Lemma structure_undocumented inline :
  (forall c ts d, Entries inline c ts d -> (forall q x, In (q, x) d -> ~ doc_key q /\ undocumented x) -> Forall named ts /\ Entries (fun r v => inline r v /\ undocumented v) c ts d) /\
  (forall c ts l, Items inline c ts l -> (forall x, In x l -> undocumented x) -> Forall named ts /\ Items (fun r v => inline r v /\ undocumented v) c ts l) /\
  (forall ts v, Collection inline ts v -> undocumented v -> Forall named ts /\ Collection (fun r v => inline r v /\ undocumented v) ts v).
Proof.
  apply structure_ind.
  - intros c _. split; constructor.
  - intros c i k rest v ts d Hi _ IH U. destruct IH as [N E]; [intros; apply U; now right|]. destruct (U (KStr k) v (or_introl eq_refl)) as [Nk Uv]. split; [now constructor|now constructor].
  - intros c i k x ts d _ IH U. destruct IH as [N E]; [intros; apply U; now right|]. destruct (U (KStr k) _ (or_introl eq_refl)) as [Nk Uv]. split; [now constructor|now constructor].
  - intros c i k rest ts d B _ IH U. destruct IH as [N E]; [intros; apply U; now right|]. destruct (U (KStr k) _ (or_introl eq_refl)) as [Nk Uv]. split; [now constructor|now apply en_null].
  - intros c i k rest body v ts d B W _ IHb _ IH U. destruct IH as [N E]; [intros; apply U; now right|]. destruct (U (KStr k) _ (or_introl eq_refl)) as [Nk Uv]. destruct (IHb Uv) as [Nb Eb].
    split; [constructor; [auto|apply Forall_app; auto]|now apply en_block].
  - intros c _. split; constructor.
  - intros c rest v ts l Hi _ IH U. destruct IH as [N E]; [intros; apply U; now right|]. split; [constructor; [exact I|auto]|constructor; auto]. split; auto. apply U. now left.
  - intros c body v ts l W _ IHb _ IH U. destruct IH as [N E]; [intros; apply U; now right|]. destruct (IHb (U v (or_introl eq_refl))) as [Nb Eb].
    split; [constructor; [exact I|apply Forall_app; auto]|now constructor].
  - intros c ts d Ne _ IH U V. destruct IH as [N E]; [intros q x Hx; eapply undocumented_entry; eauto|]. split; auto. eapply co_map; eauto.
  - intros c ts l Ne _ IH V. destruct IH as [N E]; [intros x Hx; eapply undocumented_item; eauto|]. split; auto. eapply co_seq; eauto.
Qed.
(** The value of annotated tokens, for values without documentation keys. *)
Lemma annotated_document text inline ts v ts' : Collection inline ts v -> undocumented v -> Annotated text ts ts' ->
  exists v', Collection inline ts' v' /\ strips v' v /\ noted v'.
Proof.
  intros C U A. destruct (proj2 (proj2 (structure_undocumented inline)) ts v C U) as [N C'].
  destruct (proj2 (proj2 (annotated_value text (fun r x => inline r x /\ undocumented x) (fun r x H => proj2 H))) ts v C' ts' A N) as (v' & C2 & S2 & N2).
  exists v'. split; auto. apply (proj2 (proj2 (structure_mono (fun r x => inline r x /\ undocumented x) inline (fun r x H => proj1 H)))). exact C2.
Qed.

(** Literal texts are entries of the value. *)
Lemma texts_in_value inline :
  (forall c ts d, Entries inline c ts d -> forall i c' k t, In (TText i c' k t) ts -> In (KStr k, VStr t) d \/ exists q x kk tt d', In (q, x) d /\ sub (VMap kk tt d') x /\ In (KStr k, VStr t) d') /\
  (forall c ts l, Items inline c ts l -> forall i c' k t, In (TText i c' k t) ts -> exists x kk tt d', In x l /\ sub (VMap kk tt d') x /\ In (KStr k, VStr t) d') /\
  (forall ts v, Collection inline ts v -> forall i c' k t, In (TText i c' k t) ts -> exists kk tt d', sub (VMap kk tt d') v /\ In (KStr k, VStr t) d').
Proof.
  apply structure_ind.
  - intros c i c' k t [].
  - intros c i k rest v ts d Hi _ IH i' c' k' t [E|H]; [discriminate|]. destruct (IH _ _ _ _ H) as [A|(q & x & kk & tt & d' & A & B)]; [left; now right|right]. exists q, x, kk, tt, d'. split; [now right|auto].
  - intros c i k x ts d _ IH i' c' k' t [E|H]; [injection E as _ _ -> ->; left; now left|]. destruct (IH _ _ _ _ H) as [A|(q & y & kk & tt & d' & A & B)]; [left; now right|right]. exists q, y, kk, tt, d'. split; [now right|auto].
  - intros c i k rest ts d B _ IH i' c' k' t [E|H]; [discriminate|]. destruct (IH _ _ _ _ H) as [A|(q & x & kk & tt & d' & A & X)]; [left; now right|right]. exists q, x, kk, tt, d'. split; [now right|auto].
  - intros c i k rest body v ts d B W _ IHb _ IH i' c' k' t [E|H]; [discriminate|]. apply in_app_iff in H as [H|H].
    + destruct (IHb _ _ _ _ H) as (kk & tt & d' & A & X). right. exists (KStr k), v, kk, tt, d'. split; [now left|auto].
    + destruct (IH _ _ _ _ H) as [A|(q & x & kk & tt & d' & A & X)]; [left; now right|right]. exists q, x, kk, tt, d'. split; [now right|auto].
  - intros c i c' k t [].
  - intros c rest v ts l Hi _ IH i' c' k' t [E|H]; [discriminate|]. destruct (IH _ _ _ _ H) as (x & kk & tt & d' & A & X). exists x, kk, tt, d'. split; [now right|auto].
  - intros c body v ts l W _ IHb _ IH i' c' k' t [E|H]; [discriminate|]. apply in_app_iff in H as [H|H].
    + destruct (IHb _ _ _ _ H) as (kk & tt & d' & A & X). exists v, kk, tt, d'. split; [now left|auto].
    + destruct (IH _ _ _ _ H) as (x & kk & tt & d' & A & X). exists x, kk, tt, d'. split; [now right|auto].
  - intros c ts d Ne _ IH U i' c' k' t H. destruct (IH _ _ _ _ H) as [A|(q & x & kk & tt & d' & A & X & Y)]; [exists MDict, ty_dict, d; split; [constructor|auto]|]. exists kk, tt, d'. split; [eapply sub_map; eauto|auto].
  - intros c ts l Ne _ IH i' c' k' t H. destruct (IH _ _ _ _ H) as (x & kk & tt & d' & A & X & Y). exists kk, tt, d'. split; [eapply sub_seq; eauto|auto].
Qed.
(** Documented keys have their documentation. *)
Definition keyed (i c : nat) (k : string) (t : token) : Prop := match t with TKey i' c' k' _ | TText i' c' k' _ => i' = i /\ c' = c /\ k' = k | _ => False end.
Lemma annotated_text text ts ts' : Annotated text ts ts' -> forall i c k t, (forall o o', text i k o -> text i k o' -> o = o') -> text i k (Some t) ->
  (exists tok, In tok ts /\ keyed i c k tok) -> exists j, In (TText j c (doc_name k) t) ts'.
Proof.
  intros H i c k t F Ht. induction H as [|c0 ts ts' H IH|c0 r0 ts ts' H IH|i0 i' c0 k0 r0 ts ts' T0 H IH|i0 i' j c0 k0 r0 t0 ts ts' T0 H IH|i0 i' c0 k0 x0 ts ts' T0 H IH|i0 i' j c0 k0 x0 t0 ts ts' T0 H IH];
    intros (tok & Hi & K); try contradiction; (destruct Hi as [<-|Hi]; cbn [keyed] in K; [try contradiction|]);
    try (destruct (IH (ex_intro _ tok (conj Hi K))) as (j' & Hj); exists j'; cbn [In]; auto; fail);
    destruct K as (-> & -> & ->); pose proof (F _ _ Ht T0) as X; first [discriminate|injection X as ->; exists j; now left].
Qed.
