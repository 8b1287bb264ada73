(** Facts on the items of sequences in files read together with their comments. *)
From Coq Require Import Ascii String List Bool Arith Lia.
From Verif Require Import PyStr PyStrFacts SpecNames SpecText SpecYaml SpecYamlDoc YamlDocFacts Dispatch Values Strategies Tree Build SpecData SpecMerge SpecTypes SpecDocs DocMap TreeFacts SpecNotes SpecYamlNotes YamlNoteFacts.
Import ListNotations.
Local Open Scope string_scope.
Local Open Scope nat_scope.

Section Read.
  Variable inline : string -> pyval -> Prop.
  Variable text : nat -> string -> option string -> Prop.
  Notation CEntries := (CEntries inline text).
  Notation CItems := (CItems inline text).
  Notation CCollection := (CCollection inline text).

  Lemma same_item c (a b a' b' : list token) : Forall (fun t => c < col_of t) a -> Forall (fun t => c < col_of t) a' -> (b = [] \/ exists t r, b = t :: r /\ col_of t <= c) -> (b' = [] \/ exists t r, b' = t :: r /\ col_of t <= c) ->
    (a ++ b = a' ++ b')%list -> a = a' /\ b = b'.
  Proof.
    intros Wa. revert a'. induction Wa as [|x a Wx Wa IH]; intros a' Wa' B B' E.
    - destruct Wa' as [|y a' Wy Wa']; [auto|]. cbn [app] in E. subst b. destruct B as [B|(t & r & B & N)]; [discriminate|]. injection B as <- _. lia.
    - destruct Wa' as [|y a' Wy Wa'].
      + cbn [app] in E. subst b'. destruct B' as [B'|(t & r & B' & N)]; [discriminate|]. injection B' as <- _. lia.
      + cbn [app] in E. injection E as -> E. destruct (IH a' Wa' B B' E) as [-> ->]. auto.
  Qed.
  Lemma citems_ends c ts l l' : CItems c ts l l' -> ts = [] \/ exists t r, ts = t :: r /\ col_of t <= c.
  Proof. destruct 1; [now left|right; eexists _, _; split; [reflexivity|cbn [col_of]; lia]..]. Qed.
  Lemma citems_item c ts m body : item_at c ts m body -> forall l l', CItems c ts l l' -> exists v v', nth_error l m = Some v /\ nth_error l' m = Some v' /\ CCollection body v v'.
  Proof.
    induction 1 as [body b W B|rest ts m body H IH|first b m body W H IH B]; intros l l' C.
    - inversion C as [| |? body0 v v' ts0 l0 l0' W0 Cb C0 E1 E2]; subst. destruct (same_item c _ _ _ _ W W0 B (citems_ends _ _ _ _ C0) (eq_sym E2)) as [-> _]. exists v, v'. auto.
    - inversion C as [|? ? v ts0 l0 l0' Hi C0|]; subst. exact (IH _ _ C0).
    - inversion C as [| |? body0 v v' ts0 l0 l0' W0 Cb C0 E1 E2]; subst. destruct (same_item c _ _ _ _ W W0 (or_intror B) (citems_ends _ _ _ _ C0) (eq_sym E2)) as [_ E]. subst ts0. exact (IH _ _ C0).
  Qed.
  (** The mapping under a key. *)
  Lemma under_key ts c j key rest a body b v v' : ts = (a ++ TKey j c key rest :: (body ++ b))%list -> starts c ts -> Forall (within c) body -> body <> [] -> (b = [] \/ exists t r, b = t :: r /\ ~ within c t) -> CCollection ts v v' ->
    exists d d' v0 v0', v = VMap MDict ty_dict d /\ v' = VMap MDict ty_dict d' /\ In (KStr key, v0) d /\ In (KStr key, v0') d' /\ CCollection body v0 v0'.
  Proof.
    intros Et Hs W Nb B CC. assert (Kk : key_of j c key (TKey j c key rest)) by (cbn [key_of]; auto). pose proof (key_not_within _ _ _ _ Kk) as Nk.
    inversion CC as [c' us d d' Ne C Nd E1 E2 E3|c' us l l' Ne C E1 E2 E3]; subst us v v'.
    - pose proof (centries_starts _ _ _ _ _ _ _ C Hs) as E. subst c'. destruct (centries_split _ _ _ _ _ _ C _ _ _ Et Nk eq_refl) as (d1 & d2 & d1' & d2' & -> & -> & X).
      destruct body as [|tb body]; [congruence|]. assert (Wb : within c tb) by now inversion W.
      inversion X as [|? ? ? o ? v0 ts0 d0 d0' T0 Hi C0| |? ? ? o ? ts0 d0 d0' T0 Br C0|? ? ? o ? body0 v0 v0' ts0 d0 d0' T0 Br W0 Cb C0 F1 F2]; subst.
      + exfalso. exact (centries_head _ _ _ _ _ _ _ C0 Wb).
      + exfalso. exact (centries_head _ _ _ _ _ _ _ C0 Wb).
      + assert (E : body0 = tb :: body /\ ts0 = b).
        { apply (same_body c); auto. destruct ts0 as [|t0 r0]; [now left|right]. exists t0, r0. split; auto. eapply centries_head; eauto. }
        destruct E as [-> ->]. eexists _, _, v0, v0'. split; [reflexivity|]. split; [reflexivity|]. split; [apply in_app_iff; right; now left|]. split; [|exact Cb]. apply in_app_iff. right. apply in_app_iff. right. now left.
    - exfalso. pose proof (citems_starts _ _ _ _ _ _ _ C Hs) as E. subst c' ts. apply (citems_key _ _ _ _ _ _ C j key (TKey j c key rest)); [apply in_app_iff; right; now left|exact Kk].
  Qed.
  Lemma flat_strings d d' : flat d d' -> string_keys d'.
  Proof.
    induction 1 as [|k o x x' d d' F IH]; intros q Hq; [destruct Hq|]. unfold has_key in Hq. rewrite map_app in Hq. apply in_app_iff in Hq as [Hq|[<-|Hq]]; [|cbn [fst]; eauto|now apply IH].
    destruct o as [w|]; [|destruct Hq]. destruct Hq as [<-|[]]. cbn [fst]. eauto.
  Qed.
  Lemma item_line_some ts p m k i : item_line ts p m k i -> ts <> [].
  Proof. destruct 1 as [c ts m body k i (t & r & -> & _)|]; [discriminate|]. destruct a; discriminate. Qed.
  Lemma item_notes ts p m k i : item_line ts p m k i -> forall v v', CCollection ts v v' -> undocumented v ->
    exists l l' d d', value_at v p (VSeq KList ty_list l) /\ value_at v' p (VSeq KList ty_list l') /\ nth_error l m = Some (VMap MDict ty_dict d) /\ nth_error l' m = Some (VMap MDict ty_dict d') /\ has_key (KStr k) d /\ string_keys d' /\ has_key (KStr k) d' /\
      exists o, text i k o /\ forall x, In (KStr (doc_name k), x) d' <-> exists w, o = Some w /\ x = VStr w.
  Proof.
    induction 1 as [c ts m body k i Hs Hi L|c j key rest a body b p m k i Hs W B L IH]; intros v v' CC U.
    - inversion CC as [c' us d d' Ne C Nd E1 E2 E3|c' us l l' Ne C E1 E2 E3]; subst us v v'.
      + exfalso. destruct Hs as (t & r & -> & Ec). destruct C; inversion Hi.
      + pose proof (citems_starts _ _ _ _ _ _ _ C Hs) as E. subst c'. destruct (citems_item _ _ _ _ Hi _ _ C) as (w & w' & A & A' & Cb).
        assert (Uw : undocumented w) by (eapply undocumented_item; [exact U|eapply nth_error_In; exact A]).
        destruct (line_notes _ _ _ _ _ _ L _ _ Cb Uw) as (d' & Vd & Hk & O). assert (Ew : w' = VMap MDict ty_dict d') by (now inversion Vd). rewrite Ew in Cb, A'. clear Vd Ew. inversion Cb as [c2 us2 d d2 Ne2 C2 Nd2 G1 G2 G3|]; subst w d2.
        exists l, l', d, d'. split; [constructor|]. split; [constructor|]. split; [exact A|]. split; [exact A'|].
        split. { inversion L as [c3 i3 k3 t3 ts3 Hs3 Ht3 K3|]; subst. pose proof (centries_starts _ _ _ _ _ _ _ C2 Hs3) as E3. subst c3. destruct (centries_key _ _ _ _ _ _ C2 _ _ _ Ht3 K3) as (x & Hx). exact (in_map fst _ _ Hx). }
        split; [eapply flat_strings, flat_of; eauto|]. split; [exact Hk|exact O].
    - destruct (under_key _ _ _ _ _ _ _ _ _ _ eq_refl Hs W (item_line_some _ _ _ _ _ L) B CC) as (d & d' & v0 & v0' & -> & -> & I & I' & Cb).
      destruct (IH _ _ Cb) as (l & l' & e & e' & V & V' & X); [eapply undocumented_entry; eauto|]. exists l, l', e, e'. split; [econstructor; eauto|]. split; [econstructor; eauto|exact X].
  Qed.

  (** ** Back from the entries of items to their lines *)
  Lemma citems_back c ts l l' : CItems c ts l l' -> forall m w, nth_error l' m = Some w -> In w l \/ exists body v, item_at c ts m body /\ In v l /\ CCollection body v w.
  Proof.
    induction 1 as [c|c rest v ts l l' Hi C IH|c body v v' ts l l' W Cb C IH]; intros m w E.
    - destruct m; discriminate.
    - destruct m as [|m]; [injection E as <-; left; now left|]. destruct (IH m w E) as [A|(b & x & A & B & D)]; [left; now right|right]. exists b, x. split; [now constructor|]. split; [now right|exact D].
    - pose proof (citems_ends _ _ _ _ C) as En. destruct m as [|m]; [injection E as <-; right; exists body, v; split; [now constructor|split; [now left|exact Cb]]|].
      destruct (IH m w E) as [A|(b & x & A & B & D)]; [left; now right|right]. exists b, x. split; [|split; [now right|exact D]]. apply ia_next; auto. destruct En as [->|En]; [inversion A|exact En].
  Qed.
  Lemma centries_note c ts d d' : CEntries c ts d d' -> (forall q, In q (map fst d) -> ~ doc_key q) -> forall k x, In (KStr (doc_name k), x) d' -> exists i t w, In t ts /\ key_of i c k t /\ x = VStr w /\ text i k (Some w).
  Proof.
    assert (Here : forall i k0 o (y : pyval) d' k x, text i k0 o -> ~ doc_key (KStr k0) -> In (KStr (doc_name k), x) (doc_entry k0 o ++ (KStr k0, y) :: d')%list ->
      (k0 = k /\ exists w, x = VStr w /\ text i k (Some w)) \/ In (KStr (doc_name k), x) d').
    { intros i k0 o y e k x T N H. apply in_app_iff in H as [H|[H|H]]; [|exfalso; apply N; assert (E : KStr k0 = KStr (doc_name k)) by congruence; rewrite E; apply doc_name_key|now right]. destruct o as [w|]; [|destruct H]. destruct H as [H|[]].
      assert (E : doc_name k0 = doc_name k) by congruence. apply doc_name_inj in E. subst k0. left. split; [reflexivity|]. exists w. split; [congruence|exact T]. }
    induction 1 as [c|c i0 k0 o rest v ts d d' T Hi C IH|c i0 k0 o x0 ts d d' T C IH|c i0 k0 o rest ts d d' T Br C IH|c i0 k0 o rest body v v' ts d d' T Br W Cb C IH]; intros N k x H; [destruct H| | | |];
      (destruct (Here _ _ _ _ _ _ _ T (N _ (or_introl eq_refl)) H) as [[-> (w & -> & Tw)]|H']; [eexists i0, _, w; split; [now left|]; split; [cbn [key_of]; auto|auto]|];
       destruct (IH (fun q Hq => N q (or_intror Hq)) k x H') as (i & t & w & Ht & K & E & Tw); exists i, t, w; split; [|auto]; right).
    1-3: exact Ht.
    apply in_app_iff. now right.
  Qed.
  Lemma centries_start c ts d d' : CEntries c ts d d' -> ts <> [] -> starts c ts.
  Proof. destruct 1; [congruence|intros _; eexists _, _; split; reflexivity..]. Qed.
  Lemma citems_start c ts l l' : CItems c ts l l' -> ts <> [] -> starts c ts.
  Proof. destruct 1; [congruence|intros _; eexists _, _; split; reflexivity..]. Qed.
  Lemma centries_back c ts d d' : CEntries c ts d d' -> forall key w, In (KStr key, w) d' -> (exists x, w = VStr x) \/ In (KStr key, w) d \/
    exists a j rest body b v, ts = (a ++ TKey j c key rest :: (body ++ b))%list /\ Forall (within c) body /\ (b = [] \/ exists t r, b = t :: r /\ ~ within c t) /\ In (KStr key, v) d /\ CCollection body v w.
  Proof.
    assert (Doc : forall (k0 : string) o (y : pyval) d' key w, In (KStr key, w) (doc_entry k0 o ++ (KStr k0, y) :: d')%list -> (exists x, w = VStr x) \/ (k0 = key /\ y = w) \/ In (KStr key, w) d').
    { intros k0 o y e key w H. apply in_app_iff in H as [H|[H|H]]; [|right; left; split; congruence|auto]. destruct o as [t|]; [|destruct H]. destruct H as [H|[]]. left. exists t. congruence. }
    induction 1 as [c|c i0 k0 o rest v ts d d' T Hi C IH|c i0 k0 o x0 ts d d' T C IH|c i0 k0 o rest ts d d' T Br C IH|c i0 k0 o rest body v v' ts d d' T Br W Cb C IH]; intros key w H; [destruct H| | | |];
      (destruct (Doc _ _ _ _ _ _ H) as [X|[[-> <-]|H']]; [now left| |]).
    1,3,5: right; left; now left.
    4: { right. right. exists [], i0, rest, body, ts, v. split; [reflexivity|]. split; [exact W|]. split; [|split; [now left|exact Cb]]. destruct ts as [|t r]; [now left|right]. exists t, r. split; [reflexivity|]. eapply centries_head; eauto. }
    all: destruct (IH key w H') as [X|[X|(a & j & r & bo & b & z & -> & Wb & B & I & X)]]; [now left|right; left; now right|right; right].
    1-3: eexists (_ :: a), j, r, bo, b, z; split; [reflexivity|]; split; [exact Wb|]; split; [exact B|]; split; [now right|exact X].
    exists (TKey i0 c k0 rest :: body ++ a)%list, j, r, bo, b, z. split; [cbn [app]; now rewrite <- app_assoc|]. split; [exact Wb|]. split; [exact B|]. split; [now right|exact X].
  Qed.
  Lemma value_seq_undocumented v p sk ty l m mk td d k x : value_at v p (VSeq sk ty l) -> undocumented v -> nth_error l m = Some (VMap mk td d) -> ~ In (KStr (doc_name k), x) d.
  Proof.
    intros H. remember (VSeq sk ty l) as y eqn:E. induction H as [v|mk' t' d' k' x' p y Hx H IH]; intros U Hm Hn.
    - subst v. apply nth_error_In in Hm. pose proof (undocumented_item _ _ _ _ U Hm) as V. exact (V _ _ _ (sub_refl _) _ (in_map fst _ _ Hn) (doc_name_key k)).
    - refine (IH E _ Hm Hn). eapply undocumented_entry; eauto.
  Qed.
  Lemma item_back v' p y : value_at v' p y -> forall sk ty l' m mk td d' k x ts v, y = VSeq sk ty l' -> nth_error l' m = Some (VMap mk td d') -> In (KStr (doc_name k), VStr x) d' -> CCollection ts v v' -> undocumented v ->
    exists i, item_line ts p m k i /\ text i k (Some x).
  Proof.
    induction 1 as [v'|mk0 t0 d0' key x0 p y Hx H IH]; intros sk ty l' m mk td d' k x ts v E Hm Hn CC U.
    - subst v'. inversion CC as [|c us l l2 Ne C E1 E2 E3]; subst. destruct (citems_back _ _ _ _ C _ _ Hm) as [I|(body & w & Ia & I & Cb)].
      + exfalso. pose proof (undocumented_item _ _ _ _ U I) as V. exact (V _ _ _ (sub_refl _) _ (in_map fst _ _ Hn) (doc_name_key k)).
      + pose proof (undocumented_item _ _ _ _ U I) as V. inversion Cb as [c0 us d d2 Ne0 C0 Nd F1 F2 F3|]; subst. destruct (centries_note _ _ _ _ C0 (fun q Hq => V _ _ _ (sub_refl _) q Hq) _ _ Hn) as (i & t & w & Ht & K & Ew & Tw).
        assert (w = x) by congruence. subst w. exists i. split; [|exact Tw]. apply (il_here c _ _ body); [eapply citems_start; eauto|exact Ia|]. apply (lo_here c0 i k t); auto. eapply centries_start; eauto.
    - inversion CC as [c us d d2 Ne C Nd E1 E2 E3|]; subst. destruct (centries_back _ _ _ _ C _ _ Hx) as [(z & ->)|[I|(a & j & r & bo & b & z & -> & Wb & B & I & X)]].
      + inversion H.
      + exfalso. exact (value_seq_undocumented _ _ _ _ _ _ _ _ _ _ _ H (proj2 (undocumented_entry _ _ _ _ _ U I)) Hm Hn).
      + destruct (IH _ _ _ _ _ _ _ _ _ bo z eq_refl Hm Hn X (proj2 (undocumented_entry _ _ _ _ _ U I))) as (i & L & Tw). exists i. split; [|exact Tw]. apply (il_in c); auto. eapply centries_start; eauto.
  Qed.
End Read.
