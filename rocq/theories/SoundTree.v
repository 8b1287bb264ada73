(** Acceptance of values by trees, and what the children of a built node are. *)
From Coq Require Import Ascii String List Bool Arith ZArith Lia Permutation.
From Verif Require Import PyStr PyStrFacts Utils Strategies Dispatch Values Tree Build TreeFacts SpecNames NamesFacts SpecData SpecMerge BuildFacts BuildInd TotalFacts TreeProofs SeqFacts FloatFacts MergeFacts GroupFacts SpecTypes SpecSound.
Import ListNotations.
Local Open Scope string_scope.
Local Open Scope nat_scope.

(** ** Trees and values *)
Section Fits.
  Variable s : strategies.

  Definition seq_fits (k : seqkind) (ps : list (key * (pyval -> Prop))) (l : list pyval) : Prop :=
    match k, s_tuple s with
    | KTuple, TFixed => Forall2 (fun p x => snd p x) ps l
    | _, _ => forall x, In x l -> exists p, In p ps /\ snd p x
    end.
  Definition plain_map_fits (ps : list (key * (pyval -> Prop))) (d : dict) : Prop :=
    forall k x, In (k, x) d -> (exists p, In p ps /\ key_type (fst p) = key_type k) /\ (exists p, In p ps /\ snd p x).
  Definition open_fits (ps : list (key * (pyval -> Prop))) (d : dict) : Prop :=
    forall k x, In (k, x) d -> exists p, In p ps /\ fst p = k /\ snd p x.
  Definition requires (m : meta) (d : dict) : Prop := forall k, dget k (m_required m) = Some true -> has_key k d.

  Fixpoint fits (t : tree) (v : pyval) : Prop :=
    match t with
    | Node i cs =>
        let ps := map (fun e => (fst (fst e), fits (snd e))) cs in
        match i_kind i with
        | NInst => ty_id (i_type i) = t_NoneType \/ class_accepts (ty_name (i_type i)) v
        | NFun f => exists g, v = VFun g /\ same_function f g
        | NClass n => exists m, v = VClass m n
        | NModule => exists u, v = VModule u
        | NIO => exists u, v = VIO u
        | NNumpy d => exists u, v = VNdarray u d
        | NSeq k => exists l, v = VSeq k (i_type i) l /\ seq_fits k ps l
        | NProxy => exists d, v = VMap MProxy (i_type i) d /\ plain_map_fits ps d
        | NDict _ m =>
            exists d, v = VMap MDict (i_type i) d /\
              (if is_typed_dict s m then open_fits ps d /\ requires m d else plain_map_fits ps d)
        end
    end.

  Definition child_fits (e : key * nat * tree) : key * (pyval -> Prop) := (ekey e, fits (etree e)).
  Lemma fits_node i cs v : fits (Node i cs) v =
    let ps := map child_fits cs in
    match i_kind i with
    | NInst => ty_id (i_type i) = t_NoneType \/ class_accepts (ty_name (i_type i)) v
    | NFun f => exists g, v = VFun g /\ same_function f g
    | NClass n => exists m, v = VClass m n
    | NModule => exists u, v = VModule u
    | NIO => exists u, v = VIO u
    | NNumpy d => exists u, v = VNdarray u d
    | NSeq k => exists l, v = VSeq k (i_type i) l /\ seq_fits k ps l
    | NProxy => exists d, v = VMap MProxy (i_type i) d /\ plain_map_fits ps d
    | NDict _ m =>
        exists d, v = VMap MDict (i_type i) d /\
          (if is_typed_dict s m then open_fits ps d /\ requires m d else plain_map_fits ps d)
    end.
  Proof. reflexivity. Qed.

  (** Inclusion of lists of acceptors. *)
  Definition psub (ps qs : list (key * (pyval -> Prop))) : Prop :=
    forall p, In p ps -> exists q, In q qs /\ fst q = fst p /\ forall x, snd p x -> snd q x.
  Lemma open_sub ps qs d : psub ps qs -> open_fits ps d -> open_fits qs d.
  Proof. intros H F k x Hx. destruct (F k x Hx) as (p & Hp & E & G). destruct (H p Hp) as (q & Hq & E' & G'). exists q. repeat split; auto. congruence. Qed.
  Lemma plain_map_sub ps qs d : psub ps qs -> plain_map_fits ps d -> plain_map_fits qs d.
  Proof.
    intros H F k x Hx. destruct (F k x Hx) as [(p & Hp & E) (p' & Hp' & G)]. split.
    - destruct (H p Hp) as (q & Hq & E' & _). exists q. split; auto. congruence.
    - destruct (H p' Hp') as (q & Hq & _ & G'). eauto.
  Qed.
  Lemma seq_sub k ps qs l : Forall2 (fun p q : key * (pyval -> Prop) => forall x, snd p x -> snd q x) ps qs -> seq_fits k ps l -> seq_fits k qs l.
  Proof.
    intros H F. unfold seq_fits in *. assert (P : forall x p, In p ps -> snd p x -> exists q, In q qs /\ snd q x).
    { clear F. induction H as [|p q ps qs H1 H2 IH]; intros x p0 []; intros G.
      - subst. exists q. split; [now left|auto].
      - destruct (IH x p0 H G) as (q' & A & B). exists q'. split; [now right|auto]. }
    assert (T : (forall x, In x l -> exists p, In p ps /\ snd p x) -> forall x, In x l -> exists p, In p qs /\ snd p x).
    { intros G x Hx. destruct (G x Hx) as (p & A & B). eapply P; eauto. }
    destruct k; auto. destruct (s_tuple s); auto. clear P T. revert l F. induction H as [|p q ps qs H1 H2 IH]; intros xs F; inversion F; subst; constructor; auto.
  Qed.

  Lemma fits_ren t : forall k new n v, fits (ren k new n t) v <-> fits t v.
  Proof.
    induction t as [i cs IH] using tree_ind'. intros k new n v. rewrite Forall_forall in IH. cbn [ren]. rewrite !fits_node. cbn [with_name i_kind i_type].
    set (cs' := map _ cs).
    assert (A : Forall2 (fun p q : key * (pyval -> Prop) => forall x, snd p x -> snd q x) (map child_fits cs) (map child_fits cs') /\
                Forall2 (fun p q : key * (pyval -> Prop) => forall x, snd p x -> snd q x) (map child_fits cs') (map child_fits cs)).
    { subst cs'. clear v. induction cs as [|[[k0 m0] c] cs IHc]; [split; constructor|]. destruct IHc as [I1 I2]; [intros; apply IH; now right|].
      split; (constructor; [|auto]); cbn [child_fits snd etree]; intros x Hx; [apply (IH (k0, m0, c) (or_introl eq_refl)); exact Hx | apply (IH (k0, m0, c) (or_introl eq_refl)) in Hx; exact Hx]. }
    assert (B : psub (map child_fits cs) (map child_fits cs') /\ psub (map child_fits cs') (map child_fits cs)).
    { subst cs'. split; intros p Hp; apply in_map_iff in Hp as (e & <- & He).
      - exists (child_fits (ekey e, emult e, ren (k * emult e) new n (etree e))). split; [|split; [reflexivity|]].
        + apply in_map. apply in_map_iff. exists e. split; auto. now destruct e as [[? ?] ?].
        + cbn [child_fits snd etree]. intros x Hx. apply (IH e He). exact Hx.
      - apply in_map_iff in He as ([[k0 m0] c] & <- & He). exists (child_fits (k0, m0, c)). split; [now apply in_map|]. split; [reflexivity|].
        cbn [child_fits snd etree]. intros x Hx. apply (IH (k0, m0, c) He) in Hx. exact Hx. }
    destruct A as [A1 A2], B as [B1 B2]. destruct (i_kind i); try reflexivity.
    - split; intros (l & E & F); exists l; (split; [exact E|]); eapply seq_sub; eauto.
    - split; intros (d & E & F); exists d; (split; [exact E|]); eapply plain_map_sub; eauto.
    - split; intros (d & E & F); exists d; (split; [exact E|]); destruct (is_typed_dict s m).
      + destruct F. split; auto. eapply open_sub; eauto.
      + eapply plain_map_sub; eauto.
      + destruct F. split; auto. eapply open_sub; eauto.
      + eapply plain_map_sub; eauto.
  Qed.
  Lemma fits_rename t new v : fits (rename new t) v <-> fits t v.
  Proof. apply fits_ren. Qed.
  Lemma thash_rename t new : thash s (rename new t) = thash s t.
  Proof. apply thash_ren. Qed.
End Fits.

(** ** Covering *)
Lemma same_function_refl f : same_function f f.
Proof. unfold same_function. destruct (f_sig f) as [[p n]|]; auto. split; auto. destruct (f_lambda f); auto. Qed.
Lemma same_function_trans f g h : same_function f g -> same_function g h -> same_function f h.
Proof.
  unfold same_function. destruct (f_sig f) as [[p n]|], (f_sig g) as [[q m]|], (f_sig h) as [[r o]|]; try tauto. intros [A B] [C E]. rewrite <- A in *. split; auto.
  destruct (f_lambda f); congruence.
Qed.
Lemma covers_trans : forall n x y z, vdepth x <= n -> covers x y -> covers y z -> covers x z.
Proof.
  induction n as [|n IH]; intros x y z Hn A B.
  - inversion A as [v|fa fb Ef|v w Iv Iw Et|k t l l' Nk F|t l l' F|k t d d' Fk F]; subst; auto; try (cbn [vdepth] in Hn; lia).
    + inversion B; subst; auto; try contradiction. apply cov_fun. eapply same_function_trans; eauto.
    + inversion B; subst; auto; try contradiction. apply cov_instance; auto. congruence.
  - inversion A as [v|fa fb Ef|v w Iv Iw Et|k t l l' Nk F|t l l' F|k t d d' Fk F]; subst; auto.
    + inversion B; subst; auto; try contradiction. apply cov_fun. eapply same_function_trans; eauto.
    + inversion B; subst; auto; try contradiction. apply cov_instance; auto. congruence.
    + inversion B as [v|fc fd Ef'|v w Iv Iw Et|k' t' l1 l'' Nk' F'|t' l1 l'' F'|]; subst; auto; try contradiction.
      apply cov_seq; auto. intros z0 Hz. destruct (F' z0 Hz) as (y0 & Hy & Cy). destruct (F y0 Hy) as (x0 & Hx & Cx). exists x0. split; auto.
      eapply IH; eauto. eapply vdepth_seq; eauto.
    + inversion B as [v|fc fd Ef'|v w Iv Iw Et|k' t' l1 l'' Nk' F'|t' l1 l'' F'|]; subst; auto; try contradiction.
      apply cov_tuple. assert (D : forall x, In x l -> vdepth x <= n) by (intros; eapply vdepth_seq; eauto). clear A B Hn.
      revert l'' F'. induction F; intros l'' F'; inversion F'; subst; constructor; auto.
      * eapply IH; [|eauto|eauto]. apply D. now left.
      * apply IHF; auto. intros; apply D. now right.
    + inversion B as [v|fc fd Ef'|v w Iv Iw Et|k' t' l1 l'' Nk' F'|t' l1 l'' F'|k' t' d1 d'' Fk' F']; subst; auto; try contradiction.
      apply cov_map; [intros key; rewrite Fk; apply Fk'|]. intros key z0 Hz. destruct (F' key z0 Hz) as (y0 & Hy & Cy). destruct (F key y0 Hy) as (x0 & Hx & Cx).
      exists x0. split; auto. eapply IH; eauto. eapply vdepth_map; eauto.
Qed.

(** ** Children of mappings *)
Lemma add_group_In s k c gs t ks : In (t, ks) gs -> exists ks', In (t, ks') (add_group s k c gs) /\ incl ks ks'.
Proof.
  induction gs as [|[t' ks'] gs IH]; intros []; cbn [add_group].
  - injection H as -> ->. destruct (teq s c t); [exists (ks ++ [k])%list; split; [now left | apply incl_appl, incl_refl] | exists ks; split; [now left | apply incl_refl]].
  - destruct (IH H) as (ks2 & A & B). destruct (teq s c t'); [exists ks; split; [now right | apply incl_refl] | exists ks2; split; [now right | auto]].
Qed.
Lemma add_group_new s k c gs : exists t ks, In (t, ks) (add_group s k c gs) /\ In k ks /\ teq s c t = true.
Proof.
  induction gs as [|[t' ks'] gs IH]; cbn [add_group].
  - exists c, [k]. split; [now left|]. split; [now left | apply teq_refl].
  - destruct (teq s c t') eqn:E.
    + exists t', (ks' ++ [k])%list. split; [now left|]. split; auto. apply in_app_iff. right. now left.
    + destruct IH as (t & ks & A & B & C). exists t, ks. split; [now right|auto].
Qed.
(** Every key of a group has a node equal to the one of the group. *)
Definition group_ok (s : strategies) (cs : list (key * tree)) (g : tree * list key) : Prop :=
  (exists k, In (k, fst g) cs) /\ forall k, In k (snd g) -> exists c, In (k, c) cs /\ teq s c (fst g) = true.
Lemma add_group_ok s cs k c gs : In (k, c) cs -> (forall g, In g gs -> group_ok s cs g) -> forall g, In g (add_group s k c gs) -> group_ok s cs g.
Proof.
  intros Hc. induction gs as [|[t' ks'] gs IH]; intros H g Hg; cbn [add_group] in Hg.
  - destruct Hg as [<-|[]]. split; [eexists; cbn; eauto|]. cbn [snd fst]. intros k0 [<-|[]]. exists c. split; auto. apply teq_refl.
  - destruct (teq s c t') eqn:E.
    + destruct Hg as [<-|Hg]; [|apply H; now right]. destruct (H (t', ks') (or_introl eq_refl)) as [A B]. split; auto. cbn [snd fst] in *.
      intros k0 Hk. apply in_app_iff in Hk as [Hk|[<-|[]]]; auto. exists c. auto.
    + destruct Hg as [<-|Hg]; [apply H; now left|]. apply IH; auto. intros; apply H; now right.
Qed.
Lemma groups_of_ok s cs : forall g, In g (groups_of s cs) -> group_ok s cs g.
Proof.
  unfold groups_of. assert (G : forall l gs, incl l cs -> (forall g, In g gs -> group_ok s cs g) ->
    forall g, In g (fold_left (fun gs kc => add_group s (fst kc) (snd kc) gs) l gs) -> group_ok s cs g).
  { induction l as [|[k c] l IH]; intros gs Hl Hg g; cbn [fold_left]; auto. apply IH; [intros x Hx; apply Hl; now right|].
    apply add_group_ok; auto. apply Hl. now left. }
  apply G; [apply incl_refl | intros g []].
Qed.
Lemma groups_of_has s cs k c : In (k, c) cs -> exists t ks, In (t, ks) (groups_of s cs) /\ In k ks.
Proof.
  unfold groups_of. assert (K : forall l gs, (exists t ks, In (t, ks) gs /\ In k ks) -> exists t ks, In (t, ks) (fold_left (fun gs kc => add_group s (fst kc) (snd kc) gs) l gs) /\ In k ks).
  { induction l as [|[k0 c0] l IH]; intros gs (t & ks & A & B); cbn [fold_left]; eauto. apply IH. destruct (add_group_In s k0 c0 gs t ks A) as (ks' & A' & I). eauto. }
  assert (G : forall l gs, In (k, c) l -> exists t ks, In (t, ks) (fold_left (fun gs kc => add_group s (fst kc) (snd kc) gs) l gs) /\ In k ks).
  { induction l as [|[k0 c0] l IH]; intros gs []; cbn [fold_left].
    - injection H as -> ->. apply K. cbn [fst snd]. destruct (add_group_new s k c gs) as (t & ks & A & B & _). eauto.
    - now apply IH. }
  now apply G.
Qed.

(** With every key once, the node under a key comes from a value whose tree equals the tree of the value of the key. *)
Lemma share_groups_spec s parent cs : NoDup (map fst cs) ->
  (forall e, In e (share_groups s parent cs) -> exists c k0 c0, In (ekey e, c) cs /\ In (k0, c0) cs /\ teq s c c0 = true /\
     (etree e = c0 \/ exists n, etree e = rename n c0)).
Proof.
  intros N e He. unfold share_groups in He. apply in_map_iff in He as ([k c] & <- & Hc). cbn [fst snd].
  destruct (find _ _) as [[t ks]|] eqn:F.
  - apply find_some in F as [F1 F2]. cbn [snd] in F2. apply existsb_exists in F2 as (k' & Hk & E). apply key_eqb_spec in E. subst k'.
    apply rename_groups_spec in F1 as (t0 & Ht0 & E). apply groups_of_ok in Ht0 as [(k0 & A) B]. cbn [fst snd] in *. destruct (B k Hk) as (c' & Hc' & T).
    exists c', k0, t0. cbn [ekey etree fst snd]. split; auto. split; auto. split; auto. destruct E as [->|(l & ->)]; eauto.
  - exists c, k, c. cbn [ekey etree fst snd]. split; auto. split; auto. split; [apply teq_refl|auto].
Qed.
