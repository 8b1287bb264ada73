(** The nodes of a mapping: keys with equal nodes share one node, which is renamed. *)
From Coq Require Import Ascii String List Bool Arith Lia.
From Verif Require Import PyStr PyStrFacts Utils Strategies Dispatch Values Tree Build TreeFacts SpecData BuildFacts SeqFacts.
Import ListNotations.
Local Open Scope string_scope.
Local Open Scope nat_scope.

(** ** Groups *)
Lemma add_group_cases s k c gs :
  (exists a t ks b, gs = (a ++ (t, ks) :: b)%list /\ (forall g, In g a -> teq s c (fst g) = false) /\ teq s c t = true /\ add_group s k c gs = (a ++ (t, ks ++ [k]) :: b)%list) \/
  ((forall g, In g gs -> teq s c (fst g) = false) /\ add_group s k c gs = (gs ++ [(c, [k])])%list).
Proof.
  induction gs as [|[t ks] gs IH]; cbn [add_group]; [right; split; [intros g []|reflexivity]|]. destruct (teq s c t) eqn:E.
  - left. exists [], t, ks, gs. split; auto. split; [intros g []|auto].
  - destruct IH as [(a & t' & ks' & b & -> & A & B & ->)|[A ->]].
    + left. exists ((t, ks) :: a), t', ks', b. split; auto. split; auto. intros g [<-|Hg]; auto.
    + right. split; auto. intros g [<-|Hg]; auto.
Qed.
Lemma pairs_app {A} (R : A -> A -> Prop) l m : ForallOrdPairs R (l ++ m) <-> ForallOrdPairs R l /\ ForallOrdPairs R m /\ forall x y, In x l -> In y m -> R x y.
Proof.
  induction l as [|a l IH]; cbn [app].
  - split; [intros H; split; [constructor|split; auto; intros x y []]|tauto].
  - split.
    + intros H. inversion H as [|? ? H1 H2]; subst. apply IH in H2 as (H2 & H3 & H4). rewrite Forall_app in H1. split; [constructor; tauto|]. split; auto.
      intros x y [<-|Hx] Hy; auto. destruct H1 as [_ H1]. rewrite Forall_forall in H1. auto.
    + intros (H & H3 & H4). inversion H as [|? ? H1 H2]; subst. constructor; [|apply IH; split; auto; split; auto; intros; apply H4; auto; now right].
      apply Forall_app. split; auto. apply Forall_forall. intros y Hy. apply H4; auto. now left.
Qed.

Record groups_inv (s : strategies) (done : list (key * tree)) (gs : list (tree * list key)) : Prop := {
  gi_keys : NoDup (flat_map snd gs);
  gi_in : forall k, In k (flat_map snd gs) <-> In k (map fst done);
  gi_first : forall t ks, In (t, ks) gs -> exists k0 r, ks = k0 :: r /\ In (k0, t) done;
  gi_teq : forall t ks k, In (t, ks) gs -> In k ks -> exists c, In (k, c) done /\ teq s c t = true;
  gi_apart : ForallOrdPairs (fun g g' => teq s (fst g) (fst g') = false) gs }.

Lemma groups_step s done gs k c : groups_inv s done gs -> ~ In k (map fst done) -> groups_inv s (done ++ [(k, c)]) (add_group s k c gs).
Proof.
  intros [A B C D E] N. assert (Nk : ~ In k (flat_map snd gs)) by (rewrite B; auto).
  destruct (add_group_cases s k c gs) as [(a & t & ks & b & -> & F & T & ->)|[F ->]].
  - rewrite flat_map_app in *. cbn [flat_map snd] in *. split.
    + assert (P : Permutation.Permutation (k :: flat_map snd a ++ ks ++ flat_map snd b) (flat_map snd a ++ (ks ++ [k]) ++ flat_map snd b)).
      { rewrite <- !app_assoc. cbn [app]. rewrite !app_assoc. apply Permutation.Permutation_middle. }
      rewrite flat_map_app. cbn [flat_map snd]. apply (Permutation.Permutation_NoDup P). constructor; auto.
    + intros k1. rewrite flat_map_app. cbn [flat_map snd]. rewrite map_app. cbn [map fst]. specialize (B k1). rewrite !in_app_iff in *. cbn [In]. tauto.
    + intros t1 ks1 H. apply in_app_or in H as [H|[H|H]].
      * destruct (C t1 ks1) as (k0 & r & -> & X); [apply in_or_app; auto|]. exists k0, r. split; auto. apply in_or_app; auto.
      * injection H as <- <-. destruct (C t ks) as (k0 & r & -> & X); [apply in_or_app; right; now left|]. exists k0, (r ++ [k])%list. split; auto. apply in_or_app; auto.
      * destruct (C t1 ks1) as (k0 & r & -> & X); [apply in_or_app; right; now right|]. exists k0, r. split; auto. apply in_or_app; auto.
    + intros t1 ks1 k1 H Hk. assert (Q : In (t1, ks1) (a ++ (t, ks) :: b) \/ t1 = t /\ ks1 = (ks ++ [k])%list).
      { apply in_app_or in H as [H|[H|H]]; [left; apply in_or_app; auto|right; injection H as <- <-; auto|left; apply in_or_app; right; now right]. }
      destruct Q as [Q|[-> ->]].
      * destruct (D t1 ks1 k1 Q Hk) as (c1 & H1 & H2). exists c1. split; auto. apply in_or_app; auto.
      * apply in_app_or in Hk as [Hk|[<-|[]]].
        -- destruct (D t ks k1) as (c1 & H1 & H2); auto; [apply in_or_app; right; now left|]. exists c1. split; auto. apply in_or_app; auto.
        -- exists c. split; auto. apply in_or_app. right. now left.
    + apply pairs_app in E as (E1 & E2 & E3). apply pairs_app. split; auto. split.
      * inversion E2 as [|? ? X Y]; subst. constructor; auto.
      * intros x y Hx [<-|Hy]; [apply (E3 x (t, ks)); auto; now left|apply E3; auto; now right].
  - split.
    + rewrite flat_map_app. cbn [flat_map snd app]. apply NoDup_snoc; auto.
    + intros k1. rewrite flat_map_app, map_app. cbn [flat_map snd app map fst]. specialize (B k1). rewrite !in_app_iff. cbn [In]. tauto.
    + intros t1 ks1 H. apply in_app_or in H as [H|[H|[]]].
      * destruct (C t1 ks1 H) as (k0 & r & -> & X). exists k0, r. split; auto. apply in_or_app; auto.
      * injection H as <- <-. exists k, []. split; auto. apply in_or_app. right. now left.
    + intros t1 ks1 k1 H Hk. apply in_app_or in H as [H|[H|[]]].
      * destruct (D t1 ks1 k1 H Hk) as (c1 & H1 & H2). exists c1. split; auto. apply in_or_app; auto.
      * injection H as <- <-. destruct Hk as [<-|[]]. exists c. split; [apply in_or_app; right; now left|apply teq_refl].
    + apply pairs_app. split; auto. split; [constructor; constructor|]. intros x y Hx [<-|[]]. cbn [fst]. rewrite teq_sym. now apply F.
Qed.
Lemma groups_inv_all s cs : NoDup (map fst cs) -> groups_inv s cs (groups_of s cs).
Proof.
  unfold groups_of. assert (G : forall l done gs, NoDup (map fst (done ++ l)) -> groups_inv s done gs ->
    groups_inv s (done ++ l) (fold_left (fun gs kc => add_group s (fst kc) (snd kc) gs) l gs)).
  { induction l as [|[k c] l IH]; intros done gs N H; cbn [fold_left]; [now rewrite app_nil_r|].
    replace (done ++ (k, c) :: l)%list with ((done ++ [(k, c)]) ++ l)%list in * by (rewrite <- app_assoc; reflexivity). apply IH; auto. apply groups_step; auto.
    rewrite !map_app in N. cbn [map fst] in N. rewrite <- app_assoc in N. cbn [app] in N. apply NoDup_remove_2 in N. intros X. apply N. apply in_or_app; auto. }
  intros N. apply (G cs [] []); auto. split; [constructor|intros; reflexivity|intros ? ? []|intros ? ? ? []|constructor].
Qed.

(** ** Renaming of the groups *)
Definition several (g : tree * list key) : bool := Nat.ltb 1 (List.length (snd g)).
Definition gid (g : tree * list key) : nat := ty_id (i_type (ti (fst g))).
Definition last_after (gs : list (tree * list key)) (last : list (nat * nat)) : list (nat * nat) :=
  fold_left (fun last g => if several g then bump (gid g) last else last) gs last.
Definition regrouped (parent : string) (g : tree * list key) (last : list (nat * nat)) : tree :=
  if several g then rename (group_name parent (fst g) last) (fst g) else fst g.
Lemma rename_groups_In parent gs : forall last x, In x (rename_groups parent gs last) ->
  exists a g b, gs = (a ++ g :: b)%list /\ x = (regrouped parent g (last_after a last), snd g).
Proof.
  induction gs as [|[t ks] gs IH]; intros last x; cbn [rename_groups]; [intros []|]. unfold regrouped.
  destruct (Nat.ltb 1 (List.length ks)) eqn:E; intros [<-|H].
  - exists [], (t, ks), gs. split; auto. unfold several. cbn [snd fst last_after fold_left]. now rewrite E.
  - apply IH in H as (a & g & b & -> & ->). exists ((t, ks) :: a), g, b. split; auto. unfold last_after. cbn [fold_left]. replace (several (t, ks)) with (Nat.ltb 1 (List.length ks)) by reflexivity. now rewrite E.
  - exists [], (t, ks), gs. split; auto. unfold several. cbn [snd fst]. now rewrite E.
  - apply IH in H as (a & g & b & -> & ->). exists ((t, ks) :: a), g, b. split; auto. unfold last_after. cbn [fold_left]. replace (several (t, ks)) with (Nat.ltb 1 (List.length ks)) by reflexivity. now rewrite E.
Qed.
Lemma rename_groups_keys parent gs : forall last, map snd (rename_groups parent gs last) = map snd gs.
Proof. induction gs as [|[t ks] gs IH]; intros last; cbn [rename_groups]; auto. destruct (Nat.ltb _ _); cbn [map snd]; now rewrite IH. Qed.

(** The node of an entry. *)
Lemma share_entry s parent cs e : NoDup (map fst cs) -> In e (share_groups s parent cs) ->
  exists a g b, groups_of s cs = (a ++ g :: b)%list /\ In (ekey e) (snd g) /\ etree e = regrouped parent g (last_after a []).
Proof.
  intros N He. pose proof (groups_inv_all s cs N) as G. unfold share_groups in He. apply in_map_iff in He as ([k c] & <- & Hc). cbn [fst snd].
  destruct (find _ _) as [[t ks]|] eqn:F; cbn [ekey etree fst snd].
  - apply find_some in F as [F1 F2]. cbn [snd] in F2. apply existsb_exists in F2 as (k' & Hk & E). apply key_eqb_spec in E. subst k'.
    apply rename_groups_In in F1 as (a & g & b & E1 & E2). injection E2 as -> ->. exists a, g, b. auto.
  - exfalso. assert (K : In k (flat_map snd (groups_of s cs))) by (apply (gi_in _ _ _ G); change k with (fst (k, c)); now apply in_map).
    rewrite flat_map_concat_map, <- (rename_groups_keys parent _ []), <- flat_map_concat_map in K. apply in_flat_map in K as (g & Hg & Hk).
    pose proof (find_none _ _ F g Hg) as X. cbn [fst] in X. assert (Y : existsb (key_eqb k) (snd g) = true) by (apply existsb_exists; exists k; split; auto; now apply key_eqb_spec). congruence.
Qed.
Lemma split_cases {A} (a : list A) x b a' x' b' : (a ++ x :: b = a' ++ x' :: b')%list ->
  (a = a' /\ x = x' /\ b = b') \/ (exists m, a' = a ++ x :: m /\ b = m ++ x' :: b')%list \/ (exists m, a = a' ++ x' :: m /\ b' = m ++ x :: b)%list.
Proof.
  revert a'. induction a as [|y a IH]; intros [|z a'] E; cbn [app] in *.
  - injection E as -> ->. auto.
  - injection E as -> ->. right. left. exists a'. auto.
  - injection E as <- <-. right. right. exists a. auto.
  - injection E as -> E. apply IH in E as [(-> & -> & ->)|[(m & -> & ->)|(m & -> & ->)]]; auto.
    + right. left. exists m. auto.
    + right. right. exists m. auto.
Qed.

(** ** Numbers of the groups *)
Definition times (id : nat) (last : list (nat * nat)) : nat := match find (fun e => Nat.eqb (fst e) id) last with Some e => snd e | None => 0 end.
Definition positive (last : list (nat * nat)) : Prop := Forall (fun e => 1 <= snd e) last.
Definition suffix_no (n : nat) : string := match n with 0 => "" | _ => str_of_nat (n + 1) end.
Lemma group_name_times parent t last : positive last ->
  group_name parent t last = parent ++ capitalize (ty_name (i_type (ti t))) ++ suffix_no (times (ty_id (i_type (ti t))) last).
Proof.
  intros P. unfold group_name, times. destruct (find _ last) as [[i n]|] eqn:E; [|reflexivity].
  apply find_some in E as [E _]. unfold positive in P. rewrite Forall_forall in P. specialize (P _ E). cbn [snd] in *. destruct n; [lia|reflexivity].
Qed.
Lemma times_bump id id' last : times id (bump id' last) = if Nat.eqb id id' then S (times id last) else times id last.
Proof.
  unfold times. induction last as [|[i n] last IH]; cbn [bump find fst snd].
  - rewrite (Nat.eqb_sym id' id). destruct (Nat.eqb id id'); reflexivity.
  - destruct (Nat.eqb_spec i id').
    + subst i. cbn [find fst snd]. rewrite (Nat.eqb_sym id' id). destruct (Nat.eqb id id'); reflexivity.
    + cbn [find fst snd]. destruct (Nat.eqb_spec i id).
      * subst i. destruct (Nat.eqb_spec id id'); [congruence|reflexivity].
      * exact IH.
Qed.
Lemma positive_bump id last : positive last -> positive (bump id last).
Proof. induction 1 as [|[i n] last H P IH]; cbn [bump]; [constructor; auto; constructor|]. destruct (Nat.eqb i id); constructor; cbn [snd] in *; auto; lia. Qed.
Lemma positive_after gs : forall last, positive last -> positive (last_after gs last).
Proof. induction gs as [|g gs IH]; intros last P; cbn [last_after fold_left]; auto. apply IH. destruct (several g); auto. now apply positive_bump. Qed.
Lemma times_after id gs : forall last, times id last <= times id (last_after gs last).
Proof.
  induction gs as [|g gs IH]; intros last; cbn [last_after fold_left]; auto. eapply Nat.le_trans; [|apply IH]. destruct (several g); auto.
  rewrite times_bump. destruct (Nat.eqb id (gid g)); lia.
Qed.
Lemma times_later id a g m : several g = true -> gid g = id -> times id (last_after a []) < times id (last_after (a ++ g :: m) []).
Proof.
  intros H E. unfold last_after. rewrite fold_left_app. cbn [fold_left]. rewrite H. eapply Nat.lt_le_trans; [|apply (times_after id m)].
  rewrite times_bump, E, Nat.eqb_refl. lia.
Qed.
Lemma suffix_no_inj n m : suffix_no n = suffix_no m -> n = m.
Proof.
  unfold suffix_no. destruct n, m; auto; intros E.
  - symmetry in E. now apply str_of_nat_nonnil in E.
  - now apply str_of_nat_nonnil in E.
  - apply str_of_nat_inj in E. lia.
Qed.

(** ** Entries of a mapping node.  An entry is alone if no entry of another key has an equal node. *)
Definition alone (s : strategies) (es : list (key * nat * tree)) (e : key * nat * tree) : Prop :=
  forall e', In e' es -> ekey e' <> ekey e -> teq s (etree e) (etree e') = false.
Lemma regrouped_teq s parent g last x : teq s (regrouped parent g last) x = teq s (fst g) x.
Proof. unfold regrouped. destruct (several g); auto. apply teq_ren_l. Qed.
Lemma regrouped_ti parent g last : i_type (ti (regrouped parent g last)) = i_type (ti (fst g)).
Proof. unfold regrouped. destruct (several g); auto. apply ren_type. Qed.
Lemma regrouped_name parent g last : several g = true -> tname (regrouped parent g last) = group_name parent (fst g) last.
Proof. intros E. unfold regrouped. rewrite E. apply rename_name. Qed.

(** ** Groups come in the order of their first keys *)
Definition grown (x y : tree * list key) : Prop := fst x = fst y /\ exists m, snd y = (snd x ++ m)%list.
Lemma grown_refl l : Forall2 grown l l.
Proof. induction l as [|x l IH]; constructor; auto. split; auto. exists []. now rewrite app_nil_r. Qed.
Lemma grown_trans l m n : Forall2 grown l m -> Forall2 grown m n -> Forall2 grown l n.
Proof.
  intros H; revert n; induction H as [|x y l m [E (u & E')] H IH]; intros n Hn; inversion Hn as [|? z ? n' [F (v & F')] Hn']; subst; constructor; auto.
  split; [congruence|]. exists (u ++ v)%list. now rewrite F', E', app_assoc.
Qed.
Lemma add_group_grown s k c gs : (exists gs', add_group s k c gs = gs' /\ Forall2 grown gs gs' /\ exists g, In g gs' /\ In k (snd g)) \/ add_group s k c gs = (gs ++ [(c, [k])])%list.
Proof.
  induction gs as [|[t ks] gs IH]; cbn [add_group]; [now right|]. destruct (teq s c t).
  - left. eexists. split; [reflexivity|]. split; [constructor; [split; [reflexivity|exists [k]; reflexivity]|apply grown_refl]|]. eexists. split; [now left|]. cbn [snd]. apply in_or_app. right. now left.
  - destruct IH as [(gs' & -> & F & g & Hg & Hk)| ->]; [left|right; reflexivity]. eexists. split; [reflexivity|]. split; [constructor; auto; split; auto; exists []; now rewrite app_nil_r|]. exists g. split; auto. now right.
Qed.
Lemma fold_grown s l : forall gs, exists gs' new, fold_left (fun gs kc => add_group s (fst kc) (snd kc) gs) l gs = (gs' ++ new)%list /\ Forall2 grown gs gs'.
Proof.
  induction l as [|[k c] l IH]; intros gs; cbn [fold_left fst snd]; [exists gs, []; rewrite app_nil_r; split; auto; apply grown_refl|].
  destruct (IH (add_group s k c gs)) as (gs' & new & -> & F). destruct (add_group_grown s k c gs) as [(g1 & E & F1 & _)|E]; rewrite E in F.
  - exists gs', new. split; auto. eapply grown_trans; eauto.
  - apply Forall2_app_inv_l in F as (x & y & F & Fy & ->). exists x, (y ++ new)%list. now rewrite app_assoc.
Qed.
Lemma grown_In l m g : Forall2 grown l m -> In g l -> exists g', In g' m /\ grown g g'.
Proof. induction 1 as [|x y l m H F IH]; [intros []|]; intros [->|Hg]; [exists y; split; [now left|auto]|]. destruct (IH Hg) as (g' & A & B). exists g'. split; [now right|auto]. Qed.
Lemma grown_In' l m g' : Forall2 grown l m -> In g' m -> exists g, In g l /\ grown g g'.
Proof. induction 1 as [|x y l m H F IH]; [intros []|]; intros [->|Hg]; [exists x; split; [now left|auto]|]. destruct (IH Hg) as (g & A & B). exists g. split; [now right|auto]. Qed.

Section Share.
  Variables (s : strategies) (parent : string) (cs : list (key * tree)).
  Hypothesis N : NoDup (map fst cs).
  Let es := share_groups s parent cs.
  Lemma entry_of_key k : In k (map fst cs) -> exists e, In e es /\ ekey e = k.
  Proof. intros H. unfold es. rewrite <- (share_groups_keys s parent cs) in H. apply in_map_iff in H as (e & E & H). eauto. Qed.
  Lemma group_keys_In a g b k : groups_of s cs = (a ++ g :: b)%list -> In k (snd g) -> In k (map fst cs).
  Proof. intros E H. apply (gi_in s cs (groups_of s cs) (groups_inv_all s cs N)). rewrite E, flat_map_app. apply in_or_app. right. cbn [flat_map]. apply in_or_app; auto. Qed.
  (** The group of an entry is determined by its key. *)
  Lemma same_group a g b a' g' b' k : groups_of s cs = (a ++ g :: b)%list -> groups_of s cs = (a' ++ g' :: b')%list -> In k (snd g) -> In k (snd g') -> a = a' /\ g = g' /\ b = b'.
  Proof.
    intros E E' H H'. assert (D : forall x y l m z, NoDup (flat_map snd (l ++ x :: m ++ y :: z)) -> In k (snd (x : tree * list key)) -> In k (snd (y : tree * list key)) -> False).
    { intros x y l m z X Hx Hy. rewrite flat_map_app in X.
      cbn [flat_map] in X. rewrite flat_map_app in X. cbn [flat_map] in X.
      assert (Y : forall u v : list key, NoDup (u ++ v) -> In k u -> In k v -> False).
      { clear. induction u as [|c u IH]; intros v X Hu Hv; [destruct Hu|]. inversion X as [|? ? X1 X2]; subst. destruct Hu as [->|Hu]; [apply X1; apply in_or_app; auto|eapply IH; eauto]. }
      assert (Z : forall u v : list key, NoDup (u ++ v) -> NoDup v).
      { clear. induction u; intros v X; auto. inversion X; subst. auto. }
      apply Z in X. apply (Y _ _ X Hx). apply in_or_app. right. apply in_or_app. now left. }
    pose proof (gi_keys _ _ _ (groups_inv_all s cs N)) as K. pose proof E as E0. rewrite E' in E0. symmetry in E0.
    apply split_cases in E0 as [X|[(m & -> & ->)|(m & -> & ->)]]; auto; exfalso.
    - rewrite E in K. eapply D; eauto.
    - rewrite E' in K. eapply D; eauto.
  Qed.
  Lemma alone_single e a g b : In e es -> groups_of s cs = (a ++ g :: b)%list -> In (ekey e) (snd g) -> alone s es e -> several g = false.
  Proof.
    intros He E Hk Al. destruct (several g) eqn:Sv; auto. exfalso. unfold several in Sv. apply Nat.ltb_lt in Sv.
    pose proof (groups_inv_all s cs N) as G. destruct g as [t ks]. cbn [snd fst] in *.
    assert (ND : NoDup ks).
    { pose proof (gi_keys _ _ _ G) as K. rewrite E, flat_map_app in K. cbn [flat_map snd] in K. clear -K. revert K. generalize (flat_map snd a). intros l K.
      assert (Z : forall u v : list key, NoDup (u ++ v) -> NoDup v) by (induction u; intros v X; auto; inversion X; subst; auto). apply Z in K.
      clear -K. induction ks as [|k ks IH]; [constructor|]. inversion K; subst. constructor; auto. intros X. apply H1. apply in_or_app; auto. }
    assert (O : exists k, In k ks /\ k <> ekey e).
    { destruct ks as [|k1 [|k2 ks]]; cbn [List.length] in Sv; try lia. inversion ND as [|? ? X Y]; subst. destruct (key_eqb k1 (ekey e)) eqn:Q.
      - apply key_eqb_spec in Q. exists k2. split; [right; now left|]. intros ->. apply X. rewrite Q. now left.
      - exists k1. split; [now left|]. intros ->. rewrite (proj2 (key_eqb_spec _ _) eq_refl) in Q. discriminate. }
    destruct O as (k & Hk' & Nk). destruct (entry_of_key k) as (e' & He' & <-); [eapply group_keys_In; eauto|].
    specialize (Al e' He' Nk). destruct (share_entry s parent cs e N He) as (a1 & g1 & b1 & E1 & K1 & T1). destruct (share_entry s parent cs e' N He') as (a2 & g2 & b2 & E2 & K2 & T2).
    destruct (same_group _ _ _ _ _ _ _ E E1 Hk K1) as (<- & <- & <-). destruct (same_group _ _ _ _ _ _ _ E E2 Hk' K2) as (<- & <- & <-).
    rewrite T1, T2, teq_refl in Al. discriminate.
  Qed.
  Lemma not_alone_several e a g b : In e es -> groups_of s cs = (a ++ g :: b)%list -> In (ekey e) (snd g) -> ~ alone s es e -> several g = true.
  Proof.
    intros He E Hk Na. destruct (several g) eqn:Sv; auto. exfalso. apply Na. intros e' He' Nk.
    pose proof (groups_inv_all s cs N) as G. destruct (share_entry s parent cs e N He) as (a1 & g1 & b1 & E1 & K1 & T1).
    destruct (same_group _ _ _ _ _ _ _ E E1 Hk K1) as (<- & <- & <-). destruct (share_entry s parent cs e' N He') as (a2 & g2 & b2 & E2 & K2 & T2).
    rewrite T1, T2, regrouped_teq, teq_sym, regrouped_teq, teq_sym. pose proof (gi_apart _ _ _ G) as P. pose proof E as E0. rewrite E2 in E0. symmetry in E0.
    apply split_cases in E0 as [(<- & <- & <-)|[(m & -> & ->)|(m & -> & ->)]].
    - unfold several in Sv. apply Nat.ltb_ge in Sv. destruct (snd g) as [|k1 [|k2 ks]]; cbn [List.length] in Sv; try lia; [destruct Hk|].
      destruct Hk as [Hk|[]]. destruct K2 as [K2|[]]. congruence.
    - rewrite E in P. apply pairs_app in P as (_ & P & _). inversion P as [|? ? X Y]; subst. rewrite Forall_forall in X. apply X. apply in_or_app. right. now left.
    - rewrite E2 in P. apply pairs_app in P as (_ & P & _). inversion P as [|? ? X Y]; subst. rewrite teq_sym. rewrite Forall_forall in X. apply X. apply in_or_app. right. now left.
  Qed.
  Lemma alone_node e : In e es -> alone s es e -> In (ekey e, etree e) cs.
  Proof.
    intros He Al. destruct (share_entry s parent cs e N He) as (a & g & b & E & K & T). pose proof (alone_single e a g b He E K Al) as Sv.
    rewrite T. unfold regrouped. rewrite Sv. destruct g as [t ks]. destruct (gi_first _ _ _ (groups_inv_all s cs N) t ks) as (k0 & r & -> & H); [rewrite E; apply in_elt|].
    unfold several in Sv. cbn [snd List.length] in *. apply Nat.ltb_ge in Sv. destruct r; cbn [List.length] in Sv; [|lia]. destruct K as [<-|[]]. auto.
  Qed.
  Lemma shared_node e : In e es -> ~ alone s es e -> exists k c last n, In (k, c) cs /\ positive last /\ etree e = rename (group_name parent c last) c /\
    tname (etree e) = parent ++ capitalize (ty_name (i_type (ti (etree e)))) ++ suffix_no n.
  Proof.
    intros He Na. destruct (share_entry s parent cs e N He) as (a & [t ks] & b & E & K & T). pose proof (not_alone_several e a _ b He E K Na) as Sv.
    destruct (gi_first _ _ _ (groups_inv_all s cs N) t ks) as (k0 & r & _ & H); [rewrite E; apply in_elt|].
    exists k0, t, (last_after a []), (times (gid (t, ks)) (last_after a [])). split; auto. assert (P : positive (last_after a [])) by (apply positive_after; constructor). split; auto.
    split; [rewrite T; unfold regrouped; now rewrite Sv|]. rewrite T, regrouped_name, regrouped_ti by auto. cbn [fst]. now rewrite group_name_times.
  Qed.
  (** Two shared entries of the same type with the same name have the same node. *)
  Lemma shared_same e e' : In e es -> In e' es -> ~ alone s es e -> ~ alone s es e' -> i_type (ti (etree e)) = i_type (ti (etree e')) ->
    tname (etree e) = tname (etree e') -> etree e = etree e'.
  Proof.
    intros He He' Na Na' Ty En. destruct (share_entry s parent cs e N He) as (a & g & b & E & K & T). destruct (share_entry s parent cs e' N He') as (a' & g' & b' & E' & K' & T').
    pose proof (not_alone_several e a _ b He E K Na) as Sv. pose proof (not_alone_several e' a' _ b' He' E' K' Na') as Sv'.
    rewrite T, T', !regrouped_ti in Ty. rewrite T, T', !regrouped_name, !group_name_times in En by (auto; apply positive_after; constructor). rewrite Ty in En.
    apply app_inj_l, app_inj_l, suffix_no_inj in En. pose proof E as E0. rewrite E' in E0. symmetry in E0.
    assert (Gi : gid g = gid g') by (unfold gid; now rewrite Ty).
    apply split_cases in E0 as [(<- & <- & <-)|[(m & -> & ->)|(m & -> & ->)]]; [congruence| |]; exfalso.
    - pose proof (times_later (gid g') a g m Sv Gi). unfold gid in *. lia.
    - pose proof (times_later (gid g') a' g' m Sv' eq_refl). unfold gid in *. lia.
  Qed.
  (** The groups before the one that begins with an entry are those of the entries before. *)
  Lemma groups_before c1 k c c2 a g b : cs = (c1 ++ (k, c) :: c2)%list -> groups_of s cs = (a ++ g :: b)%list -> In k (snd g) -> (forall k', In k' (map fst c1) -> ~ In k' (snd g)) ->
    (forall g', In g' a -> exists k', In k' (snd g') /\ In k' (map fst c1)) /\ (forall k', In k' (map fst c1) -> exists g', In g' a /\ In k' (snd g')).
  Proof.
    intros Ec E Hk Nk. assert (N1 : NoDup (map fst c1)) by (rewrite Ec, map_app in N; clear - N; induction (map fst c1) as [|y l IH]; [constructor|]; inversion N; subst; constructor; [intros Z; apply H1; apply in_or_app; now left|auto]).
    pose proof (groups_inv_all s c1 N1) as G1. destruct (fold_grown s c2 (add_group s k c (groups_of s c1))) as (gs' & new & E' & F).
    assert (Eg : groups_of s cs = (gs' ++ new)%list) by (rewrite Ec; unfold groups_of in *; rewrite fold_left_app; exact E'). clear Ec E'.
    destruct (add_group_grown s k c (groups_of s c1)) as [(g1 & E1 & F1 & g2 & Hg2 & Hk2)|E1]; rewrite E1 in F.
    - exfalso. destruct (grown_In _ _ _ F Hg2) as (g3 & Hg3 & _ & m & Em). destruct (grown_In' _ _ _ F1 Hg2) as (g0 & Hg0 & _ & m0 & Em0).
      apply in_split in Hg3 as (x & y & ->). assert (Hk3 : In k (snd g3)) by (rewrite Em; apply in_or_app; now left).
      destruct (same_group _ _ _ _ _ _ k E (eq_trans Eg (eq_sym (app_assoc x (g3 :: y) new))) Hk Hk3) as (_ & <- & _).
      destruct g0 as [t0 ks0]. destruct (gi_first _ _ _ G1 t0 ks0 Hg0) as (k0 & r & Ek0 & H0). apply (Nk k0); [change k0 with (fst (k0, t0)); now apply in_map|].
      rewrite Em, Em0. cbn [snd]. rewrite Ek0. now left.
    - apply Forall2_app_inv_l in F as (x & y & F & Fy & ->). inversion Fy as [|? g3 ? y' [_ (m & Em)] Fy']; subst. inversion Fy'; subst. cbn [snd app] in Em.
      rewrite <- app_assoc in Eg. cbn [app] in Eg. assert (Hk3 : In k (snd g3)) by (rewrite Em; now left).
      destruct (same_group _ _ _ _ _ _ k E Eg Hk Hk3) as (-> & _ & _). split.
      + intros g' Hg'. destruct (grown_In' _ _ _ F Hg') as ([t0 ks0] & Hg0 & _ & m0 & Em0). destruct (gi_first _ _ _ G1 t0 ks0 Hg0) as (k0 & r & Ek0 & H0).
        exists k0. split; [rewrite Em0; cbn [snd]; rewrite Ek0; now left|]. change k0 with (fst (k0, t0)). now apply in_map.
      + intros k' Hk'. apply (gi_in _ _ _ G1), in_flat_map in Hk' as (g0 & Hg0 & Hk0). destruct (grown_In _ _ _ F Hg0) as (g' & Hg' & _ & m' & Em'). exists g'. split; auto. rewrite Em'. apply in_or_app; now left.
  Qed.
  Lemma times_filter id a : times id (last_after a []) = List.length (filter (fun g => several g && Nat.eqb (gid g) id) a).
  Proof.
    induction a as [|g a IH] using rev_ind; [reflexivity|]. unfold last_after in *. rewrite fold_left_app, filter_app, app_length. cbn [fold_left filter]. destruct (several g); cbn [andb]; [|cbn [List.length]; lia].
    rewrite times_bump, Nat.eqb_sym, IH. destruct (Nat.eqb (gid g) id); cbn [List.length]; lia.
  Qed.
  Lemma nodes_numbered id x : ForallOrdPairs (fun g g' => teq s (fst g) (fst g') = false) x ->
    exists l, NoDup l /\ List.length l = List.length (filter (fun g => several g && Nat.eqb (gid g) id) x) /\
      forall u, In u l <-> exists y g' z, x = (y ++ g' :: z)%list /\ several g' = true /\ gid g' = id /\ u = regrouped parent g' (last_after y []).
  Proof.
    induction x as [|g0 x IH] using rev_ind; intros P.
    - exists []. split; [constructor|]. split; [reflexivity|]. intros u. split; [intros []|]. intros (y & g' & z & X & _). destruct y; discriminate.
    - apply pairs_app in P as (P & _ & P0). destruct (IH P) as (l & Nd & Ll & HL).
      assert (Sp : forall u, (exists y g' z, (x ++ [g0] = y ++ g' :: z)%list /\ several g' = true /\ gid g' = id /\ u = regrouped parent g' (last_after y [])) <->
          In u l \/ (several g0 = true /\ gid g0 = id /\ u = regrouped parent g0 (last_after x []))).
      { intros u. rewrite HL. split.
        - intros (y & g' & z & X & P1 & P2 & P3). destruct z as [|z0 z _] using rev_ind; [apply app_inj_tail in X as [-> ->]; now right|].
          left. exists y, g', z. split; auto. change (g' :: z ++ [z0])%list with ((g' :: z) ++ [z0])%list in X. rewrite app_assoc in X. now apply app_inj_tail in X as [-> _].
        - intros [(y & g' & z & -> & Q)|Q]; [exists y, g', (z ++ [g0])%list; split; auto; now rewrite <- app_assoc|exists x, g0, []; auto]. }
      rewrite filter_app, app_length. cbn [filter]. destruct (several g0 && Nat.eqb (gid g0) id) eqn:Q.
      + apply andb_true_iff in Q as [Q1 Q2]. apply Nat.eqb_eq in Q2. exists (regrouped parent g0 (last_after x []) :: l). split; [|split; [cbn [List.length]; lia|]].
        * constructor; auto. intros X. apply HL in X as (y & g' & z & X & _ & _ & Eq). assert (Tq : teq s (fst g') (fst g0) = false) by (apply P0; [rewrite X; apply in_elt|now left]).
          rewrite <- (regrouped_teq s parent g' (last_after y [])), <- Eq, regrouped_teq, teq_refl in Tq. discriminate.
        * intros u. rewrite Sp. cbn [In]. split; [intros [<-|H]; auto|intros [H|(_ & _ & ->)]; auto].
      + exists l. split; auto. split; [cbn [List.length]; lia|]. intros u. rewrite Sp. split; auto. intros [H|(Q1 & Q2 & _)]; auto. rewrite Q1, (proj2 (Nat.eqb_eq _ _) Q2) in Q. discriminate.
  Qed.
  (** The number of a shared node: how many other shared nodes of its type occur before it. *)
  Lemma shared_number pre e post : es = (pre ++ e :: post)%list -> ~ alone s es e -> (forall e', In e' pre -> etree e' <> etree e) ->
    exists l, NoDup l /\ (forall x, In x l <-> exists e', In e' pre /\ ~ alone s es e' /\ etree e' = x /\ ty_id (i_type (ti x)) = ty_id (i_type (ti (etree e)))) /\
      tname (etree e) = parent ++ capitalize (ty_name (i_type (ti (etree e)))) ++ suffix_no (List.length l).
  Proof.
    intros Ee Na Ne. assert (He : In e es) by (rewrite Ee; apply in_elt).
    destruct (share_entry s parent cs e N He) as (a & g & b & E & K & T). pose proof (not_alone_several e a _ b He E K Na) as Sv.
    assert (Hc : exists c1 c c2, cs = (c1 ++ (ekey e, c) :: c2)%list /\ map fst c1 = map ekey pre).
    { pose proof (share_groups_keys s parent cs) as Ks. fold es in Ks. rewrite Ee, map_app in Ks. cbn [map] in Ks. symmetry in Ks. apply map_eq_app in Ks as (c1 & r & -> & E1 & E2).
      destruct r as [|[k c] c2]; [discriminate|]. cbn [map fst] in E2. injection E2 as <- _. exists c1, c, c2. split; auto. }
    destruct Hc as (c1 & c & c2 & Ec & Ek).
    assert (Gof : forall e', In e' pre -> exists a' g' b', groups_of s cs = (a' ++ g' :: b')%list /\ In (ekey e') (snd g') /\ etree e' = regrouped parent g' (last_after a' [])) by (intros e' He'; apply (share_entry s parent cs e' N); fold es; rewrite Ee; apply in_or_app; now left).
    destruct (groups_before c1 (ekey e) c c2 a g b Ec E K) as [B1 B2].
    { intros k' Hk' Hg. rewrite Ek in Hk'. apply in_map_iff in Hk' as (e' & <- & He'). destruct (Gof e' He') as (a' & g' & b' & E' & K' & T').
      destruct (same_group _ _ _ _ _ _ _ E E' Hg K') as (-> & -> & _). apply (Ne e' He'). congruence. }
    destruct (nodes_numbered (gid g) a) as (l & Nd & Ll & HL); [pose proof (gi_apart _ _ _ (groups_inv_all s cs N)) as P; rewrite E in P; now apply pairs_app in P as (P & _ & _)|].
    exists l. split; auto. split.
    - intros x. rewrite HL. split.
      + intros (y & g' & z & X & Sv' & Gi & ->). destruct (B1 g') as (k' & Hk' & Hc1); [rewrite X; apply in_elt|]. rewrite Ek in Hc1. apply in_map_iff in Hc1 as (e' & <- & He').
        destruct (Gof e' He') as (a' & g2 & b' & E' & K' & T'). rewrite X, <- app_assoc in E. cbn [app] in E. destruct (same_group _ _ _ _ _ _ _ E E' Hk' K') as (<- & <- & _).
        exists e'. split; auto. split; [|split; auto].
        * intros Al. assert (He2 : In e' es) by (rewrite Ee; apply in_or_app; now left). rewrite (alone_single e' _ _ _ He2 E' K' Al) in Sv'. discriminate.
        * rewrite T, !regrouped_ti. exact Gi.
      + intros (e' & He' & Na' & <- & Ti). assert (Hc1 : In (ekey e') (map fst c1)) by (rewrite Ek; now apply in_map). destruct (B2 _ Hc1) as (g' & Hg' & Hk'). apply in_split in Hg' as (y & z & X).
        destruct (Gof e' He') as (a' & g2 & b' & E' & K' & T'). pose proof E as E0. rewrite X, <- app_assoc in E0. cbn [app] in E0. destruct (same_group _ _ _ _ _ _ _ E0 E' Hk' K') as (<- & <- & _).
        exists y, g', z. split; auto. assert (He2 : In e' es) by (rewrite Ee; apply in_or_app; now left). split; [exact (not_alone_several e' _ _ _ He2 E' K' Na')|]. split; auto.
        rewrite T, T', !regrouped_ti in Ti. exact Ti.
    - rewrite T, regrouped_name, regrouped_ti by auto. rewrite group_name_times by (apply positive_after; constructor). fold (gid g). now rewrite times_filter, Ll.
  Qed.
End Share.
