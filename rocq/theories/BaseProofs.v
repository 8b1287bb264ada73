(** Proofs of the statements of [PropsBase]. *)
From Coq Require Import Ascii String List Bool Arith Lia ZArith Permutation Sorted.
From Verif Require Import PyStr PyStrFacts Utils Strategies Docstring Imports Dispatch.
From Verif Require Import SpecNames SpecText SpecImports NamesFacts SmallFacts DocstringFacts ImportsFacts.
Import ListNotations.
Local Open Scope string_scope.

Lemma register_wraps_no_obj obj p ws tbl tbl' :
  register_wraps obj p ws tbl = Some tbl' -> ~ In obj (map fst tbl) -> ~ In obj (map fst tbl').
Proof.
  revert tbl; induction ws as [|w ws IH]; simpl; intros tbl H N; [now injection H as <-|].
  destruct (Nat.eqb_spec w obj); [eauto|].
  destruct (existsb (fun e => Nat.eqb (fst e) w) tbl); [discriminate|]. apply (IH _ H).
  rewrite map_app, in_app_iff. simpl. intros [?|[?|[]]]; auto.
Qed.
Lemma register_all_inv obj ps tbl tbl' :
  register_all obj ps tbl = Some tbl' -> NoDup (map fst tbl) -> ~ In obj (map fst tbl) ->
  NoDup (map fst tbl') /\ ~ In obj (map fst tbl').
Proof.
  revert tbl; induction ps as [|[p ws] ps IH]; simpl; intros tbl H N O; [now injection H as <-|].
  destruct (register_wraps obj p ws tbl) eqn:E; [|discriminate].
  eapply IH; eauto using register_wraps_nodup, register_wraps_no_obj.
Qed.
Lemma wraps_of_spec ps p ws : NoDup (map fst ps) -> In (p, ws) ps -> wraps_of ps p = ws.
Proof.
  unfold wraps_of. induction ps as [|[q vs] ps IH]; [contradiction|].
  simpl. intros Hnd Hin. inversion Hnd; subst. destruct (Nat.eqb_spec q p) as [->|Hne].
  - destruct Hin as [E|Hin]; [now injection E as ->|]. exfalso. apply H1.
    apply in_map_iff. exists (p, ws). auto.
  - destruct Hin as [E|Hin]; [injection E as -> ->; congruence | auto].
Qed.

Lemma factory_spec : forall ps default ty isinst p ok,
  NoDup (map fst ps) ->
  (forall q ws, In (q, ws) ps -> ~ In t_object ws) ->
  isinst ty = true ->
  factory ps default ty isinst = Some (p, ok) ->
  ok = true /\
  (forall q ws, In (q, ws) ps -> In ty ws -> p = q) /\
  (p = default \/ exists ws t, In (p, ws) ps /\ In t ws /\ isinst t = true) /\
  ((forall q ws t, In (q, ws) ps -> In t ws -> isinst t = false) -> p = default).
Proof.
  intros ps default ty isinst p ok Hnd Hobj Hty. unfold factory.
  destruct (register_all t_object ps []) as [tbl|] eqn:Hreg; [|discriminate].
  set (chosen := get_subclass _ _ _ _). intros H; injection H as <- <-.
  destruct (register_all_ok _ _ _ _ Hreg) as (H1 & _ & H3).
  destruct (register_all_inv _ _ _ _ Hreg) as [Hnt Hno]; [constructor | intros [] |].
  assert (Hrw : forall t p, In (t, p) tbl -> exists ws, In (p, ws) ps /\ In t ws /\ wraps_of ps p = ws).
  { intros t p Hin. destruct (H1 _ _ Hin) as [[]|(ws & ? & ?)]. exists ws. split; auto. split; auto.
    now apply wraps_of_spec. }
  assert (Hcase : (exists ws, In (chosen, ws) ps /\ In ty ws /\ wraps_of ps chosen = ws) \/
                  (existsb isinst (wraps_of ps chosen) = true /\ exists t, In (t, chosen) tbl) \/
                  chosen = default).
  { unfold chosen, get_subclass. simpl subclasses. destruct (lookup ty tbl) as [p|] eqn:E.
    - left. apply lookup_some in E. apply Hrw in E. auto.
    - simpl wraps. destruct (find (fun e => existsb isinst (wraps_of ps (snd e))) tbl) as [[t p]|] eqn:E2; auto.
      right; left. apply find_some in E2 as [Hin Hx]. simpl in *. eauto. }
  assert (Hlk : forall p ws, In (p, ws) ps -> In ty ws -> lookup ty tbl = Some p).
  { intros p ws Hin Hin2. assert (Hne : ty <> t_object) by (intros ->; eapply Hobj; eauto).
    specialize (H3 ty p ws Hin Hin2 Hne). clear - Hnt H3. unfold lookup.
    induction tbl as [|[t q] tbl IH]; [contradiction|]. simpl in *. inversion Hnt; subst.
    destruct H3 as [E|Hin]; [injection E as -> ->; now rewrite Nat.eqb_refl|].
    destruct (Nat.eqb_spec t ty) as [->|]; [|auto]. exfalso. apply H1. apply in_map_iff. exists (ty, p); auto. }
  assert (Hsome : chosen = default \/ exists ws t, In (chosen, ws) ps /\ In t ws /\ isinst t = true).
  { destruct Hcase as [(ws & Ha & Hb & Hc)|[(Hb & t & Hc)|Hb]]; auto.
    - right. exists ws, ty. auto.
    - right. apply existsb_exists in Hb as (t' & Hin & Hi). apply Hrw in Hc as (ws & ? & ? & E).
      rewrite E in Hin. eauto. }
  split; [|split; [|split]].
  - unfold check_tree. simpl wraps. apply orb_true_iff.
    destruct Hcase as [(ws & Ha & Hb & Hc)|[(Hb & Hc)|Hb]].
    + right. rewrite Hc. apply existsb_exists. eauto.
    + auto.
    + left. now rewrite Hb, Nat.eqb_refl.
  - intros q ws Hin Hin2. unfold chosen, get_subclass. simpl. now rewrite (Hlk q ws Hin Hin2).
  - exact Hsome.
  - intros Hall. destruct Hsome as [?|(ws & t & Ha & Hb & Hc)]; auto. rewrite (Hall _ _ _ Ha Hb) in Hc. discriminate.
Qed.

Lemma project_factory_total : forall default ty isinst,
  exists p ok, factory project_parsers default ty isinst = Some (p, ok).
Proof.
  intros. unfold factory.
  assert (E : exists tbl, register_all t_object project_parsers [] = Some tbl) by (vm_compute; eauto).
  destruct E as [tbl ->]. eauto.
Qed.

Lemma oset_history : forall {A} (eqb : A -> A -> bool) (l : list A),
  (forall x y, eqb x y = true <-> x = y) ->
  let r := oset_as_list (oset_adds eqb l oset_empty) in
  NoDup r /\ (forall x, In x r <-> In x l) /\
  (forall p q, l = (p ++ q)%list -> exists rp rq, r = (rp ++ rq)%list /\ forall x, In x rp <-> In x p).
Proof.
  intros A eqb l Heq r.
  destruct (oset_adds_spec eqb Heq l oset_empty oset_ok_empty) as ((H1 & H2) & H3 & _).
  split; [exact H1|]. split.
  - intros x. unfold r, oset_as_list. rewrite H3. simpl. tauto.
  - intros p q ->. unfold r, oset_as_list. rewrite oset_adds_app.
    destruct (oset_adds_spec eqb Heq p oset_empty oset_ok_empty) as (Hp1 & Hp2 & _).
    destruct (oset_adds_spec eqb Heq q _ Hp1) as (_ & _ & t & Ht).
    exists (lst (oset_adds eqb p oset_empty)), t. split; auto.
    intros x. rewrite Hp2. simpl. tauto.
Qed.

Lemma docstring_words : forall max ind s,
  blank ind ->
  exists body t e ws,
    format_docstring max ind s = ind ++ tq ++ body ++ tq /\
    s = t ++ e /\ Forall (fun c => code c = 10) (chars e) /\
    Words body ws /\
    (Words t ws /\ (exists u, t = u ++ ".") \/ Words (t ++ ".") ws /\ ~ exists u, t = u ++ ".").
Proof.
  intros max ind s Hb. apply blank_spec in Hb.
  destruct (format_docstring_words max ind s Hb) as (body & H1 & H2).
  destruct (with_period_spec s) as (t & e & H3 & H4 & H5).
  exists body, t, e, (split_ws body). repeat split; auto; [apply Words_split_ws|].
  rewrite H2. destruct H5 as [[H5 ->]|[H5 ->]].
  - left. split; [apply Words_split_ws | now apply endswith_spec].
  - right. split; [apply Words_split_ws|]. rewrite <- endswith_spec. congruence.
Qed.

Lemma join_snoc sep l y : l <> [] -> join sep (app l [y]) = join sep l ++ sep ++ y.
Proof.
  induction l as [|x l IH]; [congruence|]. intros _. destruct l as [|z l]; auto.
  cbn [app]. rewrite join_cons by discriminate. change (z :: app l [y]) with (app (z :: l) [y]).
  rewrite IH by discriminate. rewrite (join_cons sep x (z :: l)) by discriminate. now rewrite !app_assoc_s.
Qed.

Lemma docstring_width : forall max ind s,
  (exists t, format_docstring max ind s = ind ++ tq ++ t ++ tq /\ (forall c, In c (chars t) -> code c <> 10)) \/
  (exists lines,
     Joined newline (app ((ind ++ tq) :: map (fun x => ind ++ x) lines) [ind ++ tq]) (format_docstring max ind s) /\
     Forall (fun x => String.length x <= max \/ Forall (fun c => ~ white c) (chars x)) lines /\
     Forall (fun x => forall c, In c (chars x) -> code c <> 10) lines).
Proof.
  intros max ind s. unfold format_docstring. set (d := tq ++ with_period s ++ tq).
  assert (Hc : forall x, no_char (chr 10) x -> forall c, In c (chars x) -> code c <> 10).
  { intros x Hx c Hin E. unfold no_char in Hx. rewrite Forall_chars, Forall_forall in Hx.
    specialize (Hx c Hin). rewrite <- (ascii_nat_embedding c) in Hx. unfold code in E. rewrite E in Hx.
    simpl in Hx. discriminate. }
  assert (Hone : contains nl d = false -> forall c, In c (chars (with_period s)) -> code c <> 10).
  { intros Hn. apply Hc. apply contains_nl_no in Hn. unfold d, no_char in *. rewrite !str_forall_app in Hn.
    rewrite !andb_true_iff in Hn. tauto. }
  destruct (_ && _) eqn:E1; [apply andb_true_iff in E1 as [_ E1]; apply negb_true_iff in E1|].
  { left. exists (with_period s). auto. }
  destruct (Nat.eqb _ 1 && _) eqn:E2; [apply andb_true_iff in E2 as [_ E2]; apply negb_true_iff in E2|].
  { left. exists (with_period s). auto. }
  right. exists (split_string max (with_period s)). split; [|split].
  - set (ls := map (fun x => ind ++ x) (split_string max (with_period s))).
    replace (ind ++ tq ++ nl ++ join nl ls ++ nl ++ ind ++ tq)
      with (join nl (app ((ind ++ tq) :: ls) [ind ++ tq])); [apply Joined_join|].
    assert (Hls : ls <> []).
    { unfold ls. intros E. apply map_eq_nil in E.
      pose proof (split_string_words max (with_period s)) as Hw. rewrite E in Hw. simpl in Hw.
      pose proof (Words_split_ws (with_period s)) as Hx. rewrite <- Hw in Hx.
      inversion Hx as [x Hbl| |]; subst. apply blank_spec in Hbl.
      assert (exists u, with_period s = u ++ ".") as [u Hu].
      { destruct (with_period_spec s) as (t & e & _ & _ & [[A ->]|[A ->]]); eauto. now apply endswith_spec. }
      rewrite Hu, str_forall_app in Hbl. apply andb_true_iff in Hbl as [_ Hbl]. discriminate. }
    rewrite join_snoc by discriminate. rewrite join_cons by auto. now rewrite !app_assoc_s.
  - eapply Forall_impl; [|apply split_string_fits]. intros x [H|H]; auto. right.
    unfold non_space in H. rewrite Forall_chars in H. eapply Forall_impl; [|exact H]. intros c Hx.
    apply negb_true_iff in Hx. rewrite <- is_space_white. congruence.
  - eapply Forall_impl; [|apply non_nl_split_string]. exact Hc.
Qed.

Lemma import_block_order : forall n ks1 ks2 o1 o2,
  (forall k, In k ks1 <-> In k ks2) ->
  Permutation (imp_adds ks1 []) o1 -> Permutation (imp_adds ks2 []) o2 ->
  format_imports n o1 = format_imports n o2.
Proof.
  intros n ks1 ks2 o1 o2 H P1 P2.
  assert (D1 : NoDup (imp_adds ks1 [])) by (apply imp_adds_NoDup; constructor).
  assert (D2 : NoDup (imp_adds ks2 [])) by (apply imp_adds_NoDup; constructor).
  apply format_imports_perm; [now apply Permutation_NoDup with (imp_adds ks1 [])|].
  rewrite <- P1, <- P2. apply NoDup_Permutation; auto. intros x. rewrite !imp_adds_In. simpl. rewrite H. tauto.
Qed.

Lemma import_block_content : forall n ks o,
  26 <= n -> Permutation (imp_adds ks []) o ->
  (format_imports n o = None <-> exists k, In k ks /\ ~ In k (map fst PACKAGE)) /\
  (forall text, format_imports n o = Some text ->
    exists stmts : list (string * list string * string),
      StronglySorted (fun a b => String.leb a b = true /\ a <> b) (map (fun x => fst (fst x)) stmts) /\
      Forall (fun x => Statement (fst (fst x)) (snd (fst x)) (snd x) /\
                       StronglySorted (fun a b => String.leb a b = true /\ a <> b) (snd (fst x))) stmts /\
      (forall p s, (exists st ss, In (p, ss, st) stmts /\ In s ss) <->
                   exists k, In k ks /\ In (k, (p, s)) PACKAGE) /\
      (Joined newline (map snd stmts) text \/
       exists h t, map snd stmts = h :: t /\ Joined newline ((h ++ newline) :: t) text)).
Proof.
  intros n ks o Hn P.
  assert (D : NoDup o) by (apply Permutation_NoDup with (imp_adds ks []); auto; apply imp_adds_NoDup; constructor).
  assert (HI : forall k, In k o <-> In k ks).
  { intros k. split; intros H.
    - apply Permutation_sym in P. eapply Permutation_in in H; [|exact P]. apply imp_adds_In in H as [?|[]]; auto.
    - eapply Permutation_in; [exact P|]. apply imp_adds_In. auto. }
  assert (HK : forall k, known k = true <-> In k (map fst PACKAGE)).
  { intros k. unfold known, package_of. generalize PACKAGE as l. induction l as [|[k' v] l IH]; simpl.
    - split; [discriminate | tauto].
    - destruct (String.eqb_spec k k'); [subst; tauto|]. rewrite IH. intuition congruence. }
  assert (HP : forall k p s, package_of k = Some (p, s) <-> In (k, (p, s)) PACKAGE).
  { intros k p s. split; [apply assoc_In|].
    assert (ND : NoDup (map fst PACKAGE)).
    { assert (forall l, (fix nd (l : list string) := match l with [] => true | x :: r => negb (mem x r) && nd r end) l = true -> NoDup l).
      { induction l; intros; constructor; apply andb_true_iff in H as [H1 H2]; auto.
        apply negb_true_iff, mem_false in H1. auto. }
      apply H. vm_compute. reflexivity. }
    unfold package_of. revert ND. generalize PACKAGE as l. induction l as [|[k' v] l IH]; simpl; [tauto|].
    intros ND [E|H]; inversion ND; subst.
    - injection E as -> ->. now rewrite String.eqb_refl.
    - destruct (String.eqb_spec k k') as [->|]; auto. exfalso. apply H2, in_map_iff. exists (k', (p, s)); auto. }
  rewrite format_imports_eq. destruct (forallb known o) eqn:E.
  - rewrite forallb_forall in E. split.
    + split; [discriminate|]. intros (k & H1 & H2). exfalso. apply H2, HK, E, HI, H1.
    + intros text H. injection H as <-.
      exists (map (fun p => (p, sort (names_of p (pairs o)), format_single_package n p (names_of p (pairs o)))) (packages o)).
      assert (SS : forall l, StronglySorted str_le l -> NoDup l ->
                StronglySorted (fun a b => String.leb a b = true /\ a <> b) l).
      { intros l H1 H2. induction H1; constructor; inversion H2; subst; auto.
        rewrite Forall_forall in *. intros x Hx. split; [now apply H | congruence]. }
      split; [|split; [|split]].
      * rewrite map_map. simpl. rewrite map_id. apply SS; apply packages_sorted.
      * apply Forall_forall. intros x Hx. apply in_map_iff in Hx as (p & <- & Hp). simpl. split.
        -- now apply single_statement.
        -- apply SS; [apply sort_sorted | now apply sort_NoDup, names_of_NoDup, pairs_NoDup].
      * intros p s. split.
        -- intros (st & ss & H1 & H2). apply in_map_iff in H1 as (q & E1 & Hq). injection E1 as -> <- <-.
           apply sort_In, names_of_In, pairs_In in H2 as (k & Hk & Ek). exists k. split; [now apply HI | now apply HP].
        -- intros (k & Hk & Ek). apply HP in Ek. apply HI in Hk.
           assert (Hin : In (p, s) (pairs o)) by (apply pairs_In; eauto).
           eexists; eexists; split; [apply in_map_iff; exists p; split; [reflexivity | apply packages_In; eauto]|].
           apply sort_In. now apply names_of_In.
      * rewrite map_map. simpl. fold (statements n o).
        destruct (statements n o) as [|h t] eqn:ES; [left; constructor|]. simpl future_fix.
        destruct (contains "__future__" h); [right; exists h, t; split; auto; apply Joined_join | left; apply Joined_join].
  - split.
    + split; auto. intros _. assert (exists k, In k o /\ known k = false) as (k & H1 & H2).
      { clear - E. induction o; simpl in *; [discriminate|]. apply andb_false_iff in E as [E|E]; [eauto|].
        destruct (IHo E) as (k & ? & ?). eauto. }
      exists k. split; [now apply HI|]. rewrite <- HK. congruence.
    + discriminate.
Qed.

Lemma project_NoDup : NoDup (map fst project_parsers).
Proof. unfold project_parsers; simpl. repeat (constructor; [vm_compute; lia|]). constructor. Qed.

Lemma existsb_false_iff : forall {A} (f : A -> bool) l, existsb f l = false <-> forall x, In x l -> f x <> true.
Proof.
  intros. split.
  - intros H x Hx E. assert (existsb f l = true) by (apply existsb_exists; eauto). congruence.
  - intros H. destruct (existsb f l) eqn:E; auto. apply existsb_exists in E as (x & ? & ?). now apply H in H0.
Qed.

Lemma project_no_object : forall q ws, In (q, ws) project_parsers -> ~ In t_object ws.
Proof.
  intros q ws H E.
  assert (F : forallb (fun x => negb (existsb (Nat.eqb t_object) (snd x))) project_parsers = true) by (vm_compute; reflexivity).
  rewrite forallb_forall in F. specialize (F _ H). cbn [snd] in F.
  apply negb_true_iff in F. rewrite existsb_false_iff in F. apply (F _ E). reflexivity.
Qed.

Lemma future_names o : incl (names_of "__future__" (pairs o)) ["annotations"].
Proof.
  intros x Hx. rewrite names_of_In, pairs_In in Hx. destruct Hx as (k & _ & E). apply assoc_In in E.
  assert (B : forallb (fun e => negb (String.eqb (fst (snd e)) "__future__") || String.eqb (snd (snd e)) "annotations") PACKAGE = true) by (vm_compute; reflexivity).
  rewrite forallb_forall in B. specialize (B _ E). cbn [fst snd] in B. rewrite String.eqb_refl in B. cbn in B. apply String.eqb_eq in B. subst. now left.
Qed.
Lemma future_first : forall n ks o text,
  40 <= n -> Permutation (imp_adds ks []) o -> format_imports n o = Some text -> In "annotations" ks ->
  exists rest, text = "from __future__ import annotations" ++ newline ++ rest.
Proof.
  intros n ks o text Hn P H Ha.
  assert (D : NoDup o) by (apply Permutation_NoDup with (imp_adds ks []); auto; apply imp_adds_NoDup; constructor).
  assert (Ho : In "annotations" o) by (eapply Permutation_in; [exact P|]; apply imp_adds_In; auto).
  rewrite format_imports_eq in H. destruct (forallb known o); [|discriminate]. injection H as <-.
  assert (Hp : In ("__future__", "annotations") (pairs o)) by (apply pairs_In; exists "annotations"; split; auto).
  assert (Hk : In "__future__" (packages o)) by (apply packages_In; eauto).
  destruct (packages_sorted o) as [Sd Nd].
  assert (E : exists t, packages o = "__future__" :: t).
  { destruct (packages o) as [|q t] eqn:Q; [contradiction|]. exists t. f_equal. destruct Hk as [->|Hk]; auto.
    inversion Sd as [|a b S1 S2]; subst. rewrite Forall_forall in S2. specialize (S2 _ Hk).
    assert (Hq : In q (packages o)) by (rewrite Q; now left). apply packages_In in Hq as (m & Hm). apply pairs_In in Hm as (k & _ & Em). apply assoc_In in Em.
    assert (B : forallb (fun e => negb (String.leb (fst (snd e)) "__future__") || String.eqb (fst (snd e)) "__future__") PACKAGE = true) by (vm_compute; reflexivity).
    rewrite forallb_forall in B. specialize (B _ Em). cbn [fst snd] in B. unfold str_le in S2. rewrite S2 in B. cbn in B. now apply String.eqb_eq in B. }
  destruct E as (t & E). unfold statements. rewrite E. cbn [map].
  assert (N : names_of "__future__" (pairs o) = ["annotations"]).
  { pose proof (future_names o) as I. pose proof (names_of_NoDup "__future__" (pairs o) (pairs_NoDup o D)) as ND.
    assert (J : In "annotations" (names_of "__future__" (pairs o))) by now apply names_of_In.
    destruct (names_of "__future__" (pairs o)) as [|a [|b l]]; [contradiction| |].
    - destruct (I a) as [<-|[]]; [now left|reflexivity].
    - exfalso. destruct (I a) as [<-|[]]; [now left|]. destruct (I b) as [<-|[]]; [right; now left|]. inversion ND; subst. apply H1. now left. }
  rewrite N. unfold format_single_package. 
  change (String.eqb "annotations" "pandas") with false. change (String.eqb "annotations" "npt") with false. change (String.eqb "annotations" "numpy") with false. cbv iota.
  change (join ", " (sort ["annotations"])) with "annotations".
  assert (L : Nat.ltb n (String.length ("from " ++ "__future__" ++ " import " ++ "annotations")) = false) by (apply Nat.ltb_ge; cbn; lia). rewrite L.
  set (m := map _ t). unfold future_fix. change (contains "__future__" ("from " ++ "__future__" ++ " import " ++ "annotations")) with true. cbv iota.
  destruct m as [|a m].
  - exists "". reflexivity.
  - rewrite join_cons by discriminate. exists (nl ++ join nl (a :: m)). now rewrite !app_assoc_s.
Qed.
