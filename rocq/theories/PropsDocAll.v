(** C33 for all texts: the form of every docstring. *)
From Coq Require Import Ascii String List Bool Arith Lia.
From Verif Require Import PyStr PyStrFacts SpecNames SpecText SpecImports ImportsFacts NamesFacts Docstring DocstringFacts BaseProofs SpecDoc.
Import ListNotations.
Local Open Scope string_scope.
Local Open Scope nat_scope.

Lemma Joined_eq sep l s : Joined sep l s -> s = join sep l.
Proof. induction 1 as [|x|x y l s H IH]; auto. rewrite join_cons by discriminate. now rewrite IH. Qed.
Lemma join_length_snoc w k v : join " " (w :: (k ++ [v])%list) = join " " (w :: k) ++ " " ++ v.
Proof. change (w :: (k ++ [v])%list) with (app (w :: k) [v]). apply join_snoc. discriminate. Qed.
Lemma join_some w k : w <> "" -> join " " (w :: k) <> "".
Proof. intros N E. destruct k; cbn in E; [contradiction|]. destruct w; [contradiction|discriminate]. Qed.
Lemma some_match {A} (s : string) (x : A) (f : A) : s <> "" -> match s with "" => x | _ => f end = f.
Proof. now destruct s. Qed.

Lemma wrap_filled max ws : forall w k, Forall is_word (w :: (k ++ ws)%list) -> k = [] \/ String.length (join " " (w :: k)) <= max ->
  Filled max (w :: (k ++ ws)%list) (wrap max (join " " (w :: k)) ws).
Proof.
  induction ws as [|v ws IH]; intros w k F H; assert (NE : join " " (w :: k) <> "") by (apply join_some; inversion F as [|? ? [N _] _]; exact N).
  - cbn [wrap]. rewrite (some_match _ _ _ NE). apply (filled_line max w k []); auto using filled_none. apply Joined_join.
  - cbn [wrap]. rewrite !(some_match _ _ _ NE). destruct (Nat.leb_spec (String.length (join " " (w :: k)) + String.length v + 1) max) as [L|L].
    + replace (w :: (k ++ v :: ws)%list) with (w :: ((k ++ [v]) ++ ws)%list) in * by now rewrite <- app_assoc.
      rewrite <- join_length_snoc. apply IH; auto. right. rewrite join_length_snoc, !length_app_s. cbn [String.length]. lia.
    + apply (filled_line max w k (v :: ws)); auto; [apply Joined_join| |].
      * right. exists v, ws. split; auto. lia.
      * apply (IH v []); auto. inversion F as [|? ? _ F']; subst. apply Forall_app in F' as [_ F']. exact F'.
Qed.
Lemma wrap_first max w ws : wrap max "" (w :: ws) = wrap max w ws.
Proof. cbn [wrap]. destruct (Nat.leb _ _); reflexivity. Qed.
Lemma wrap_all max ws : Forall is_word ws -> Filled max ws (wrap max "" ws).
Proof. intros F. destruct ws as [|w ws]; [constructor|]. rewrite wrap_first. apply (wrap_filled max ws w []); auto. Qed.
Lemma wrap_extend max k : forall w k0 r, w <> "" -> String.length (join " " (w :: (k0 ++ k)%list)) <= max \/ k = [] ->
  wrap max (join " " (w :: k0)) (k ++ r) = wrap max (join " " (w :: (k0 ++ k)%list)) r.
Proof.
  induction k as [|v k IH]; intros w k0 r N H; [now rewrite app_nil_r|]. destruct H as [H|]; [|discriminate]. cbn [app wrap].
  rewrite !(some_match _ _ _ (join_some w k0 N)). replace (k0 ++ v :: k)%list with ((k0 ++ [v]) ++ k)%list in * by now rewrite <- app_assoc.
  assert (LE : forall x y, String.length (join " " (w :: x)) <= String.length (join " " (w :: (x ++ y)%list))).
  { intros x y. revert x. induction y as [|z y IHy]; intros x; [now rewrite app_nil_r|]. replace (x ++ z :: y)%list with ((x ++ [z]) ++ y)%list by now rewrite <- app_assoc.
    etransitivity; [|apply IHy]. rewrite join_length_snoc, !length_app_s. lia. }
  pose proof (LE (k0 ++ [v])%list k) as L1. rewrite join_length_snoc, !length_app_s in L1. cbn [String.length] in L1.
  destruct (Nat.leb_spec (String.length (join " " (w :: k0)) + String.length v + 1) max); [|lia]. rewrite <- join_length_snoc. apply IH; auto.
Qed.
Lemma Filled_wrap max ws ls : Filled max ws ls -> Forall is_word ws -> ls = wrap max "" ws.
Proof.
  induction 1 as [|w k r line ls J K B H IH]; intros F; [reflexivity|]. apply Joined_eq in J. subst line.
  assert (N : w <> "") by (inversion F as [|? ? [N _] _]; exact N). rewrite wrap_first. pose proof (wrap_extend max k w [] r N) as X. change (join " " [w]) with w in X. cbn [app] in X.
  rewrite X by tauto. inversion F as [|? ? _ F']; subst. apply Forall_app in F' as [_ F']. specialize (IH F').
  destruct B as [-> | (v & r' & -> & L)].
  - inversion H; subst. cbn [wrap]. now rewrite (some_match _ _ _ (join_some w k N)).
  - cbn [wrap]. rewrite !(some_match _ _ _ (join_some w k N)). destruct (Nat.leb_spec (String.length (join " " (w :: k)) + String.length v + 1) max); [lia|]. rewrite IH, wrap_first. reflexivity.
Qed.
Lemma wrapped_line max line : Wrapped max line (split_line max line).
Proof.
  unfold split_line. destruct line as [|c r]; [apply wrapped_empty|]. cbn [app]. apply (wrapped_words max _ (split_ws (String c r))); [discriminate|apply Words_split_ws|]. apply wrap_all, split_ws_words.
Qed.
Lemma Wrapped_split max line ls : Wrapped max line ls -> ls = split_line max line.
Proof.
  intros H. inversion H as [|? ws ? N W F]; subst; [reflexivity|]. apply Words_functional in W. subst ws. unfold split_line. rewrite (some_match _ _ _ N). cbn [app]. apply Filled_wrap; auto. apply split_ws_words.
Qed.
Lemma one_line_no s : one_line s <-> no_char (chr 10) s.
Proof.
  unfold one_line, no_char. rewrite Forall_chars, Forall_forall. split.
  - intros H c I. apply negb_true_iff, Ascii.eqb_neq. intros <-. exact (H _ I eq_refl).
  - intros H c I E. specialize (H c I). rewrite <- (ascii_nat_embedding c) in H. unfold code in E. rewrite E in H. discriminate.
Qed.
Lemma ends_feed u e : Forall (fun c => code c = 10) (chars e) -> e <> "" -> exists v, u ++ e = v ++ feed.
Proof.
  intros F N. assert (X : exists x c, e = x ++ String c "" /\ code c = 10).
  { induction e as [|c e IH]; [congruence|]. inversion F as [|? ? C F']; subst. destruct e as [|d e]; [exists "", c; auto|]. destruct IH as (x & a & -> & E); auto; [discriminate|]. exists (String c x), a. auto. }
  destruct X as (x & c & -> & E). exists (u ++ x). rewrite app_assoc_s. do 2 f_equal. unfold feed. f_equal. unfold code in E. rewrite <- E. now rewrite ascii_nat_embedding.
Qed.
Lemma rstrip_none s : forall u, rstrip_by is_nl s <> u ++ feed.
Proof.
  induction s as [|c s IH]; intros u E; cbn [rstrip_by] in E; [destruct u; discriminate|]. destruct (rstrip_by is_nl s) as [|d r] eqn:R.
  - destruct (is_nl c) eqn:N; [destruct u; discriminate|]. destruct u as [|x u]; cbn in E; [injection E as ->; discriminate N|]. injection E as _ E. destruct u; discriminate.
  - destruct u as [|x u]; cbn in E; [discriminate|]. injection E as _ E. exact (IH u E).
Qed.
Lemma strip_unique s t e t' e' : s = t ++ e -> s = t' ++ e' -> Forall (fun c => code c = 10) (chars e) -> Forall (fun c => code c = 10) (chars e') ->
  (forall u, t <> u ++ feed) -> (forall u, t' <> u ++ feed) -> t = t'.
Proof.
  revert t t'. induction s as [|c s IH]; intros t t' E1 E2 F F' N N'.
  - destruct t; [|discriminate]. destruct t'; [reflexivity|discriminate].
  - destruct t as [|a t], t' as [|a' t']; auto; cbn in E1, E2.
    + exfalso. subst e. injection E2 as <- E2. subst s. inversion F as [|? ? C F2]; subst.
      assert (Ft : Forall (fun c => code c = 10) (chars t')).
      { clear - F2. induction t' as [|x t' IH]; [constructor|]. inversion F2; subst. constructor; auto. }
      destruct (ends_feed "" (String c t')) as (v & V); [constructor; auto|discriminate|]. exact (N' v V).
    + exfalso. subst e'. injection E1 as <- E1. subst s. inversion F' as [|? ? C F2]; subst.
      assert (Ft : Forall (fun c => code c = 10) (chars t)).
      { clear - F2. induction t as [|x t IH]; [constructor|]. inversion F2; subst. constructor; auto. }
      destruct (ends_feed "" (String c t)) as (v & V); [constructor; auto|discriminate|]. exact (N v V).
    + injection E1 as <- E1. injection E2 as <- E2. f_equal. apply IH; auto; intros u E; [apply (N (String c u))|apply (N' (String c u))]; cbn; now rewrite E.
Qed.
Lemma dotted_spec s : Dotted s (with_period s).
Proof.
  destruct (rstrip_by_spec is_nl s) as (e & H1 & H2). assert (F : Forall (fun c => code c = 10) (chars e)).
  { apply Forall_chars in H2. eapply Forall_impl; [|exact H2]. intros c Hc. now apply Nat.eqb_eq. }
  unfold with_period. destruct (endswith "." (rstrip_by is_nl s)) eqn:E.
  - eapply dotted_has; eauto using rstrip_none. now apply endswith_spec.
  - eapply dotted_adds; eauto using rstrip_none. rewrite <- endswith_spec. congruence.
Qed.
Lemma Dotted_one s a b : Dotted s a -> Dotted s b -> a = b.
Proof. intros A B. inversion A; subst; inversion B; subst; match goal with H : ?x ++ ?y = ?z ++ ?v |- _ => assert (x = z) by (eapply (strip_unique (x ++ y)); eauto) end; subst; auto; contradiction. Qed.
Lemma parts_one l l' d : l <> [] -> l' <> [] -> Joined feed l d -> Joined feed l' d -> Forall one_line l -> Forall one_line l' -> l = l'.
Proof.
  intros N N' J J' F F'. apply Joined_eq in J, J'. assert (X : forall l, l <> [] -> Forall one_line l -> split_char (chr 10) (join feed l) = l).
  { clear. intros l N F. apply (split_join (chr 10)); auto. eapply Forall_impl; [|exact F]. intros x. apply one_line_no. }
  rewrite <- (X l N F), <- (X l' N' F'). now rewrite <- J, <- J'.
Qed.

Lemma split_some max s : split_string max (with_period s) <> [].
Proof.
  intros X. pose proof (split_string_words max (with_period s)) as W. rewrite X in W. cbn in W.
  pose proof (Words_split_ws (with_period s)) as Y. rewrite <- W in Y. inversion Y as [x Hbl| |]; subst. apply blank_spec in Hbl.
  assert (exists u, with_period s = u ++ ".") as [u Hu].
  { destruct (with_period_spec s) as (t & e & _ & _ & [[A ->]|[A ->]]); eauto. now apply endswith_spec. }
  rewrite Hu, str_forall_app in Hbl. apply andb_true_iff in Hbl as [_ Hbl]. discriminate.
Qed.

Theorem C33_all_texts : forall max ind s, Docstring max ind s (format_docstring max ind s).
Proof.
  intros max ind s. set (d := with_period s).
  assert (OL : contains nl (tq ++ d ++ tq) = false <-> one_line d).
  { split; intros H.
    - apply one_line_no. apply contains_nl_no in H. unfold no_char in *. rewrite !str_forall_app in H. rewrite !andb_true_iff in H. tauto.
    - unfold nl. rewrite contains_char. apply one_line_no in H. unfold no_char in H. rewrite !str_forall_exists in H. apply negb_true_iff in H.
      apply not_true_is_false. intros X. rewrite !str_exists_app in X. rewrite !orb_true_iff in X. destruct X as [X|[X|X]]; try discriminate X. cbv beta in *. congruence. }
  assert (LN : String.length (tq ++ d ++ tq) = String.length d + 6) by (rewrite !length_app_s; cbn; lia).
  apply (docstring max ind s d (split_char (chr 10) d) (map (split_line max) (split_char (chr 10) d))); [apply dotted_spec|apply split_char_nonnil| | | | |].
  - pose proof (Joined_join feed (split_char (chr 10) d)) as J. now rewrite (join_split (chr 10)) in J.
  - eapply Forall_impl; [|apply split_char_no]. intros x. apply one_line_no.
  - generalize (split_char (chr 10) d). clear. induction l as [|x l IH]; constructor; auto using wrapped_line.
  - intros [O L]. unfold format_docstring. fold d. apply OL in O. rewrite O. cbn [negb]. rewrite andb_true_r, LN. destruct (Nat.leb_spec (String.length d + 6) max) as [X|X]; [reflexivity|].
    destruct L as [L|L]; [lia|]. unfold split_string. rewrite flat_map_concat_map, L. reflexivity.
  - intros H. unfold format_docstring. fold d. rewrite LN. destruct (contains nl (tq ++ d ++ tq)) eqn:E.
    + cbn [negb]. rewrite !andb_false_r. unfold split_string. rewrite flat_map_concat_map.
      set (ls := concat _). assert (NE : ls <> []) by (pose proof (split_some max s) as X; unfold split_string in X; rewrite flat_map_concat_map in X; exact X).
      replace (ind ++ tq ++ nl ++ _) with (join nl (app ((ind ++ tq) :: map (fun x => ind ++ x) ls) [ind ++ tq])); [apply Joined_join|].
      rewrite join_snoc by discriminate. rewrite join_cons by (destruct ls; [contradiction|discriminate]). now rewrite !app_assoc_s.
    + assert (O : one_line d) by (apply OL; reflexivity). cbn [negb]. rewrite !andb_true_r. destruct (Nat.leb_spec (String.length d + 6) max) as [X|X]; [exfalso; apply H; split; auto|].
      unfold split_string. rewrite flat_map_concat_map. set (ls := concat _) in *. destruct (Nat.eqb_spec (List.length ls) 1) as [L|L]; [exfalso; apply H; split; auto|].
      assert (NE : ls <> []) by (pose proof (split_some max s) as Z; unfold split_string in Z; rewrite flat_map_concat_map in Z; exact Z).
      replace (ind ++ tq ++ nl ++ _) with (join nl (app ((ind ++ tq) :: map (fun x => ind ++ x) ls) [ind ++ tq])); [apply Joined_join|].
      rewrite join_snoc by discriminate. rewrite join_cons by (destruct ls; [contradiction|discriminate]). now rewrite !app_assoc_s.
Qed.
Print Assumptions C33_all_texts.

(** The form is determined. *)
Theorem C33_determined : forall max ind s a b, Docstring max ind s a -> Docstring max ind s b -> a = b.
Proof.
  intros max ind s a b A B. inversion A as [d p w o D N J F W H1 H2]; subst. inversion B as [d' p' w' o' D' N' J' F' W' H1' H2']; subst.
  assert (d = d') by (eapply Dotted_one; eauto). subst d'. assert (p = p') by (eapply parts_one; eauto). subst p'.
  assert (w = w') by (clear - W W'; revert w' W'; induction W; intros w' W'; inversion W'; subst; f_equal; auto; rewrite (Wrapped_split _ _ _ H), (Wrapped_split _ _ _ H2); reflexivity). subst w'.
  assert (X : in_one_line max d (concat w) \/ ~ in_one_line max d (concat w)).
  { unfold in_one_line. destruct (str_forall (fun c => negb (Ascii.eqb (chr 10) c)) d) eqn:E.
    - assert (O : one_line d) by (apply one_line_no; exact E). destruct (le_lt_dec (String.length d + 6) max); [left; auto|]. destruct (Nat.eq_dec (List.length (concat w)) 1); [left; auto|right; intros [_ [Y|Y]]; lia].
    - right. intros [O _]. apply one_line_no in O. unfold no_char in *. congruence. }
  destruct X as [X|X]; [rewrite H1, H1'; auto|]. apply H2 in X as Y. apply H2' in X as Y'. apply Joined_eq in Y, Y'. congruence.
Qed.
Print Assumptions C33_determined.
Example C33_all_example : format_docstring 12 "  " ("one two three" ++ feed ++ feed ++ "four") = "  " ++ quotes3 ++ feed ++ "  one two" ++ feed ++ "  three" ++ feed ++ "  " ++ feed ++ "  four." ++ feed ++ "  " ++ quotes3 /\
  Filled 12 ["one"; "two"; "three"] ["one two"; "three"].
Proof.
  split; [vm_compute; reflexivity|]. apply (filled_line 12 "one" ["two"] ["three"]); [apply (Joined_cons " " "one"); constructor|right; cbn; lia|right; exists "three", []; split; auto; cbn; lia|].
  apply (filled_line 12 "three" [] []); auto using filled_none. constructor.
Qed.
