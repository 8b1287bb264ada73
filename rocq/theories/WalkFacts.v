(** What a walk leaves of a value. *)
From Coq Require Import Ascii String List Bool Arith Lia.
From Verif Require Import PyStr Strategies Dispatch Values Tree TreeFacts SpecLimit.
Import ListNotations.
Local Open Scope string_scope.

Lemma map_id_in {A} (f : A -> A) l : (forall x, In x l -> f x = x) -> map f l = l.
Proof. intros H. rewrite <- (map_id l) at 2. now apply map_ext_in. Qed.
Lemma walked_same td n v : no_iterators v = true -> walked td n v = v.
Proof.
  induction v as [| | | | | | |k t l IH|k t kvs IH] using pyval_ind'; auto; rewrite Forall_forall in IH; intros H.
  - assert (E : k <> KIter -> map (walked td n) l = l).
    { intros N. apply map_id_in. intros x Hx. apply IH; auto. destruct k; try congruence; cbn in H; rewrite forallb_forall in H; auto. }
    destruct k; try discriminate H; cbn [walked]; f_equal; (destruct n as [n|]; rewrite E by discriminate; [apply firstn_skipn|reflexivity]).
  - assert (E : map (fun kv : key * pyval => (fst kv, walked td n (snd kv))) kvs = kvs).
    { apply map_id_in. intros [k0 x] Hx. cbn [fst snd]. f_equal. apply (IH _ Hx). cbn in H. rewrite forallb_forall in H. apply (H _ Hx). }
    cbn [walked]. f_equal. destruct k; [destruct td|]; try (exact E); (destruct n as [n|]; rewrite E; [apply firstn_skipn|reflexivity]).
Qed.
Lemma walked_none td v : walked td None v = exhaust v.
Proof.
  induction v as [| | | | | | |k t l IH|k t kvs IH] using pyval_ind'; auto; rewrite Forall_forall in IH.
  - destruct k; cbn [walked exhaust]; f_equal; auto; apply map_ext_in; auto.
  - cbn [walked exhaust]. f_equal. assert (E : map (fun kv : key * pyval => (fst kv, walked td None (snd kv))) kvs = map (fun kv => (fst kv, exhaust (snd kv))) kvs).
    { apply map_ext_in. intros x Hx. now rewrite IH. }
    destruct k; [destruct td|]; exact E.
Qed.
Lemma firstn_app_exact {A} n (a b : list A) : (List.length a = n \/ b = []) -> List.length a <= n -> firstn n (a ++ b) = a.
Proof.
  intros [L|E] Le; [|subst; rewrite app_nil_r; now apply firstn_all2]. rewrite firstn_app, L, Nat.sub_diag. cbn. rewrite app_nil_r. apply firstn_all2. lia.
Qed.
Lemma upto_first {A} (f : A -> A) n l : firstn n (firstn n (map f l) ++ skipn n l) = firstn n (map f l).
Proof.
  apply firstn_app_exact; [|apply firstn_le_length]. destruct (Nat.le_gt_cases n (List.length l)).
  - left. rewrite firstn_length, map_length. lia.
  - right. apply skipn_all2. lia.
Qed.
Lemma walked_exhaust td n v : iterators_upto (S n) v = true -> cut td n (walked td (Some n) v) = cut td n (exhaust v).
Proof.
  induction v as [| | | | | | |k t l IH|k t kvs IH] using pyval_ind'; auto; rewrite Forall_forall in IH; intros H; cbn [iterators_upto] in H.
  - apply andb_true_iff in H as [H1 H2]. rewrite forallb_forall in H2.
    assert (E : firstn n (map (cut td n) (firstn n (map (walked td (Some n)) l) ++ skipn n l)) = firstn n (map (cut td n) (map exhaust l))).
    { rewrite (firstn_map (cut td n)), upto_first, <- firstn_map, !map_map. f_equal. apply map_ext_in. intros x Hx. apply IH; auto. }
    destruct k; cbn [walked exhaust cut]; f_equal; auto. cbn [pass snd]. apply Nat.leb_le in H1. rewrite skipn_all2 by lia. reflexivity.
  - rewrite forallb_forall in H.
    assert (E0 : map (fun kv : key * pyval => (fst kv, cut td n (snd kv))) (map (fun kv => (fst kv, walked td (Some n) (snd kv))) kvs)
              = map (fun kv => (fst kv, cut td n (snd kv))) (map (fun kv => (fst kv, exhaust (snd kv))) kvs)).
    { rewrite !map_map. apply map_ext_in. intros x Hx. cbn [fst snd]. rewrite IH; auto. }
    assert (E : firstn n (map (fun kv : key * pyval => (fst kv, cut td n (snd kv))) (firstn n (map (fun kv => (fst kv, walked td (Some n) (snd kv))) kvs) ++ skipn n kvs))
              = firstn n (map (fun kv => (fst kv, cut td n (snd kv))) (map (fun kv => (fst kv, exhaust (snd kv))) kvs))).
    { rewrite (firstn_map (fun kv : key * pyval => (fst kv, cut td n (snd kv)))), upto_first, <- firstn_map, E0. reflexivity. }
    cbn [walked exhaust cut]. f_equal. destruct k; [destruct td|]; auto.
Qed.

Definition partly {A} (n : option nat) (f : A -> A) (l : list A) : list A := match n with None => map f l | Some n => firstn n (map f l) ++ skipn n l end%list.
Lemma partly_same {A} (f : A -> A) l : forall n, partly n f l = l <-> forall i x, nth_error l i = Some x -> first_ones n i -> f x = x.
Proof.
  induction l as [|y l IH]; intros n.
  - split; [intros _ [|i] x H; discriminate|]. destruct n as [[|n]|]; reflexivity.
  - assert (C : partly n f (y :: l) = match n with Some 0 => y :: l | Some (S m) => f y :: partly (Some m) f l | None => f y :: partly None f l end) by (destruct n as [[|n]|]; reflexivity).
    rewrite C. destruct n as [[|n]|].
    + split; auto. intros _ i x _ H. cbn in H. lia.
    + split.
      * intros E. injection E as E1 E2. intros [|i] x H L; cbn in H; [congruence|]. apply (proj1 (IH (Some n)) E2 i x H). cbn in *. lia.
      * intros H. f_equal; [apply (H 0 y eq_refl); cbn; lia|]. apply IH. intros i x Hx L. apply (H (S i) x Hx). cbn in *. lia.
    + split.
      * intros E. injection E as E1 E2. intros [|i] x H L; cbn in H; [congruence|]. apply (proj1 (IH None) E2 i x H I).
      * intros H. f_equal; [exact (H 0 y eq_refl I)|]. apply IH. intros i x Hx _. exact (H (S i) x Hx I).
Qed.
Lemma walked_seq td n k t l : k <> KIter -> walked td n (VSeq k t l) = VSeq k t (partly n (walked td n) l).
Proof. intros H. destruct k; try reflexivity. now contradiction H. Qed.
Lemma walked_map td n k t d : walked td n (VMap k t d) = VMap k t (partly (match k with MDict => if td then None else n | MProxy => n end) (fun kv => (fst kv, walked td n (snd kv))) d).
Proof. destruct k; [destruct td|]; reflexivity. Qed.
Lemma walked_kept td n v : walked td n v = v <-> forall t l, looked_at td n (VSeq KIter t l) v -> l = [].
Proof.
  split.
  - intros H t l L. remember (VSeq KIter t l) as x eqn:Ex. induction L as [|k ty d i y Hk Hy Hi L IH|k ty d i key y Hy Hi L IH]; subst.
    + cbn [walked] in H. injection H as H. apply (f_equal (@List.length pyval)) in H. unfold pass in H. destruct n; cbn [snd] in H; [rewrite skipn_length in H; destruct l; [auto|cbn in H; lia]|destruct l; [auto|discriminate]].
    + apply IH; auto. rewrite walked_seq in H by auto. injection H as H. exact (proj1 (partly_same _ _ _) H i y Hy Hi).
    + apply IH; auto. rewrite walked_map in H. injection H as H.
      assert (X : (key, walked td n y) = (key, y)); [|congruence]. apply (proj1 (partly_same _ _ _) H i (key, y) Hy). destruct Hi as [[-> ->]|Hi]; [exact I|]. destruct k; [destruct td|]; auto. exact I.
  - induction v as [| | | | | | |k t l IH|k t kvs IH] using pyval_ind'; auto; rewrite Forall_forall in IH; intros H.
    + assert (K : k = KIter \/ k <> KIter) by (destruct k; auto; right; discriminate). destruct K as [->|K].
      * rewrite (H t l (la_self _ _ _)). cbn [walked]. unfold pass. now destruct n as [[|n]|].
      * rewrite walked_seq by auto. f_equal. apply partly_same. intros i x Hx Hi. apply IH; [eapply nth_error_In; eauto|]. intros t' l' L. apply (H t' l'). eapply la_element; eauto.
    + rewrite walked_map. f_equal. apply partly_same. intros i [key x] Hx Hi. cbn [fst snd]. f_equal. apply (IH (key, x)); [eapply nth_error_In; eauto|]. intros t' l' L. apply (H t' l'). eapply la_value; [exact Hx| |exact L].
      destruct k; [destruct td|]; auto.
Qed.
