(** Trees with clear names: every declared node has a name of its own. *)
From Coq Require Import Ascii String List Bool Arith Lia Permutation.
From Verif Require Import PyStr PyStrFacts Utils Strategies Dispatch Values Tree Build Emit TreeFacts SpecNames NamesFacts SpecData BuildFacts BuildInd TotalFacts TreeProofs SeqFacts ShareFacts
  SpecTypes Elab SpecEmit SpecCamel CamelFacts SpecUnique EmitFacts.
Import ListNotations.
Local Open Scope string_scope.
Local Open Scope nat_scope.

(** ** Texts *)
Lemma app_prefix (a b c d : string) : a ++ b = c ++ d -> (exists z, c = a ++ z /\ b = z ++ d) \/ (exists z, a = c ++ z /\ d = z ++ b).
Proof.
  revert c. induction a as [|x a IH]; intros c H; [left; exists c; auto|]. destruct c as [|y c]; [right; exists (String x a); auto|].
  cbn in H. injection H as -> H. destruct (IH c H) as [(z & -> & ->)|(z & -> & ->)]; [left|right]; exists z; auto.
Qed.
Lemma begins_app P a b : begins P (a ++ b) -> begins P a \/ (a = "" /\ begins P b).
Proof. intros (c & r & E & Pc). destruct a as [|x a]; [right; split; auto; exists c, r; auto|]. cbn in E. injection E as -> E. left. exists c, a. auto. Qed.
Lemma begins_app_l P a b : begins P a -> begins P (a ++ b).
Proof. intros (c & r & -> & Pc). exists c, (r ++ b). auto. Qed.
Lemma begins_nonnil P : ~ begins P "".
Proof. intros (c & r & E & _). discriminate. Qed.
Lemma capital_iff' c : capital_letter c <-> between 65 90 (PyStr.ord c) = true.
Proof. unfold capital_letter. now rewrite between_spec. Qed.

(** No capital after the first character. *)
Definition plain_word (w : string) : Prop := exists c r, w = String c r /\ forall d, In d (chars r) -> ~ capital_letter d.
Lemma chars_app a b : chars (a ++ b) = (chars a ++ chars b)%list.
Proof. induction a; cbn; auto. now rewrite IHa. Qed.
Lemma plain_extends a b : a <> "" -> plain_word b -> extends a b -> a = b.
Proof.
  intros Na (c & r & -> & H) (z & [->|(d & q & -> & Hd)] & E); [now rewrite app_nil_r_s in E|]. exfalso.
  destruct a as [|x a]; [congruence|]. cbn in E. injection E as _ E. apply (H d); auto. rewrite E, chars_app. apply in_or_app. right. now left.
Qed.
Lemma lower_plain s d : In d (chars (lower s)) -> ~ capital_letter d.
Proof.
  induction s as [|c s IH]; cbn; [intros []|]. intros [<-|H]; auto. rewrite capital_iff'.
  assert (X : forall c, negb (between 65 90 (PyStr.ord (lower_char c))) = true) by (intros x; by_chars x). specialize (X c). destruct (between 65 90 (PyStr.ord (lower_char c))); [discriminate|]. congruence.
Qed.
Lemma digit_not_capital c : digit c -> ~ capital_letter c.
Proof. unfold digit, capital_letter, in_range. lia. Qed.
Lemma letter_cases c : ascii_letter c -> exists d, upper_char c = String d "" /\ capital_letter d /\ Nat.eqb (PyStr.ord c) 223 = false.
Proof.
  intros H. assert (X : forall c, negb (between 65 90 (PyStr.ord c) || between 97 122 (PyStr.ord c)) ||
    match upper_char c with String d "" => between 65 90 (PyStr.ord d) | _ => false end && negb (Nat.eqb (PyStr.ord c) 223) = true) by (intros x; by_chars x).
  specialize (X c). unfold ascii_letter in H. rewrite <- !between_spec in H. replace (between 65 90 (PyStr.ord c) || between 97 122 (PyStr.ord c)) with true in X.
  2: { symmetry. apply orb_true_iff. exact H. }
  cbn in X. apply andb_true_iff in X as [X Y]. destruct (upper_char c) as [|d [|]]; try discriminate. exists d. rewrite capital_iff'. apply negb_true_iff in Y. auto.
Qed.
Lemma capitalize_letter s : begins ascii_letter s -> exists d r, capitalize s = String d r /\ capital_letter d /\ forall x, In x (chars r) -> ~ capital_letter x.
Proof.
  intros (c & r & -> & H). destruct (letter_cases c H) as (d & U & D & N). exists d, (lower r). cbn [capitalize]. rewrite N, U. cbn. split; auto. split; auto. intros x. apply lower_plain.
Qed.
Lemma type_word T ds : begins ascii_letter T -> Forall digit (chars ds) -> begins capital_letter (capitalize T ++ ds) /\ plain_word (capitalize T ++ ds).
Proof.
  intros H D. destruct (capitalize_letter T H) as (d & r & -> & Hd & Hr). cbn. split; [exists d, (r ++ ds); auto|]. exists d, (r ++ ds). split; auto.
  intros x Hx. rewrite chars_app in Hx. apply in_app_iff in Hx as [Hx|Hx]; auto. rewrite Forall_forall in D. apply digit_not_capital. auto.
Qed.
Lemma camel_letter k : begins ascii_letter k -> begins capital_letter (to_camel_case k).
Proof.
  intros (c & r & -> & H). destruct (letter_cases c H) as (d & U & D & _). unfold to_camel_case, drop_digits.
  assert (X : forall c, negb (between 65 90 (PyStr.ord c) || between 97 122 (PyStr.ord c)) || negb (is_decimal c) && (is_alpha c || is_numeric c) = true) by (intros x; by_chars x).
  specialize (X c). unfold ascii_letter in H. rewrite <- !between_spec in H. replace (between 65 90 (PyStr.ord c) || between 97 122 (PyStr.ord c)) with true in X.
  2: { symmetry. apply orb_true_iff. exact H. }
  cbn [negb orb] in X. apply andb_true_iff in X as [X1 X2]. apply negb_true_iff in X1. cbn [lstrip_by]. rewrite X1. cbn [camel_loop]. rewrite X2, U. exists d, (camel_loop false r). auto.
Qed.
Lemma decimal_digits n : Forall digit (chars (str_of_nat n)).
Proof. apply Forall_forall. intros c Hc. apply digit_iff. pose proof (str_of_nat_decimal n) as H. rewrite str_forall_In in H. apply H. now apply chars_str_In. Qed.
Lemma suffix_digits n : Forall digit (chars (suffix_no n)).
Proof. destruct n; [apply Forall_nil|apply decimal_digits]. Qed.
Lemma extends_app p a b : extends (p ++ a) (p ++ b) -> extends a b.
Proof. intros (z & Z & E). exists z. split; auto. rewrite app_assoc_s in E. now apply app_inj_l in E. Qed.
Lemma extends_app_r p a b : extends a b -> extends (p ++ a) (p ++ b).
Proof. intros (z & Z & ->). exists z. split; auto. now rewrite app_assoc_s. Qed.

(** ** The law of names *)
Record law (s : strategies) (x : tree) : Prop := {
  law_word : forall e, In e (tcs x) -> declared_inside s (etree e) -> exists w, begins capital_letter w /\ tname (etree e) = tname x ++ w;
  law_apart : forall e e', In e (tcs x) -> In e' (tcs x) -> declared_inside s (etree e) -> declared_inside s (etree e') ->
    extends (tname (etree e)) (tname (etree e')) -> etree e = etree e'
}.
Definition lawful (s : strategies) (t : tree) : Prop := forall x, node_of x t -> law s x.

Lemma live_child s x e : In e (tcs x) -> declared_inside s (etree e) -> declared_inside s x.
Proof. intros He (y & Hy & P). exists y. split; auto. destruct x as [i cs]. econstructor; eauto. Qed.
Lemma lawful_child s x e : lawful s x -> In e (tcs x) -> lawful s (etree e).
Proof. intros L He y Hy. apply L. destruct x. econstructor; eauto. Qed.
Lemma clear_child s x e : clear_names s x -> In e (tcs x) -> clear_names s (etree e).
Proof. intros L He y Hy. apply L. destruct x. econstructor; eauto. Qed.
Lemma lawful_node s i cs : law s (Node i cs) -> (forall e, In e cs -> lawful s (etree e)) -> lawful s (Node i cs).
Proof. intros L H x Hx. apply node_of_inv in Hx as [->|(e & He & Hx)]; auto. now apply (H e He). Qed.
Lemma dead_lawful s t : ~ declared_inside s t -> lawful s t.
Proof.
  intros N x Hx. assert (D : forall e, In e (tcs x) -> ~ declared_inside s (etree e)).
  { intros e He L. apply N. apply (live_child s x e He) in L. destruct L as (y & Hy & P). exists y. split; auto. eapply node_of_trans; eauto. }
  split; [intros e He L|intros e e' He _ L]; exfalso; now apply (D e He).
Qed.

Lemma lawful_names s t : lawful s t -> forall y, node_of y t -> declared_inside s y -> y = t \/ exists w, begins capital_letter w /\ tname y = tname t ++ w.
Proof.
  intros L y Hy. revert L. induction Hy as [|i cs e He Hy IH]; intros L D; [now left|]. right.
  assert (De : declared_inside s (etree e)). { destruct D as (z & Hz & P). exists z. split; auto. eapply node_of_trans; eauto. }
  destruct (law_word s _ (L _ (node_refl _)) e He De) as (w & W & E).
  destruct (IH (lawful_child s (Node i cs) e L He) D) as [->|(w' & W' & E')]; [exists w; auto|]. exists (w ++ w'). split; [now apply begins_app_l|].
  unfold etree in E. rewrite E', E. now rewrite app_assoc_s.
Qed.
Lemma lawful_suffix s t y : lawful s t -> node_of y t -> declared_inside s y -> exists r, (r = "" \/ begins capital_letter r) /\ tname y = tname t ++ r.
Proof. intros L H D. destruct (lawful_names s t L y H D) as [->|(w & W & E)]; [exists ""|exists w]; split; auto. now rewrite app_nil_r_s. Qed.
Lemma live_in s y t : node_of y t -> declared_inside s y -> declared_inside s t.
Proof. intros H (z & Hz & P). exists z. split; auto. eapply node_of_trans; eauto. Qed.
Lemma lawful_unique s t : lawful s t -> forall y y', node_of y t -> node_of y' t -> declared_inside s y -> declared_inside s y' -> tname y = tname y' -> y = y'.
Proof.
  induction t as [i cs IH] using tree_ind'. rewrite Forall_forall in IH. intros L y y' Hy Hy' D D' E.
  assert (Root : forall z, node_of z (Node i cs) -> declared_inside s z -> tname z = tname (Node i cs) -> z = Node i cs).
  { intros z Hz Dz Ez. destruct (lawful_names s _ L z Hz Dz) as [?|(w & W & Ew)]; auto. exfalso. rewrite Ew in Ez. rewrite <- (app_nil_r_s (tname (Node i cs))) in Ez at 2.
    apply app_inj_l in Ez. subst w. now apply begins_nonnil in W. }
  pose proof Hy as Ny. pose proof Hy' as Ny'. apply node_of_inv in Hy as [->|(e & He & Hy)]; [symmetry; apply Root; auto|].
  apply node_of_inv in Hy' as [->|(e' & He' & Hy')]; [apply Root; auto|].
  pose proof (live_in s _ _ Hy D) as De. pose proof (live_in s _ _ Hy' D') as De'.
  destruct (lawful_suffix s _ y (lawful_child s _ e L He) Hy D) as (r & R & Er). destruct (lawful_suffix s _ y' (lawful_child s _ e' L He') Hy' D') as (r' & R' & Er').
  assert (Q : etree e = etree e' -> y = y').
  { intros Q. apply (IH e He); auto; [apply (lawful_child s _ e L He)|]. unfold etree in Q. now rewrite Q. }
  assert (X : forall a b z, (a = "" \/ begins capital_letter a) -> a = z ++ b -> z = "" \/ begins capital_letter z).
  { intros a b z A Ez. destruct A as [A|A]; rewrite Ez in A; [destruct z; [auto|discriminate A]|]. apply begins_app in A as [A|[A _]]; auto. }
  rewrite Er, Er' in E. apply Q. apply app_prefix in E as [(z & Z & Zr)|(z & Z & Zr)].
  - apply (law_apart s _ (L _ (node_refl _)) e e'); auto. exists z. split; eauto.
  - symmetry. apply (law_apart s _ (L _ (node_refl _)) e' e); auto. exists z. split; eauto.
Qed.

(** ** Renaming *)
Lemma perm_ren s k new n t : perm s (ren k new n t) = perm s t.
Proof. unfold perm. now rewrite ren_kind, ren_root, ren_height. Qed.
Lemma node_ren_fwd x t : node_of x t -> forall k new n, exists k', node_of (ren k' new n x) (ren k new n t).
Proof.
  induction 1 as [|i cs e He H IH]; intros k new n; [exists k; constructor|]. destruct (IH (k * emult e) new n) as (k' & Hk'). exists k'.
  destruct (ren k new n (Node i cs)) as [i' cs'] eqn:E. assert (cs' = map (ren_entry k new n) cs) as -> by (change cs' with (tcs (Node i' cs')); rewrite <- E; apply ren_cs).
  apply (node_child _ _ _ (ren_entry k new n e)); [now apply in_map|exact Hk'].
Qed.
Lemma live_ren s k new n t : declared_inside s (ren k new n t) <-> declared_inside s t.
Proof.
  split; intros (y & Hy & P).
  - apply node_of_ren in Hy as (y' & k' & Hy & ->). rewrite perm_ren in P. exists y'. auto.
  - destruct (node_ren_fwd y t Hy k new n) as (k' & H). exists (ren k' new n y). rewrite perm_ren. auto.
Qed.
Lemma teq_ren_r s a b k new n : teq s a (ren k new n b) = teq s a b.
Proof. rewrite teq_sym, teq_ren_l. apply teq_sym. Qed.
Lemma only_one_ren s k new n es e : only_one s (map (ren_entry k new n) es) (ren_entry k new n e) <-> only_one s es e.
Proof.
  unfold only_one. split; intros H.
  - intros e' He' N. specialize (H _ (in_map (ren_entry k new n) _ _ He') N). unfold ren_entry, etree in H. cbn [snd] in H. now rewrite teq_ren_l, teq_ren_r in H.
  - intros e' He' N. apply in_map_iff in He' as (e0 & <- & He'). unfold ren_entry, etree. cbn [snd]. rewrite teq_ren_l, teq_ren_r. now apply H.
Qed.
Lemma clear_mapping_ren s k new n es : clear_mapping s (map (ren_entry k new n) es) -> clear_mapping s es.
Proof.
  intros [A B C D]. split.
  - rewrite map_map in A. exact A.
  - intros e He L O. apply (B (ren_entry k new n e)); [now apply in_map|unfold ren_entry, etree; cbn [snd]; now rewrite live_ren|now apply only_one_ren].
  - intros e e' w w' He He' L L' N O W W'. assert (X : forall e w, entry_word s es e w -> entry_word s (map (ren_entry k new n) es) (ren_entry k new n e) w).
    { clear. intros e w [k0 w0 O K Cm|ds O Ds]; [econstructor; eauto; now apply only_one_ren|]. pose proof (ren_type (k * emult e) new n (etree e)) as T.
      rewrite <- T. apply (word_type s _ (ren_entry k new n e)); auto. now rewrite only_one_ren. }
    apply (C (ren_entry k new n e) (ren_entry k new n e') w w'); auto; try (now apply in_map); try (unfold ren_entry, etree; cbn [snd]; now rewrite live_ren).
    rewrite !only_one_ren. unfold ren_entry, etree. cbn [snd]. now rewrite !ren_type.
  - intros e x e' He L O Hx He' L'. destruct (node_ren_fwd x (etree e) Hx (k * emult e) new n) as (k' & H).
    apply (D (ren_entry k new n e) (ren k' new n x) (ren_entry k' new n e')); auto.
    + now apply in_map.
    + unfold ren_entry, etree. cbn [snd]. now rewrite live_ren.
    + now rewrite only_one_ren.
    + rewrite ren_cs. now apply in_map.
    + unfold ren_entry, etree. cbn [snd]. now rewrite live_ren.
Qed.
Lemma pairs_map {A B} (R : B -> B -> Prop) (f : A -> B) l : ForallOrdPairs R (map f l) -> ForallOrdPairs (fun a b => R (f a) (f b)) l.
Proof.
  induction l as [|a l IH]; cbn [map]; intros H; [constructor|]. inversion H as [|? ? X Y]; subst. constructor; auto. rewrite Forall_forall in *.
  intros b Hb. apply X. now apply in_map.
Qed.
Lemma pairs_impl {A} (R Q : A -> A -> Prop) l : (forall a b, R a b -> Q a b) -> ForallOrdPairs R l -> ForallOrdPairs Q l.
Proof. intros I. induction 1 as [|a l X Y IH]; constructor; auto. eapply Forall_impl; [|exact X]. auto. Qed.
Lemma clear_node_ren s k new n x : clear_node s (ren k new n x) -> clear_node s x.
Proof.
  unfold clear_node. rewrite ren_kind, ren_cs. destruct (tkind x) as [| | | | | |[]| |]; auto; try apply clear_mapping_ren.
  intros H T. specialize (H T). unfold clear_tuple in *. apply pairs_map in H. eapply pairs_impl; [|exact H]. cbv beta. intros a b P M M' L.
  unfold ren_entry, etree, emult in *. cbn [snd fst] in P. rewrite !live_ren, teq_ren_l, teq_ren_r in P. now apply P.
Qed.
Lemma clear_ren s k new n t : clear_names s (ren k new n t) -> clear_names s t.
Proof. intros H x Hx. destruct (node_ren_fwd x t Hx k new n) as (k' & H'). apply (clear_node_ren s k' new n). now apply H. Qed.

Definition single_inside (s : strategies) (t : tree) : Prop := forall x e, node_of x t -> In e (tcs x) -> declared_inside s (etree e) -> emult e = 1.
Definition no_roots (t : tree) : Prop := forall x, node_of x t -> i_root (ti x) = false.
Lemma drop_app a b : drop (String.length a) (a ++ b) = b.
Proof. induction a; cbn; auto. Qed.
Lemma ren_one_name new old r t : i_root (ti t) = false -> tname t = old ++ r -> tname (ren 1 new (String.length old) t) = new ++ r.
Proof. destruct t as [i cs]. unfold tname. cbn. intros -> ->. now rewrite drop_app. Qed.
Lemma ren_lawful s new old c : forall k, lawful s c -> no_roots c -> single_inside s c ->
  (declared_inside s c -> k = 1 /\ exists r, tname c = old ++ r) -> lawful s (ren k new (String.length old) c).
Proof.
  induction c as [i cs IH] using tree_ind'. rewrite Forall_forall in IH. intros k L NR SI H.
  destruct (ren k new (String.length old) (Node i cs)) as [i' cs'] eqn:E.
  assert (cs' = map (ren_entry k new (String.length old)) cs) as -> by (change cs' with (tcs (Node i' cs')); rewrite <- E; apply ren_cs).
  assert (Sub : forall e, In e cs -> forall x, node_of x (etree e) -> node_of x (Node i cs)) by (intros e He x Hx; econstructor; eauto).
  assert (Ch : forall e, In e cs -> declared_inside s (etree e) -> k = 1 /\ emult e = 1 /\ exists r w, tname (Node i cs) = old ++ r /\ begins capital_letter w /\ tname (etree e) = old ++ r ++ w).
  { intros e He D. pose proof (live_child s (Node i cs) e He D) as DN. destruct (H DN) as (K & r & Er). split; auto. split; [apply (SI (Node i cs) e); auto; constructor|].
    destruct (law_word s _ (L _ (node_refl _)) e He D) as (w & W & Ew). exists r, w. split; auto. split; auto. now rewrite Ew, Er, app_assoc_s. }
  assert (Nm : forall e r w, In e cs -> k = 1 -> emult e = 1 -> tname (etree e) = old ++ r ++ w -> tname (etree (ren_entry k new (String.length old) e)) = new ++ r ++ w).
  { intros e r w He -> M Ew. unfold ren_entry, etree. cbn [snd]. rewrite M. apply ren_one_name; auto. apply NR. eapply Sub; eauto. constructor. }
  apply lawful_node.
  - split; cbn [tcs].
    + intros e0 He0 D. apply in_map_iff in He0 as (e & <- & He). unfold ren_entry, etree in D. cbn [snd] in D. rewrite live_ren in D.
      destruct (Ch e He D) as (K & M & r & w & Er & W & Ew). exists w. split; auto. rewrite (Nm e r w) by auto. rewrite <- E. rewrite K, (ren_one_name new old r) by (auto; apply NR; constructor).
      now rewrite app_assoc_s.
    + intros e0 e0' He0 He0' D D' X. apply in_map_iff in He0 as (e & <- & He). apply in_map_iff in He0' as (e' & <- & He'). unfold ren_entry, etree in D, D'. cbn [snd] in D, D'.
      rewrite live_ren in D, D'. destruct (Ch e He D) as (K & M & r & w & Er & W & Ew). destruct (Ch e' He' D') as (_ & M' & r' & w' & Er' & W' & Ew').
      rewrite (Nm e r w), (Nm e' r' w') in X by auto. apply extends_app in X. apply (extends_app_r old) in X. rewrite <- Ew, <- Ew' in X.
      apply (law_apart s _ (L _ (node_refl _)) e e' He He' D D') in X. unfold ren_entry, etree in *. cbn [snd]. now rewrite M, M', X.
  - intros e0 He0. apply in_map_iff in He0 as (e & <- & He). unfold ren_entry, etree. cbn [snd]. refine (IH e He (k * emult e) _ _ _ _).
    + apply (lawful_child s (Node i cs) e L He).
    + intros x Hx. apply NR. eapply Sub; eauto.
    + intros x e1 Hx He1 D1. apply (SI x e1); auto. eapply Sub; eauto.
    + intros D. destruct (Ch e He D) as (K & M & r & w & Er & W & Ew). split; [unfold emult in M; unfold emult; rewrite M, K; reflexivity|]. exists (r ++ w). auto.
Qed.

(** ** Metadata *)
Lemma lawful_info s i i' cs : i_name i = i_name i' -> lawful s (Node i cs) -> lawful s (Node i' cs).
Proof.
  intros E L x Hx. apply node_of_inv in Hx as [->|(e & He & Hx)].
  - destruct (L _ (node_refl _)) as [A B]. split; cbn [tcs] in *; unfold tname in *; cbn [ti] in *; [rewrite <- E|]; auto.
  - apply L. econstructor; eauto.
Qed.
Lemma clear_dict s i d m d' m' cs : i_kind i = NDict d m -> clear_names s (Node (with_kind i (NDict d' m')) cs) -> clear_names s (Node i cs).
Proof.
  intros E T x Hx. apply node_of_inv in Hx as [->|(e & He & Hx)].
  - specialize (T _ (node_refl _)). unfold clear_node, tkind in *. cbn [ti i_kind with_kind tcs] in *. now rewrite E.
  - apply T. econstructor; eauto.
Qed.
Definition behaves (s : strategies) (c : tree) : Prop := clear_names s c -> lawful s c.
Lemma behaves_dict s i d m d' m' cs : i_kind i = NDict d m -> behaves s (Node i cs) -> behaves s (Node (with_kind i (NDict d' m')) cs).
Proof. intros E B T. apply (lawful_info s i); auto. apply B. eapply clear_dict; eauto. Qed.
Lemma behaves_update s t o : behaves s t -> behaves s (update_node t o).
Proof. destruct (update_node_cases t o) as [->|(d&m&d'&m'&E&->)]; auto. destruct t as [i cs]. eapply behaves_dict; eauto. Qed.
Lemma behaves_set_meta s t m : behaves s t -> behaves s (set_meta m t).
Proof. destruct (set_meta_cases m t) as [->|(d&m0&d'&m'&E&->)]; auto. destruct t as [i cs]. eapply behaves_dict; eauto. Qed.
Lemma live_lawful s c : (declared_inside s c -> lawful s c) -> lawful s c.
Proof.
  intros H x Hx. assert (D : forall e, In e (tcs x) -> declared_inside s (etree e) -> law s x).
  { intros e He L. apply H; auto. eapply live_in; eauto. eapply live_child; eauto. }
  split.
  - intros e He L. apply (law_word s x (D e He L) e); auto.
  - intros e e' He He' L L' X. apply (law_apart s x (D e He L) e e'); auto.
Qed.

(** ** Values *)
Lemma letter_sub v x : letter_types v -> sub x v -> letter_types x.
Proof. intros L H y Hy. apply L. eapply sub_trans; eauto. Qed.
Lemma letter_exhaust v : letter_types v -> letter_types (exhaust v).
Proof. intros L x Hx. apply sub_exhaust in Hx as (y & Hy & ->). rewrite type_exhaust. auto. Qed.
Lemma dict_letter : begins ascii_letter "dict".
Proof. exists "d"%char, "ict". split; auto. right. unfold in_range, code. cbn. lia. Qed.
Lemma letter_map_intro kvs : (forall k x, In (k, x) kvs -> letter_types x) -> letter_types (VMap MDict ty_dict kvs).
Proof. intros H x Hx. inversion Hx; subst; [apply dict_letter|]. eapply H; eauto. Qed.
Lemma pytype_dec (a b : pytype) : a = b \/ a <> b.
Proof.
  destruct a as [i n], b as [i' n']. destruct (Nat.eq_dec i i') as [->|]; [|right; congruence]. destruct (string_dec n n') as [->|]; [now left|right; congruence].
Qed.
Lemma only_one_dec s es e : only_one s es e \/ ~ only_one s es e.
Proof.
  destruct (forallb (fun e' => key_eqb (ekey e') (ekey e) || negb (teq s (etree e) (etree e'))) es) eqn:F.
  - left. rewrite forallb_forall in F. intros e' He' N. specialize (F e' He'). apply orb_true_iff in F as [F|F]; [apply key_eqb_spec in F; congruence|]. now apply negb_true_iff.
  - right. intros H. apply not_true_iff_false in F. apply F. apply forallb_forall. intros e' He'. destruct (key_eqb (ekey e') (ekey e)) eqn:K; auto.
    cbn [orb]. rewrite H; auto. intros E. rewrite E, (proj2 (key_eqb_spec _ _) eq_refl) in K. discriminate.
Qed.

Section Lawful.
  Variable s : strategies.
  Variable ord : set_order.
  Hypothesis Hord : set_like ord.

  (** The name of an element of a sequence. *)
  Definition element_word (p n : string) : Prop := exists T ds, begins ascii_letter T /\ Forall digit (chars ds) /\ n = p ++ capitalize T ++ ds.
  Lemma element_word_fresh p v used : letter_types v -> element_word p (fresh_name (element_name p v) used).
  Proof.
    intros L. pose proof (L v (sub_refl v)) as B. destruct (fresh_name_app (element_name p v) used) as [->|(n & ->)]; unfold element_name.
    - exists (ty_name (type_of v)), "". split; auto. split; [apply Forall_nil|]. now rewrite app_nil_r_s.
    - exists (ty_name (type_of v)), (str_of_nat n). split; auto. split; [apply decimal_digits|]. now rewrite app_assoc_s.
  Qed.
  Lemma element_word_begins p n : element_word p n -> exists w, begins capital_letter w /\ n = p ++ w.
  Proof. intros (T & ds & B & D & ->). exists (capitalize T ++ ds). split; auto. now apply type_word. Qed.
  Lemma element_word_extends p n n' : element_word p n -> element_word p n' -> extends n n' -> n = n'.
  Proof.
    intros (T & ds & B & D & ->) (T' & ds' & B' & D' & ->) X. apply extends_app in X. apply plain_extends in X; [now rewrite X| |now apply type_word].
    intros E. destruct (type_word T ds B D) as [Y _]. rewrite E in Y. now apply begins_nonnil in Y.
  Qed.

  Definition fuelled (f : nat) : Prop := forall name d r v t, letter_types v -> build s ord f name d r v = Ok t -> behaves s t.

  (** The dict that replaces similar typed dicts. *)
  Lemma merged_behaves f d p l trees m : fuelled f -> (forall v, In v l -> letter_types v) ->
    (forall t, In t trees -> from_els l t /\ element_word p (tname t) /\ is_td s t = true) ->
    from_multiple (fun n d0 => build s ord f n d false (exhaust (VMap MDict ty_dict d0))) trees = Ok m ->
    is_td s m = true /\ element_word p (tname m) /\ behaves s m.
  Proof.
    intros IH Hl Ht H. destruct (from_multiple_facts s ord f d trees m H) as (Tm & t & It & Et); [intros t It; apply (Ht t It)|]. split; auto. split; [rewrite Et; apply (Ht t It)|].
    apply from_multiple_Ok in H as (first & rest & t0 & E & Hb & ->). apply behaves_set_meta. eapply IH; [|exact Hb].
    apply letter_exhaust, letter_map_intro. intros k x Hx. apply merged_In in Hx as [[]|(t1 & H1 & K)].
    destruct (Ht t1 H1) as ((_ & C & _) & _). destruct (C _ _ K) as (mk & ty & kvs & Hv & Hk). eapply letter_sub; [apply Hl, Hv|]. econstructor; eauto. constructor.
  Qed.

  Definition child_ok (p : string) (l : list pyval) (c : tree) : Prop := from_els l c /\ element_word p (tname c) /\ behaves s c.
  Lemma seq_lawful i cs k : i_kind i = NSeq k -> clear_names s (Node i cs) -> (forall e, In e cs -> element_word (i_name i) (tname (etree e))) ->
    (forall e, In e cs -> lawful s (etree e)) ->
    (forall e e', In e cs -> In e' cs -> declared_inside s (etree e) -> declared_inside s (etree e') -> tname (etree e) = tname (etree e') -> etree e = etree e') -> lawful s (Node i cs).
  Proof.
    intros K T W L U. apply lawful_node; auto. split; cbn [tcs].
    - intros e He D. apply element_word_begins. now apply W.
    - intros e e' He He' D D' X. apply U; auto. eapply element_word_extends; eauto; now apply W.
  Qed.
  Lemma NoDup_map_eq {A B} (f : A -> B) l a b : NoDup (map f l) -> In a l -> In b l -> f a = f b -> a = b.
  Proof.
    induction l as [|x l IH]; intros N Ha Hb E; [destruct Ha|]. cbn [map] in N. inversion N as [|? ? N1 N2]; subst.
    destruct Ha as [->|Ha], Hb as [->|Hb]; auto; exfalso; apply N1; [rewrite E|rewrite <- E]; now apply in_map.
  Qed.

  Lemma set_lawful f name d r k ty l cs : fuelled f -> (forall v, In v (limit s l) -> letter_types v) ->
    bind (build_set s (fun n x => build s ord f n (S d) false x) name (limit s l) ([], []))
      (merge_set s ord (fun n d0 => build s ord f n (S d) false (exhaust (VMap MDict ty_dict d0)))) = Ok cs ->
    distinct_siblings s cs -> clear_names s (inner name d r (NSeq k) ty cs) -> lawful s (inner name d r (NSeq k) ty cs).
  Proof.
    intros IH Hl H [ND _] T. apply bind_Ok in H as (ch & H1 & H2).
    eapply (build_set_inv _ _ _ (fun _ st => Forall (child_ok name (limit s l)) (fst st)) _ []) in H1 as (names & I).
    2: { intros done [chs nms] v child Hv Hi Hb. cbn [fst snd] in *.
         assert (C : child_ok name (limit s l) child).
         { split; [|split; [|eapply IH; eauto]].
           - apply build_from_els in Hb as [Hb _]. eapply from_els_incl; [|exact Hb]. intros x [<-|[]]. auto.
           - apply build_from_els in Hb as [_ ->]. apply element_word_fresh. auto. }
         unfold add_child. destruct (existsb (teq s child) chs); [|cbn [fst]; apply Forall_app; split; auto].
         destruct (node_is_typed_dict s child); auto. cbn [fst]. apply Forall_forall. intros x Hx.
         apply in_map_iff in Hx as (y & <- & Hy). rewrite Forall_forall in Hi. specialize (Hi y Hy). destruct (teq s child y); auto.
         destruct Hi as (A & B & D), C as (A' & _). split; [now apply from_els_update|]. rewrite update_node_name. split; auto. now apply behaves_update. }
    2: constructor.
    cbn [fst] in I. rewrite Forall_forall in I.
    assert (Q : forall e, In e cs -> element_word name (tname (etree e)) /\ behaves s (etree e)).
    { apply merge_set_spec in H2; auto. destruct H2 as [(_ & l' & P & ->)|(_ & trees & m & l' & P & Hm & P' & ->)]; intros e He; apply in_map_iff in He as (c & <- & Hc); unfold etree; cbn [snd].
      - apply (Permutation_in _ (Permutation_sym P)) in Hc. destruct (I c Hc) as (_ & A & B). auto.
      - assert (M : is_td s m = true /\ element_word name (tname m) /\ behaves s m).
        { eapply merged_behaves; [exact IH|exact Hl| |exact Hm]. intros t Ht. apply (Permutation_in _ (Permutation_sym P)) in Ht. apply filter_In in Ht as [Ht Td].
          destruct (I t Ht) as (A & B & _). auto. }
        apply (Permutation_in _ (Permutation_sym P')) in Hc. assert (In c ch \/ c = m) as [K|K].
        { cbv zeta in Hc. destruct (existsb _ _); [apply filter_In in Hc as []; auto|]. apply in_app_iff in Hc as [Hc|[Hc|[]]]; auto. apply filter_In in Hc as []; auto. }
        + destruct (I c K) as (_ & A & B). auto.
        + subst. tauto. }
    unfold inner. eapply seq_lawful; eauto; try reflexivity.
    - intros e He. now apply Q.
    - intros e He. apply Q; auto. apply (clear_child s (inner name d r (NSeq k) ty cs) e T He).
    - intros e e' He He' _ _ E. now rewrite (NoDup_map_eq (fun e => tname (etree e)) cs e e' ND He He' E).
  Qed.

  (** Fixed size tuples: an element is as built, or it repeats an earlier one. *)
  Lemma list_lawful f name d r ty l cs : fuelled f -> s_tuple s = TFixed -> (forall v, In v (limit s l) -> letter_types v) ->
    bind (build_list s (fun n x => build s ord f n (S d) false x) name (limit s l) [] [])
      (merge_list s (fun n d0 => build s ord f n (S d) false (exhaust (VMap MDict ty_dict d0)))) = Ok cs ->
    tuple_siblings s cs -> clear_names s (inner name d r (NSeq KTuple) ty cs) -> lawful s (inner name d r (NSeq KTuple) ty cs).
  Proof.
    intros IH Tu Hl H TS T. apply bind_Ok in H as (ch & H1 & H2).
    eapply (build_list_inv _ _ _ (fun _ chs added =>
       (forall c, In c chs -> from_els (limit s l) c /\ element_word name (tname c) /\ has_cs s c) /\
       (forall a n, In (a, n) added -> element_word name n /\ In a chs) /\
       (forall p c q, chs = (p ++ c :: q)%list -> behaves s c \/ exists a, In a p /\ teq s c a = true)) _ []) in H1 as (added & I1 & _ & I2).
    2: { intros done chs added v child Hv (A & B & C) Hb.
         assert (Fc : from_els (limit s l) child /\ element_word name (tname child) /\ has_cs s child /\ behaves s child).
         { split; [|split; [|split; [eapply build_has_cs; eauto|eapply IH; eauto]]].
           - apply build_from_els in Hb as [Hb _]. eapply from_els_incl; [|exact Hb]. intros x [<-|[]]. auto.
           - apply build_from_els in Hb as [_ ->]. apply element_word_fresh. auto. }
         destruct Fc as (F1 & F2 & F3 & F4).
         assert (Last : forall x, (behaves s x \/ exists a, In a chs /\ teq s x a = true) ->
           forall p c q, (chs ++ [x])%list = (p ++ c :: q)%list -> behaves s c \/ exists a, In a p /\ teq s c a = true).
         { intros x Hx p c q E. destruct q as [|y q] using rev_ind.
           - apply app_inj_tail in E as [<- <-]. exact Hx.
           - clear IHq. change (p ++ c :: q ++ [y])%list with (p ++ (c :: q) ++ [y])%list in E. rewrite app_assoc in E. apply app_inj_tail in E as [E _]. eapply C; eauto. }
         unfold lookup_tree. destruct (find _ added) as [[t1 n1]|] eqn:F; cbn [option_map snd].
         - apply find_some in F as [F E]. cbn [fst] in E. destruct (B _ _ F) as [B1 B2]. split; [|split].
           + intros c Hc. apply in_app_iff in Hc as [Hc|[<-|[]]]; auto. split; [now apply from_els_ren|]. split; [now rewrite rename_name|now apply has_cs_ren].
           + intros a n Ha. destruct (B _ _ Ha). split; auto. apply in_app_iff. auto.
           + apply Last. right. exists t1. split; auto. unfold rename. now rewrite teq_ren_l.
         - split; [|split].
           + intros c Hc. apply in_app_iff in Hc as [Hc|[<-|[]]]; auto.
           + intros a n Ha. rewrite in_app_iff. apply in_app_iff in Ha as [Ha|[Ha|[]]]; [destruct (B _ _ Ha); auto|]. injection Ha as <- <-. split; auto. right. now left.
           + apply Last. now left. }
    2: { split; [intros c []|]. split; [intros a n []|]. intros [|] c q E; discriminate. }
    pose proof (T _ (node_refl _)) as TT. unfold clear_node, inner, tkind in TT. cbn [ti i_kind tcs] in TT. specialize (TT Tu). unfold clear_tuple in TT.
    assert (Td : forall a b, teq s a b = true -> has_cs s a -> is_td s b = true -> is_td s a = true) by (intros a b E Ha Hb; rewrite teq_sym in E; eapply td_teq; eauto).
    assert (Tch : forall e, In e cs -> clear_names s (etree e)) by (intros e He; apply (clear_child s (inner name d r (NSeq KTuple) ty cs) e T He)).
    apply merge_list_spec in H2 as [(_ & ->)|(_ & m & Hm & Ecs)].
    - unfold inner. eapply seq_lawful; eauto; try reflexivity.
      + intros e He. apply in_map_iff in He as (c & <- & Hc). unfold etree. cbn [snd]. apply (I1 c Hc).
      + intros e He. pose proof (Tch e He) as Te. apply in_map_iff in He as (c & <- & Hc). unfold etree in *. cbn [snd] in *.
        apply in_split in Hc as (p & q & ->). destruct (I2 p c q eq_refl) as [B|(a & Ha & E)]; [now apply B|]. apply live_lawful. intros D. exfalso.
        unfold no_sharing in TT. rewrite map_app in TT. cbn [map] in TT. apply pairs_app in TT as (_ & _ & TT). specialize (TT (no_key, 1, a) (no_key, 1, c)).
        unfold etree, emult in TT. cbn [fst snd] in TT. rewrite teq_sym, E in TT. discriminate TT; auto; [|now left]. apply in_map_iff. exists a. auto.
      + intros e e' He He' D D' E. destruct (ForallOrdPairs_In TT e e' He He') as [Eq|[R|R]]; [now rewrite Eq| |].
        * apply (TS e e' He He') in E. apply in_map_iff in He as (c & <- & Hc). apply in_map_iff in He' as (c' & <- & Hc'). rewrite R in E; [discriminate|reflexivity|reflexivity|now (left + right)].
        * symmetry in E. apply (TS e' e He' He) in E. apply in_map_iff in He as (c & <- & Hc). apply in_map_iff in He' as (c' & <- & Hc'). rewrite R in E; [discriminate|reflexivity|reflexivity|now (left + right)].
    - assert (M : is_td s m = true /\ element_word name (tname m) /\ behaves s m).
      { eapply merged_behaves; [exact IH|exact Hl| |exact Hm]. intros t Ht. apply filter_In in Ht as [Ht Tdt]. destruct (I1 t Ht) as (A & B & _). auto. }
      destruct M as (M1 & M2 & M3). set (n := List.length (filter (is_td s) ch)) in *. set (g := fun c => if is_td s c then (no_key, n, m) else (no_key, 1, c)) in *.
      assert (Gm : forall c, is_td s c = true -> g c = (no_key, n, m)) by (intros c Hc; unfold g; now rewrite Hc).
      assert (G1 : forall c, is_td s c = false -> g c = (no_key, 1, c)) by (intros c Hc; unfold g; now rewrite Hc).
      unfold inner. eapply seq_lawful; eauto; try reflexivity.
      + intros e He. rewrite Ecs in He. apply in_map_iff in He as (c & <- & Hc). destruct (is_td s c) eqn:Tc; [rewrite (Gm c Tc)|rewrite (G1 c Tc)]; auto. apply (I1 c Hc).
      + intros e He. pose proof (Tch e He) as Te. rewrite Ecs in He. apply in_map_iff in He as (c & <- & Hc). destruct (is_td s c) eqn:Tc; [rewrite (Gm c Tc) in *; now apply M3|].
        rewrite (G1 c Tc) in *. unfold etree in *. cbn [snd] in *. pose proof (I1 c Hc) as (_ & _ & Hcs).
        apply in_split in Hc as (p & q & Ech). destruct (I2 p c q Ech) as [B|(a & Ha & E)]; [now apply B|]. apply live_lawful. intros D. exfalso.
        assert (Ta : is_td s a = false). { destruct (is_td s a) eqn:Ta; auto. rewrite (Td c a) in Tc; auto; discriminate. }
        rewrite Ecs, Ech, map_app in TT. cbn [map] in TT. apply pairs_app in TT as (_ & _ & TT). specialize (TT (no_key, 1, a) (no_key, 1, c)).
        unfold etree, emult in TT. cbn [fst snd] in TT. rewrite teq_sym, E in TT. discriminate TT; auto; [|left; now apply G1]. apply in_map_iff. exists a. split; auto.
      + intros e e' He He' D D' E. apply (TS e e' He He') in E.
        assert (K : forall c c', In c ch -> In c' ch -> is_td s c = true -> is_td s c' = false -> teq s (etree (g c)) (etree (g c')) = true -> False).
        { intros c c' Hc Hc' X X' Y. rewrite (Gm c X), (G1 c' X') in Y. unfold etree in Y. cbn [snd] in Y. destruct (I1 c' Hc') as (_ & _ & Hcs). rewrite (td_teq s m c') in X'; auto; discriminate. }
        pose proof He as He0. pose proof He' as He0'. rewrite Ecs in He, He'. apply in_map_iff in He as (c & <- & Hc). apply in_map_iff in He' as (c' & <- & Hc').
        destruct (is_td s c) eqn:X, (is_td s c') eqn:X'.
        * now rewrite (Gm c X), (Gm c' X').
        * exfalso. exact (K c c' Hc Hc' X X' E).
        * exfalso. rewrite teq_sym in E. exact (K c' c Hc' Hc X' X E).
        * destruct (ForallOrdPairs_In TT (g c) (g c') He0 He0') as [Eq|[R|R]]; [now rewrite Eq| |]; exfalso; rewrite (G1 c X), (G1 c' X') in R, E; rewrite (G1 c X) in D; rewrite (G1 c' X') in D'.
          -- rewrite R in E; [discriminate|reflexivity|reflexivity|now (left + right)].
          -- rewrite teq_sym, R in E; [discriminate|reflexivity|reflexivity|now (left + right)].
  Qed.

  Lemma mapping_lawful f name d h r k ty kvs vals : (match k with NProxy | NDict _ _ => True | _ => False end) -> fuelled f -> (forall k0 v, In (k0, v) kvs -> letter_types v) ->
    build_values (fun n x => build s ord f n (S d) false x) name kvs = Ok vals ->
    clear_names s (Node (Info name d h r k ty) (share_groups s name vals)) -> lawful s (Node (Info name d h r k ty) (share_groups s name vals)).
  Proof.
    intros Kk IH Hl H T. set (es := share_groups s name vals) in *.
    assert (TM : clear_mapping s es).
    { pose proof (T _ (node_refl _)) as TT. unfold clear_node, tkind in TT. cbn [ti i_kind tcs] in TT. destruct k; try destruct Kk; auto. }
    destruct TM as [Nk TL TW TS]. assert (Nv : NoDup (map fst vals)) by (unfold es in Nk; now rewrite share_groups_keys in Nk).
    assert (Tch : forall e, In e es -> clear_names s (etree e)) by (intros e He; apply (clear_child s _ e T He)).
    assert (V : forall k0 c, In (k0, c) vals -> behaves s c /\ tname c = value_name name k0 /\ no_roots c /\ begins ascii_letter (ty_name (i_type (ti c)))).
    { intros k0 c Hc. destruct (build_values_In _ _ _ _ _ _ H Hc) as (_ & v & Hv & Hb). pose proof (Hl _ _ Hv) as L. split; [eapply IH; eauto|].
      pose proof (build_booked s ord _ _ _ _ _ _ Hord Hb) as (_ & Rt & Bk). apply build_from_els in Hb as [((v' & Hv' & Ty) & _) Nm]. destruct Hv' as [<-|[]].
      split; auto. split; [|rewrite Ty; apply L; constructor].
      intros x Hx. clear - Rt Bk Hx. revert Rt. induction Hx as [|i cs e He Hx IH]; intros Rt; auto.
      apply IH; [intros n Hn; apply Bk; econstructor; eauto|]. exact (bk_parent _ (Bk _ (node_refl _)) e He). }
    assert (Al : forall e, In e es -> only_one s es e -> In (ekey e, etree e) vals) by (intros e He O; exact (alone_node s name vals Nv e He O)).
    assert (Sh : forall e, In e es -> ~ only_one s es e -> exists k0 c n, In (k0, c) vals /\ etree e = rename (tname (etree e)) c /\ i_type (ti (etree e)) = i_type (ti c) /\
       tname (etree e) = name ++ capitalize (ty_name (i_type (ti (etree e)))) ++ suffix_no n).
    { intros e He O. destruct (shared_node s name vals Nv e He O) as (k0 & c & last & n & Hc & _ & E & Nm). exists k0, c, n. split; auto. split; [|split; auto].
      - rewrite E at 2. now rewrite rename_name.
      - rewrite E. unfold rename. apply ren_type. }
    apply lawful_node.
    - assert (W : forall e, In e es -> declared_inside s (etree e) -> exists w, entry_word s es e w /\ begins capital_letter w /\ tname (etree e) = name ++ w /\ (~ only_one s es e -> plain_word w)).
      { intros e He D. destruct (only_one_dec s es e) as [O|O].
        - destruct (TL e He D O) as (k0 & Ek & Lk). destruct (V _ _ (Al e He O)) as (_ & Nm & _). rewrite Ek in Nm. exists (to_camel_case k0). split; [eapply word_key; eauto; now apply camel_iff|].
          split; [now apply camel_letter|]. split; auto. tauto.
        - destruct (Sh e He O) as (k0 & c & n & Hc & E & Ty & Nm). destruct (V _ _ Hc) as (_ & _ & _ & L). rewrite <- Ty in L.
          destruct (type_word _ (suffix_no n) L (suffix_digits n)) as [A B]. eexists. split; [apply word_type; [exact O|apply (suffix_digits n)]|]. auto. }
      split; cbn [tcs].
      + intros e He D. destruct (W e He D) as (w & _ & B & E & _). exists w. auto.
      + intros e e' He He' D D' X. destruct (key_eqb (ekey e) (ekey e')) eqn:K.
        { apply key_eqb_spec in K. now rewrite (NoDup_map_eq ekey es e e' Nk He He' K). }
        assert (Nq : ekey e <> ekey e') by (intros E; rewrite E, (proj2 (key_eqb_spec _ _) eq_refl) in K; discriminate).
        destruct (W e He D) as (w & Ww & B & E & P). destruct (W e' He' D') as (w' & Ww' & B' & E' & P'). pose proof X as X0. rewrite E, E' in X. apply extends_app in X.
        destruct (only_one_dec s es e) as [O|O]; [exfalso; apply (TW e e' w w'); auto|]. destruct (only_one_dec s es e') as [O'|O']; [exfalso; apply (TW e e' w w'); auto|].
        destruct (pytype_dec (i_type (ti (etree e))) (i_type (ti (etree e')))) as [Ty|Ty]; [|exfalso; apply (TW e e' w w'); auto].
        apply (shared_same s name vals Nv e e'); auto. rewrite E, E'. f_equal. apply plain_extends; auto. intros ->. now apply begins_nonnil in B.
    - intros e He. destruct (only_one_dec s es e) as [O|O]; [apply (V _ _ (Al e He O)); auto|].
      destruct (Sh e He O) as (k0 & c & n & Hc & E & Ty & Nm). destruct (V _ _ Hc) as (Bc & _ & NR & _). pose proof (Tch e He) as Te. rewrite E in Te. unfold rename in Te. apply clear_ren in Te.
      rewrite E. unfold rename. apply ren_lawful; auto.
      + intros x e' Hx He' D'. destruct (node_ren_fwd x c Hx 1 (tname (etree e)) (String.length (tname c))) as (k' & Hk).
        apply (TS e (ren k' (tname (etree e)) (String.length (tname c)) x) (ren_entry k' (tname (etree e)) (String.length (tname c)) e')); auto.
        * rewrite E. unfold rename. rewrite live_ren. eapply live_in; eauto. eapply live_child; eauto.
        * unfold rename in E. rewrite <- E in Hk. exact Hk.
        * rewrite ren_cs. now apply in_map.
        * unfold ren_entry, etree. cbn [snd]. now rewrite live_ren.
      + intros _. split; auto. exists "". now rewrite app_nil_r_s.
  Qed.

  Lemma build_behaves : forall f, fuelled f.
  Proof.
    induction f as [|f IH]; intros name d r v t L H.
    - assert (Lf : forall k ty, leaf name d r k ty = Ok t -> behaves s t).
      { intros k ty E _. unfold leaf in E. destruct (is_compatible name); [|discriminate]. injection E as <-. apply lawful_node; [split; cbn [tcs]; intros; contradiction|intros e []]. }
      destruct v; cbn [build] in H; try (eapply Lf; exact H).
      + destruct (negb (is_compatible name)); discriminate.
      + destruct k; [discriminate|]. destruct (negb (is_compatible name)); discriminate.
    - assert (Lf : forall k ty, leaf name d r k ty = Ok t -> behaves s t).
      { intros k ty E _. unfold leaf in E. destruct (is_compatible name); [|discriminate]. injection E as <-. apply lawful_node; [split; cbn [tcs]; intros; contradiction|intros e []]. }
      destruct v as [ | | | | | | |k ty l|k ty kvs]; try (cbn [build] in H; eapply Lf; exact H).
      + assert (Hl : forall v, In v (limit s l) -> letter_types v).
        { intros v Hv. apply limit_incl in Hv. eapply letter_sub; [exact L|]. econstructor; eauto. constructor. }
        pose proof (build_siblings s ord Hord _ _ _ _ _ _ _ _ H) as Sb. cbn [build] in H. destruct (negb (is_compatible name)); [discriminate|]. apply bind_Ok in H as (cs & H & E). injection E as <-. intros T.
        destruct k; try (eapply set_lawful; eassumption). destruct (s_tuple s) eqn:Tu; [|eapply set_lawful; eassumption]. eapply list_lawful; eassumption.
      + assert (Hl : forall kvs', incl kvs' kvs -> forall k0 v, In (k0, v) kvs' -> letter_types v).
        { intros kvs' I k0 v Hv. apply I in Hv. eapply letter_sub; [exact L|]. econstructor; eauto. constructor. }
        cbn [build] in H. intros T. destruct k.
        * apply bind_Ok in H as (vals & H & E). injection E as <-. unfold inner in *. eapply mapping_lawful; [exact I|exact IH| |exact H|exact T].
          apply Hl. destruct (is_td_strategy s); [apply incl_refl|apply limit_incl].
        * destruct (negb (is_compatible name)); [discriminate|]. apply bind_Ok in H as (vals & H & E). injection E as <-. unfold inner in *. eapply mapping_lawful; [exact I|exact IH| |exact H|exact T].
          apply Hl. apply limit_incl.
  Qed.
End Lawful.

(** ** Declarations *)
Lemma firsts_NoDup {A} (f : A -> string) l : forall seen, NoDup (map f (firsts f seen l)) /\ forall x, In x (firsts f seen l) -> ~ In (f x) seen.
Proof.
  induction l as [|z l IH]; intros seen; cbn [firsts]; [split; [constructor|intros x []]|]. destruct (mem (f z) seen) eqn:M; [apply IH|].
  destruct (IH (f z :: seen)) as [A1 A2]. cbn [map]. split.
  - constructor; auto. intros X. apply in_map_iff in X as (x & E & Hx). apply (A2 x Hx). left. auto.
  - intros x [<-|Hx]; [now apply mem_false|]. intros X. apply (A2 x Hx). now right.
Qed.
Lemma NoDup_map_inv' {A B C} (f : A -> B) (g : A -> C) l : NoDup (map f l) -> (forall a b, In a l -> In b l -> g a = g b -> a = b) -> NoDup (map g l).
Proof.
  induction l as [|x l IH]; cbn [map]; intros N H; [constructor|]. inversion N as [|? ? N1 N2]; subst. constructor.
  - intros X. apply in_map_iff in X as (y & E & Hy). apply N1. rewrite <- (H y x); [now apply in_map|right; auto|left; auto|auto].
  - apply IH; auto. intros a b Ha Hb. apply H; now right.
Qed.
Lemma lawful_decls s t : lawful s t -> NoDup (map declared (decls s t)) /\ forall d, In d (decls s t) -> exists r, (r = "" \/ begins capital_letter r) /\ declared d = tname t ++ r.
Proof.
  intros L. assert (K : forall y, In y (kept s t) -> node_of y t /\ declared_inside s y).
  { intros y Hy. unfold kept in Hy. apply firsts_incl in Hy. apply collect_nodes in Hy as [Hy P]. split; auto. exists y. split; auto. constructor. }
  unfold decls. split.
  - rewrite map_map. rewrite (map_ext _ tname) by (intros; apply declared_decl_of). eapply NoDup_map_inv'; [apply (firsts_NoDup (fun n => fst (top s n)) (collect s t) [])|].
    intros a b Ha Hb E. destruct (K a Ha), (K b Hb). eapply lawful_unique; eauto.
  - intros d Hd. apply in_map_iff in Hd as (y & <- & Hy). destruct (K y Hy) as [A B]. rewrite declared_decl_of. now apply (lawful_suffix s t y).
Qed.
Lemma from_data_lawful s ord v n t : set_like ord -> letter_types v -> from_data s ord v n = Ok t -> clear_names s t -> lawful s t.
Proof. intros Ho L H. unfold from_data in H. destruct (is_compatible n); [|discriminate]. eapply build_behaves; eauto. Qed.
