(** The declarations of a tree: texts, order, names. *)
From Coq Require Import Ascii String List Bool Arith Lia Permutation.
From Verif Require Import PyStr PyStrFacts Utils Strategies Docstring Imports Dispatch Values Tree Build Emit TreeFacts SpecNames NamesFacts SpecData SpecMerge BuildFacts BuildInd TotalFacts TreeProofs SeqFacts BaseProofs MergeFacts GroupFacts SpecTypes Elab ElabFacts Provenance DictInv SpecEmit.
Import ListNotations.
Local Open Scope string_scope.
Local Open Scope nat_scope.

(** ** No equals sign *)
Lemma word_no_eq x : str_forall word_char x = true -> no_eq x.
Proof.
  unfold no_eq, no_char. apply str_forall_impl. intros c. unfold eqc. assert (H : negb (word_char c) || negb (Ascii.eqb c (chr 61)) = true) by by_chars c.
  intros E. now rewrite E in H.
Qed.
Lemma solid_spec x : solid x <-> str_forall is_alnum_char x = true.
Proof.
  unfold solid. rewrite str_forall_In, Forall_forall.
  assert (E : forall c, is_alnum_char c = true <-> alnum_char c).
  { intros c. unfold alnum_char.
    assert (W : (id_continue c /\ code c <> 183 \/ In (code c) [178; 179; 185; 188; 189; 190]) <-> word_char c = true).
    { pose proof (word_like_spec (String c "")) as H. unfold word_like in H. cbn [chars str_forall] in H. rewrite andb_true_r in H. rewrite <- H.
      split; [intros G; constructor; [exact G | constructor] | intros G; now inversion G]. }
    rewrite W. change (code c <> 95) with (PyStr.ord c <> 95).
    assert (G : Bool.eqb (is_alnum_char c) (word_char c && negb (Nat.eqb (PyStr.ord c) 95)) = true) by by_chars c.
    apply eqb_prop in G. rewrite G, andb_true_iff, negb_true_iff, Nat.eqb_neq. reflexivity. }
  split; intros H c Hc; [apply E, H; now apply chars_str_In | apply E, H; now apply chars_str_In].
Qed.
Lemma plain_text_spec x : ~ In "="%char (chars x) <-> no_eq x.
Proof.
  unfold no_eq, no_char. rewrite str_forall_In. split.
  - intros H c Hc. apply negb_true_iff. apply not_true_iff_false. intros E. apply Ascii.eqb_eq in E. apply H. apply chars_str_In. change "="%char with eqc. now rewrite E.
  - intros H F. apply chars_str_In in F. apply H in F. discriminate.
Qed.

Definition eq_value (x : pyval) : Prop := no_eq (ty_name (type_of x)) /\
  match x with VClass _ n => no_eq n | VNdarray _ d => no_eq d | _ => True end.

Lemma from_data_eq_free s ord v n t : valid s -> set_like ord -> ordinary_types v -> plain_texts v ->
  from_data s ord v n = Ok t -> eq_free t.
Proof.
  intros Hs Ho Hv Hp H. pose proof H as H0. unfold from_data in H. destruct (is_compatible n) eqn:Hn; [|discriminate].
  destruct (build_total s ord Ho (valid_merge s Hs) W_all W_all_closed (W_all_str _) (S (vdepth v)) n 0 true v) as (t' & E & A); eauto using named_all, W_all_str.
  rewrite H in E. injection E as <-.
  assert (P : tree_ok eq_value (fun k => no_eq (ty_name (key_type k))) t).
  { eapply (build_prov s ord Ho eq_value (fun k => no_eq (ty_name (key_type k)))); [| |idtac|exact H].
    - intros x [B1 B2]. split; [now rewrite type_exhaust|]. destruct x as [| | | | | | |k ? ?|]; try exact B2. destruct k; exact B2.
    - intros d _. split; [reflexivity | exact I].
    - destruct Hv as [C D]. split.
      + intros x Hx. split; [now apply word_no_eq, word_like_spec, C|]. specialize (Hp x Hx). destruct x; auto; now apply plain_text_spec.
      + intros k Hk. now apply word_no_eq, word_like_spec, D. }
  intros x Hx. split; [|split; [|split]].
  - apply (all_names_nodes _ _ A) in Hx as (C & _). now apply word_no_eq, compatible_word.
  - destruct (P x Hx) as ((y & [B1 B2] & [M1 _]) & _). now rewrite M1.
  - destruct (P x Hx) as ((y & [B1 B2] & [_ M]) & _). destruct y as [| | | | | | | |[]]; try destruct M as (? & ? & M); rewrite M; exact B2 || exact I.
  - intros e He. destruct (P x Hx) as (_ & C & _). destruct (C e He) as [B| ->]; auto. reflexivity.
Qed.

(** ** Names are in camel case *)
Lemma alnum_closed : closed_class is_alnum_char.
Proof. split; try reflexivity; intros c; by_chars c. Qed.
Lemma camel_loop_alnum b x : str_forall is_alnum_char (camel_loop b x) = true.
Proof.
  revert b. induction x as [|c x IH]; intros b; cbn [camel_loop]; auto.
  destruct (is_alpha c || is_numeric c) eqn:E; auto. rewrite str_forall_app, IH, andb_true_r.
  assert (G : negb (is_alpha c || is_numeric c) || (is_alnum_char c && str_forall is_alnum_char (upper_char c)) = true) by by_chars c.
  rewrite E in G. cbn in G. apply andb_true_iff in G as [G1 G2]. destruct b; auto. cbn. now rewrite G1.
Qed.
Lemma lstrip_nil p x : lstrip_by p x = "" -> str_forall p x = true.
Proof. induction x as [|c x IH]; cbn; auto. destruct (p c); [auto|discriminate]. Qed.
Lemma camel_alnum x : str_forall is_alnum_char (to_camel_case x) = true.
Proof.
  unfold to_camel_case, drop_digits. destruct (lstrip_by is_decimal x) eqn:E; [|apply camel_loop_alnum].
  apply lstrip_nil in E. revert E. apply str_forall_impl. intros c H.
  assert (G : negb (is_decimal c) || is_alnum_char c = true) by by_chars c. now rewrite H in G.
Qed.
Lemma camel_loop_id x : str_forall is_alnum_char x = true -> camel_loop false x = x.
Proof.
  induction x as [|c x IH]; cbn [camel_loop str_forall]; auto. rewrite andb_true_iff. intros [H1 H2].
  assert (G : negb (is_alnum_char c) || (is_alpha c || is_numeric c) = true) by by_chars c. rewrite H1 in G. cbn [negb orb] in G. rewrite G.
  cbn. now rewrite IH.
Qed.
Lemma camel_id c r : in_range 65 90 c -> str_forall is_alnum_char r = true -> to_camel_case (String c r) = String c r.
Proof.
  intros Hc Hr. unfold in_range in Hc. assert (B : between 65 90 (PyStr.ord c) = true) by (unfold between, code, PyStr.ord in *; apply andb_true_iff; split; apply Nat.leb_le; lia).
  unfold to_camel_case, drop_digits. cbn [lstrip_by].
  assert (G : negb (between 65 90 (PyStr.ord c)) || (negb (is_decimal c) && (is_alpha c || is_numeric c) && String.eqb (upper_char c) (String c "")) = true) by by_chars c.
  rewrite B in G. cbn [negb orb] in G. apply andb_true_iff in G as [G G3]. apply andb_true_iff in G as [G1 G2]. apply negb_true_iff in G1. rewrite G1.
  cbn [camel_loop]. rewrite G2. apply String.eqb_eq in G3. rewrite G3. cbn. now rewrite camel_loop_id.
Qed.
Lemma from_data_camel s ord v n t : valid s -> set_like ord -> ordinary_types v -> solid_types v -> camel_name n ->
  from_data s ord v n = Ok t -> forall x, node_of x t -> to_camel_case (tname x) = tname x.
Proof.
  intros Hs Ho [V1 V2] [S1 S2] [C1 (c & r & -> & C2)] H x Hx. unfold from_data in H. destruct (is_compatible (String c r)) eqn:Hn; [|discriminate].
  destruct (build_total s ord Ho (valid_merge s Hs) is_alnum_char alnum_closed eq_refl (S (vdepth v)) (String c r) 0 true v) as (t' & E & A); auto.
  - split.
    + intros y Hy. split; auto. now apply solid_spec, S1.
    + intros k Hk. split; [split; auto; now apply solid_spec, S2|]. intros. apply camel_alnum.
  - now apply solid_spec.
  - rewrite H in E. injection E as <-. apply (all_names_nodes _ _ A) in Hx as (_ & B & r' & E). rewrite E in *. cbn [append] in *.
    apply camel_id; auto. cbn [str_forall] in B. now apply andb_true_iff in B.
Qed.

(** ** First occurrences *)
Fixpoint firsts {A} (f : A -> string) (seen : list string) (l : list A) : list A :=
  match l with
  | [] => []
  | x :: r => if mem (f x) seen then firsts f seen r else x :: firsts f (f x :: seen) r
  end.
Lemma mem_ext x l l' : (forall y, In y l <-> In y l') -> mem x l = mem x l'.
Proof. intros H. apply eq_iff_eq_true. rewrite !mem_spec. apply H. Qed.
Lemma firsts_ext {A} (f : A -> string) l : forall seen seen', (forall y, In y seen <-> In y seen') -> firsts f seen l = firsts f seen' l.
Proof.
  induction l as [|x l IH]; intros seen seen' H; cbn [firsts]; auto. rewrite (mem_ext (f x) seen seen') by auto.
  destruct (mem (f x) seen'); auto. f_equal. apply IH. intros y. cbn [In]. now rewrite H.
Qed.
Lemma oset_firsts {A} (f : A -> string) l : forall st, (forall x, In x (elements_added st) <-> In x (lst st)) ->
  lst (oset_adds String.eqb (map f l) st) = (lst st ++ map f (firsts f (lst st) l))%list.
Proof.
  induction l as [|x l IH]; intros st H; cbn [map firsts oset_adds fold_left]; [now rewrite app_nil_r|].
  unfold oset_adds in IH. unfold oset_add at 2. unfold oset_add in IH.
  assert (E : existsb (String.eqb (f x)) (elements_added st) = mem (f x) (lst st)).
  { apply eq_iff_eq_true. rewrite mem_spec, <- H, existsb_exists. split.
    - intros (y & Hy & E). apply String.eqb_eq in E. now subst.
    - intros Hx. exists (f x). split; auto. apply String.eqb_refl. }
  rewrite E. destruct (mem (f x) (lst st)) eqn:M; [now apply IH|].
  rewrite IH; cbn [elements_added lst].
  - rewrite <- app_assoc. cbn [app map]. do 2 f_equal. f_equal. apply firsts_ext. intros y. rewrite in_app_iff. cbn [In]. tauto.
  - intros y. cbn [In]. rewrite in_app_iff, H. cbn [In]. tauto.
Qed.
Lemma firsts_split {A} (f : A -> string) l : forall seen a x b, firsts f seen l = (a ++ x :: b)%list ->
  exists p q, l = (p ++ x :: q)%list /\ ~ In (f x) seen /\ forall y, In y p -> In (f y) seen \/ In (f y) (map f a).
Proof.
  induction l as [|z l IH]; intros seen a x b H; cbn [firsts] in H; [destruct a; discriminate|].
  destruct (mem (f z) seen) eqn:M.
  - apply IH in H as (p & q & -> & N & P). exists (z :: p), q. split; auto. split; auto. intros y [<-|Hy]; auto. left. now apply mem_spec.
  - destruct a as [|a0 a]; cbn [app] in H; injection H as -> H.
    + exists [], l. split; auto. split; [|intros y []]. rewrite <- mem_spec. now rewrite M.
    + apply IH in H as (p & q & -> & N & P). exists (a0 :: p), q. split; auto. split; [intros F; apply N; now right|].
      intros y [<-|Hy]; [right; now left|]. apply P in Hy as [[<-|Hy]|Hy]; auto; right; [now left|now right].
Qed.
Lemma firsts_incl {A} (f : A -> string) l : forall seen, incl (firsts f seen l) l.
Proof.
  induction l as [|z l IH]; intros seen x H; cbn [firsts] in H; [destruct H|]. destruct (mem (f z) seen); [right; eapply IH; eauto|].
  destruct H as [<-|H]; [now left|]. right. eapply IH; eauto.
Qed.

(** ** The declared nodes, each text once *)
Definition kept (s : strategies) (t : tree) : list tree := firsts (fun n => fst (top s n)) [] (collect s t).
Definition decls (s : strategies) (t : tree) : list decl := map (decl_of s) (kept s t).

Lemma collect_node s i cs : collect s (Node i cs) =
  match cs with
  | [] => if Nat.eqb (i_depth i) 0 && perm s (Node i cs) then [Node i cs] else []
  | _ => (flat_map (fun e => collect s (snd e) ++ (if perm s (snd e) then [snd e] else [])) (iter_entries cs)
          ++ (if perm s (Node i cs) then [Node i cs] else []))%list
  end.
Proof.
  destruct cs as [|e cs]; [reflexivity|]. cbn [collect]. f_equal. rewrite before_none_map.
  rewrite flat_map_concat_map, map_map. cbn [fst snd]. rewrite <- flat_map_concat_map. reflexivity.
Qed.
Lemma collect_nodes s t : forall n, In n (collect s t) -> node_of n t /\ perm s n = true.
Proof.
  induction t as [i cs IH] using tree_ind'. rewrite Forall_forall in IH. intros n. rewrite collect_node. destruct cs as [|e0 cs].
  - destruct (Nat.eqb (i_depth i) 0 && perm s (Node i [])) eqn:E; [|intros []]. apply andb_true_iff in E as [_ E]. intros [<-|[]]. split; [constructor|auto].
  - set (l := e0 :: cs) in *. rewrite in_app_iff. intros [H|H].
    + apply in_flat_map in H as (e & He & H). apply before_none_In in He. apply in_app_iff in H as [H|H].
      * apply IH in H as [A B]; auto. split; auto. econstructor; eauto.
      * destruct (perm s (snd e)) eqn:P; [|destruct H]. destruct H as [<-|[]]. split; auto. econstructor; eauto. constructor.
    + destruct (perm s (Node i l)) eqn:P; [|destruct H]. destruct H as [<-|[]]. split; auto. constructor.
Qed.
Lemma declarations_decls s t texts : eq_free t -> declarations s t = Some texts ->
  texts = map print_decl (decls s t) /\ (forall n, In n (kept s t) -> function_fails n = false).
Proof.
  intros F H. unfold declarations in H. destruct (existsb function_fails (collect s t)) eqn:X; [discriminate|]. injection H as <-.
  assert (NF : forall n, In n (collect s t) -> function_fails n = false).
  { intros n Hn. apply not_true_iff_false. intros E. assert (existsb function_fails (collect s t) = true) by (apply existsb_exists; eauto). congruence. }
  split; [|intros n Hn; apply NF; eapply firsts_incl; exact Hn].
  unfold oset_as_list. rewrite (oset_firsts (fun n => fst (top s n)) (collect s t) oset_empty) by (cbn; tauto). cbn [lst oset_empty app].
  unfold decls, kept. rewrite map_map. apply map_ext_in. intros n Hn. apply firsts_incl in Hn. pose proof (NF n Hn). apply collect_nodes in Hn as [A B].
  apply top_decl; auto. intros m Hm. apply F. eapply node_of_trans; eauto.
Qed.

(** ** The name in front of a text *)
Definition head_name (x : string) : string :=
  let k := take_while word_char (drop 6 x) in
  if startswith "class " x && negb (String.eqb k "") then k else take_while word_char x.
Lemma take_while_app p a b : str_forall p a = true -> (match b with "" => true | String c _ => negb (p c) end) = true -> take_while p (a ++ b) = a.
Proof.
  induction a as [|c a IH]; cbn [append take_while str_forall]; intros H1 H2.
  - destruct b as [|c b]; auto. cbn. apply negb_true_iff in H2. now rewrite H2.
  - apply andb_true_iff in H1 as [-> H1]. f_equal. now apply IH.
Qed.
Lemma starts_word p : forall n c b, str_forall word_char p = true -> str_forall word_char n = true -> word_char c = false ->
  startswith (p ++ " ") (n ++ String c b) = true -> n = p /\ c = " "%char.
Proof.
  induction p as [|a p IH]; intros n c b Hp Hn Hc E.
  - destruct n as [|d n]; cbn [append startswith] in E; apply andb_true_iff in E as [E _]; apply Ascii.eqb_eq in E; subst; auto.
    cbn in Hn. discriminate.
  - cbn [str_forall] in Hp. apply andb_true_iff in Hp as [Ha Hp]. destruct n as [|d n]; cbn [append startswith] in E; apply andb_true_iff in E as [E1 E]; apply Ascii.eqb_eq in E1; subst.
    + congruence.
    + cbn [str_forall] in Hn. apply andb_true_iff in Hn as [_ Hn]. destruct (IH n c b Hp Hn Hc E) as [-> ->]. auto.
Qed.
Definition wordy (n : string) : Prop := str_forall word_char n = true /\ n <> "".
Lemma head_name_assign n c b : wordy n -> word_char c = false ->
  (match b with String d _ => negb (word_char d) | _ => true end = true \/ c <> " "%char) -> head_name (n ++ String c b) = n.
Proof.
  intros [H N] Hc Hb. unfold head_name. assert (T : take_while word_char (n ++ String c b) = n) by (apply take_while_app; auto; now rewrite Hc).
  destruct (startswith "class " (n ++ String c b)) eqn:E; cbn [andb]; auto.
  apply (starts_word "class" n c b eq_refl H Hc) in E as [-> ->]. destruct Hb as [Hb|Hb]; [|congruence].
  change (drop 6 ("class" ++ String " " b)) with b. destruct b as [|d b]; [exact T|]. apply negb_true_iff in Hb.
  cbn [take_while]. rewrite Hb. exact T.
Qed.
Lemma head_name_class n c b : wordy n -> word_char c = false -> head_name ("class " ++ n ++ String c b) = n.
Proof.
  intros [H N] Hc. unfold head_name. change (drop 6 ("class " ++ n ++ String c b)) with (n ++ String c b).
  assert (T : take_while word_char (n ++ String c b) = n) by (apply take_while_app; auto; now rewrite Hc). rewrite T.
  change (startswith "class " ("class " ++ n ++ String c b)) with true. destruct (String.eqb_spec n ""); [contradiction|reflexivity].
Qed.
Lemma join_head sep x l : exists r, join sep (x :: l) = x ++ r.
Proof. destruct l as [|y l]; [exists ""; now rewrite app_nil_r_s | exists (sep ++ join sep (y :: l)); reflexivity]. Qed.
Lemma print_decl_name d : wordy (declared d) -> head_name (print_decl d) = declared d.
Proof.
  intros H. destruct d as [n t|n [] fs doc|n sig]; cbn [declared print_decl] in *.
  - apply (head_name_assign n ":"%char); auto.
  - match goal with |- head_name (join nl (?a :: ?l)) = _ => destruct (join_head nl a l) as (r & ->) end. rewrite app_assoc_s.
    apply (head_name_assign n " "%char); auto.
  - match goal with |- head_name (join nl (?a :: ?l)) = _ => destruct (join_head nl a l) as (r & ->) end. rewrite !app_assoc_s.
    now apply (head_name_class n "("%char).
  - now apply (head_name_class n "("%char).
Qed.
Lemma declared_decl_of s t : declared (decl_of s t) = tname t.
Proof.
  unfold decl_of, fun_decl. destruct (tkind t); try reflexivity.
  - destruct (f_sig f) as [[sig k]|]; [|reflexivity]. destruct (f_lambda f); reflexivity.
  - destruct (is_typed_dict s m); reflexivity.
Qed.

(** ** Referenced nodes *)
Fixpoint refs (s : strategies) (t : tree) : list tree :=
  match t with Node i cs => flat_map (fun e => if perm s (snd e) then [snd e] else refs s (snd e)) cs end.

(** All keys have built-in types; in particular none is [None]. *)
Definition keys_builtin (t : tree) : Prop := forall n e, node_of n t -> In e (tcs n) -> In (ty_name (key_type (ekey e))) builtin_classes.
Lemma keys_builtin_child i cs e : keys_builtin (Node i cs) -> In e cs -> keys_builtin (snd e).
Proof. intros H He n x Hn. apply H. econstructor; eauto. Qed.
Lemma keys_builtin_iter i cs : keys_builtin (Node i cs) -> iter_entries cs = cs.
Proof.
  intros H. apply before_none_all. intros e He F. specialize (H _ e (node_refl _) He). rewrite F in H. apply mem_spec in H. vm_compute in H. discriminate.
Qed.

Lemma refs_collect s t : keys_builtin t -> incl (refs s t) (flat_map (fun e => collect s (snd e) ++ (if perm s (snd e) then [snd e] else []))%list (iter_entries (tcs t))).
Proof.
  induction t as [i cs IH] using tree_ind'. rewrite Forall_forall in IH. intros H n Hn. cbn [refs tcs] in *. rewrite (keys_builtin_iter i cs H).
  apply in_flat_map in Hn as (e & He & Hn). apply in_flat_map. exists e. split; auto. apply in_app_iff. destruct (perm s (snd e)); [now right|left].
  specialize (IH e He (keys_builtin_child _ _ _ H He) n Hn). destruct (snd e) as [i' cs']. rewrite collect_node. cbn [tcs] in IH.
  destruct cs' as [|e' cs']; [destruct IH|]. apply in_app_iff. now left.
Qed.

Definition ordered (s : strategies) (l : list tree) : Prop := forall a n b, l = (a ++ n :: b)%list -> incl (refs s n) a.
Lemma ordered_nil s : ordered s [].
Proof. intros [|] ? ? ?; discriminate. Qed.
Lemma ordered_app s l1 l2 : ordered s l1 -> ordered s l2 -> ordered s (l1 ++ l2).
Proof.
  intros H1 H2 a n b E. revert a n b E. induction l1 as [|x l1 IH] using rev_ind; intros a n b E; [now apply (H2 a n b)|].
  assert (G : forall u v w z : list tree, (u ++ v = w ++ z)%list -> (exists k, w = u ++ k /\ v = k ++ z)%list \/ (exists k, u = w ++ k /\ z = k ++ v)%list).
  { clear. induction u as [|x u IHu]; intros v w z E; [left; exists w; auto|]. destruct w as [|y w]; cbn [app] in E.
    - right. exists (x :: u). auto.
    - injection E as -> E. apply IHu in E as [(k & -> & ->)|(k & -> & ->)]; [left|right]; exists k; auto. }
  apply G in E as [(k & -> & E)|(k & E1 & E)].
  - intros r Hr. apply in_app_iff. right. exact (H2 k n b E r Hr).
  - destruct k as [|y k]; cbn [app] in E.
    + rewrite app_nil_r in E1. subst a. intros r Hr. apply in_app_iff. destruct (H2 [] n b (eq_sym E) r Hr).
    + injection E as -> ->. exact (H1 a y k E1).
Qed.
Lemma ordered_snoc s l x : ordered s l -> incl (refs s x) l -> ordered s (l ++ [x]).
Proof.
  intros H1 Hx a n b E. destruct (@exists_last _ (n :: b)) as (b' & y & Eb); [discriminate|]. rewrite Eb, app_assoc in E. apply app_inj_tail in E as [E ->].
  destruct b' as [|z b']; cbn [app] in Eb; injection Eb as -> Eb.
  - rewrite app_nil_r in E. now subst.
  - exact (H1 a z b' E).
Qed.
Lemma collect_ordered s t : keys_builtin t -> ordered s (collect s t).
Proof.
  induction t as [i cs IH] using tree_ind'. rewrite Forall_forall in IH. intros H. rewrite collect_node. destruct cs as [|e0 cs].
  - destruct (_ && _); [|apply ordered_nil]. apply (ordered_snoc s [] _ (ordered_nil s)). intros r [].
  - set (l := e0 :: cs) in *.
    assert (O : ordered s (flat_map (fun e => collect s (snd e) ++ (if perm s (snd e) then [snd e] else [])) (iter_entries l))%list).
    { rewrite (keys_builtin_iter i l H). assert (G : forall e, In e l -> ordered s (collect s (snd e) ++ (if perm s (snd e) then [snd e] else []))%list).
      { intros e He. pose proof (keys_builtin_child _ _ _ H He) as He'. destruct (perm s (snd e)); [|rewrite app_nil_r; now apply IH].
        apply ordered_snoc; [now apply IH|]. intros r Hr. apply refs_collect in Hr; auto. destruct (snd e) as [i' cs']. rewrite collect_node. cbn [tcs] in Hr.
        destruct cs' as [|e' cs']; [destruct Hr|]. apply in_app_iff. now left. }
      revert G. generalize l. clear. induction l as [|e l IHl]; intros G; cbn [flat_map]; [apply ordered_nil|].
      apply ordered_app; [apply G; now left|]. apply IHl. intros; apply G; now right. }
    destruct (perm s (Node i l)); [|now rewrite app_nil_r]. apply ordered_snoc; auto. apply (refs_collect s (Node i l) H).
Qed.

(** ** Names in declarations *)
Definition known (imps : list string) (x : string) : Prop := In x builtin_classes \/ imported imps x.
Lemma known_incl a b x : incl a b -> known a x -> known b x.
Proof. intros H [K|(kw & K & P)]; [now left|right; exists kw; auto]. Qed.
Lemma known_kw imps kw p x : In kw imps -> In (kw, (p, x)) PACKAGE -> known imps x.
Proof. intros A B. right. exists kw. split; auto. left. eauto. Qed.

Lemma names_members x l : In x (flat_map names_in (members l)) -> In x (flat_map names_in l).
Proof. intros H. apply in_flat_map in H as (t & Ht & H). apply in_flat_map. exists t. split; auto. now apply members_In. Qed.
Lemma names_one_of x l : In x (names_in (one_of l)) -> In x (flat_map names_in l) \/ (x = "Union" /\ snd (format_types (map print_ty l)) = ["Union"]).
Proof.
  unfold one_of. destruct l as [|a [|b l]]; cbn [names_in]; intros H.
  - destruct H as [<-|[]]; auto.
  - left. cbn [flat_map]. now rewrite app_nil_r.
  - destruct H as [<-|H]; [right; auto|now left].
Qed.
Lemma names_tor_any x l : In x (flat_map names_in (tor_any l)) -> In x (flat_map names_in l) \/ (x = "Any" /\ any_import (map print_ty l) = ["Any"]).
Proof. destruct l; cbn; auto. intros [<-|[]]; auto. Qed.
Lemma names_union x l : In x (names_in (union_ty l)) -> In x (flat_map names_in l) \/ known (snd (types_of (map print_ty l))) x.
Proof.
  intros H. unfold union_ty in H. unfold types_of. rewrite <- tor_any_print, <- members_print.
  destruct (format_types (map print_ty (members (tor_any l)))) as [a i] eqn:E. cbn [snd].
  apply names_one_of in H as [H|[-> H]].
  - apply names_members, names_tor_any in H as [H|[-> H]]; auto. right. rewrite H. eapply known_kw; [left; reflexivity|cbn; tauto].
  - right. rewrite E in H. cbn [snd] in H. subst. eapply known_kw; [apply in_app_iff; right; left; reflexivity|cbn; tauto].
Qed.
Lemma names_tuple st x l : In x (flat_map names_in (tuple_args st l)) -> In x (flat_map names_in l) \/ known (snd (tuple_types_of st (map print_ty l))) x.
Proof.
  unfold tuple_args, tuple_types_of. rewrite <- tor_any_print.
  assert (P : match st with TFixed => map print_ty (tor_any l) | TAnySize => union_members (map print_ty (tor_any l)) end
              = map print_ty (match st with TFixed => tor_any l | TAnySize => members (tor_any l) end)) by (destruct st; [|rewrite members_print]; reflexivity).
  rewrite P, map_length. set (cts := match st with TFixed => tor_any l | TAnySize => members (tor_any l) end).
  destruct (Nat.eqb (List.length cts) 1 && mem "Any" (map print_ty cts)); cbn [snd].
  { cbn. intros [<-|[]]. right. eapply known_kw; [apply in_app_iff; right; left; reflexivity|cbn; tauto]. }
  assert (A : In x (flat_map names_in cts) -> In x (flat_map names_in l) \/ (x = "Any" /\ any_import (map print_ty l) = ["Any"])).
  { intros H. apply names_tor_any. unfold cts in H. destruct st; auto. now apply names_members. }
  destruct st; intros H.
  - apply A in H as [H|[-> H]]; auto. right. cbn [snd]. rewrite H. eapply known_kw; [left; reflexivity|cbn; tauto].
  - change (In x (names_in (one_of cts) ++ [])%list) in H. rewrite app_nil_r in H.
    assert (ND : dedup (map print_ty cts) = map print_ty cts). { apply dedup_id. unfold cts. rewrite members_print. apply union_members_NoDup. }
    rewrite ND. apply names_one_of in H as [H|[-> H]].
    + apply A in H as [H|[-> H]]; auto. right. assert (G : incl (any_import (map print_ty l)) (snd match map print_ty cts with [x] => (x ++ ", ...", any_import (map print_ty l)) | names => ("Union[" ++ join ", " (sort names) ++ "], ...", (any_import (map print_ty l) ++ ["Union"])%list) end)).
      { destruct (map print_ty cts) as [|? [|? ?]]; cbn [snd]; auto using incl_refl, incl_appl. }
      eapply known_incl; [exact G|]. rewrite H. eapply known_kw; [left; reflexivity|cbn; tauto].
    + right. unfold format_types in H. destruct (map print_ty cts) as [|? [|? ?]]; cbn [snd] in *; try discriminate;
        (eapply known_kw; [apply in_app_iff; right; left; reflexivity|cbn; tauto]).
Qed.
Lemma names_keys ks x : ks <> [] -> In x (names_in (key_ty ks)) ->
  known (snd (format_types (union_members (map (fun k => ty_name (key_type k)) ks)))) x \/ exists k, In k ks /\ x = ty_name (key_type k).
Proof.
  intros N H. unfold key_ty in H. destruct ks as [|k0 ks]; [congruence|]. set (l := k0 :: ks) in *.
  assert (P : map print_ty (map (fun k => TName (ty_name (key_type k))) l) = map (fun k => ty_name (key_type k)) l) by (rewrite map_map; reflexivity).
  apply names_one_of in H as [H|[-> H]].
  - apply names_members in H. apply in_flat_map in H as (t & Ht & H). apply in_map_iff in Ht as (k & <- & Hk). destruct H as [<-|[]]. right. eauto.
  - left. rewrite members_print, P in H. rewrite H. eapply known_kw; [left; reflexivity|cbn; tauto].
Qed.
Lemma names_class n x : In x (names_in (class_ref n)) -> In x builtin_classes.
Proof. unfold class_ref. destruct (is_builtin n) eqn:E; intros []; [subst; now apply mem_spec|contradiction]. Qed.
Lemma names_seq s k t : known (snd (seq_container s k t)) (fst (seq_container s k t)).
Proof.
  destruct k; cbn; try (destruct (s_list s)); try (destruct (Nat.eqb (ty_id t) t_frozenset)); cbn [fst snd];
    try (eapply known_kw; [left; reflexivity|cbn; tauto]);
    right; exists "pandas"; (split; [cbn; tauto|]); right; auto.
Qed.
Lemma names_map s k t : known (snd (map_container s k t)) (fst (map_container s k t)).
Proof.
  unfold map_container. destruct (String.eqb _ _); [|destruct (s_dict s)]; cbn [fst snd]; (eapply known_kw; [left; reflexivity|cbn; tauto]).
Qed.

Lemma child_type_imports s cs :
  map (child_type s) (before_none (@fst key (tree * out)) (outs s cs)) = map (fun e => child_type s (fst (fst e), (snd e, top s (snd e)))) (iter_entries cs).
Proof. unfold outs. rewrite before_none_map, map_map. reflexivity. Qed.

(** The types of keys below a node. *)
Definition key_name (t : tree) (x : string) : Prop := exists n e, node_of n t /\ In e (tcs n) /\ x = ty_name (key_type (ekey e)).
Lemma key_name_child i cs e x : In e cs -> key_name (snd e) x -> key_name (Node i cs) x.
Proof. intros H (n & e' & A & B & C). exists n, e'. split; auto. econstructor; eauto. Qed.

Section Names.
  Variable s : strategies.

  Lemma child_string (e : key * nat * tree) : eq_free (snd e) -> fst (child_type s (fst (fst e), (snd e, top s (snd e)))) = print_ty (child_ty s (snd e)).
  Proof.
    intros F. unfold child_type, child_ty. cbn [fst snd]. destruct (perm s (snd e)) eqn:P; [reflexivity|]. cbn [fst]. now apply (child_ok_all s (snd e)).
  Qed.
  Lemma outs_inside i cs : eq_free (Node i cs) ->
    outs_strings (map (fun e => child_type s (fst (fst e), (snd e, top s (snd e)))) (iter_entries cs)) = map print_ty (inside s cs).
  Proof.
    intros F. unfold outs_strings, inside. rewrite !map_map. apply map_ext_in. intros e He. apply before_none_In in He. apply child_string. eapply eq_free_child; eauto.
  Qed.

  Lemma rhs_names t : eq_free t -> assigned s t = true -> forall x, In x (names_in (rhs s t)) ->
    known (snd (top s t)) x \/ In x (map tname (refs s t)) \/ key_name t x.
  Proof.
    induction t as [i cs IH] using tree_ind'. rewrite Forall_forall in IH. intros F A x Hx.
    set (cty := fun e : key * nat * tree => child_type s (fst (fst e), (snd e, top s (snd e)))) in *.
    assert (Ins : In x (flat_map names_in (inside s cs)) -> known (outs_imports (map cty (iter_entries cs))) x \/ In x (map tname (refs s (Node i cs))) \/ key_name (Node i cs) x).
    { intros G. unfold inside in G. apply in_flat_map in G as (u & Hu & G). apply in_map_iff in Hu as (e & <- & He'). pose proof (before_none_In _ _ _ He') as He.
      unfold child_ty in G. destruct (perm s (snd e)) eqn:P.
      - right. left. destruct G as [<-|[]]. apply in_map. cbn [refs]. apply in_flat_map. exists e. split; auto. rewrite P. now left.
      - apply IH in G as [G|[G|G]]; auto; [| | |eapply eq_free_child; eauto|now apply not_perm_assigned].
        + left. eapply known_incl; [|exact G]. intros y Hy. unfold outs_imports. apply in_flat_map. exists (cty e). split; [now apply in_map|].
          unfold cty, child_type. cbn [fst snd]. rewrite P. exact Hy.
        + right. left. apply in_map_iff in G as (r & <- & Hr). apply in_map. cbn [refs]. apply in_flat_map. exists e. split; auto. now rewrite P.
        + right. right. eapply key_name_child; eauto. }
    pose proof (outs_inside i cs F) as OI. fold cty in OI.
    assert (D : In x (names_in (rhs_dict s i cs)) -> known (snd (parse_dict s i (outs s cs) (before_none (@fst key (tree * out)) (outs s cs)))) x \/ In x (map tname (refs s (Node i cs))) \/ key_name (Node i cs) x).
    { unfold rhs_dict. intros G. unfold parse_dict. rewrite (child_type_imports s cs). fold cty. rewrite OI.
      pose proof (names_map s (i_kind i) (i_type i)) as NM. destruct (map_container s (i_kind i) (i_type i)) as [container ci]. cbn [fst snd] in NM, G.
      cbn [names_in flat_map] in G. rewrite app_nil_r in G.
      destruct (types_of (map print_ty (inside s cs))) as [vs vi] eqn:ET.
      destruct cs as [|e0 cs'].
      - cbn [outs map]. change (any_import (map print_ty (inside s []))) with ["Any"].
        destruct (format_types (union_members (or_any (map print_ty (inside s []))))) as [ks ki]. cbn [snd].
        destruct G as [<-|G]; [left; eapply known_incl; [|exact NM]; intros y Hy; apply in_app_iff; now left|].
        apply in_app_iff in G as [G|G].
        + cbn in G. destruct G as [<-|[]]. left. eapply known_kw; [apply in_app_iff; right; left; reflexivity|cbn; tauto].
        + apply names_union in G as [[]|G]. left. rewrite ET in G. cbn [snd] in G. eapply known_incl; [|exact G]. intros y Hy. rewrite !in_app_iff. tauto.
      - set (l := e0 :: cs') in *. assert (EK : map (fun c : key * (tree * out) => ty_name (key_type (fst c))) (outs s l) = map (fun k => ty_name (key_type k)) (map (fun e : key * nat * tree => fst (fst e)) l)).
        { unfold outs. rewrite !map_map. reflexivity. }
        assert (EL : outs s l <> []) by discriminate.
        destruct (outs s l) as [|o os] eqn:EO; [congruence|]. cbv zeta. rewrite EK.
        destruct (format_types (union_members (map (fun k => ty_name (key_type k)) (map (fun e : key * nat * tree => fst (fst e)) l)))) as [ks ki] eqn:EF. cbn [snd].
        destruct G as [<-|G]; [left; eapply known_incl; [|exact NM]; intros y Hy; apply in_app_iff; now left|].
        apply in_app_iff in G as [G|G].
        + apply names_keys in G; [|discriminate]. destruct G as [G|(k & Hk & ->)].
          2: { right. right. apply in_map_iff in Hk as (e & <- & He). exists (Node i l), e. split; [constructor|auto]. }
          left. rewrite EF in G. cbn [snd] in G. eapply known_incl; [|exact G]. intros y Hy. rewrite !in_app_iff. tauto.
        + apply names_union in G as [G|G].
          * apply Ins in G as [G|[G|G]]; auto. left. eapply known_incl; [|exact G]. intros y Hy. rewrite !in_app_iff. tauto.
          * left. rewrite ET in G. cbn [snd] in G. eapply known_incl; [|exact G]. intros y Hy. rewrite !in_app_iff. tauto. }
    rewrite top_node. rewrite rhs_node in Hx. unfold assigned, tkind in A. cbn [ti] in A.
    destruct (i_kind i) as [|f|n| | |d|k| |data m] eqn:Kd; try (now apply D).
    - left. unfold instance_top. destruct (Nat.eqb (ty_id (i_type i)) t_NoneType).
      + cbn [names_in flat_map app snd] in *. destruct Hx as [<-|[<-|[]]]; [eapply known_kw; [right; left; reflexivity|cbn; tauto]|]. left. cbn; tauto.
      + left. now apply names_class in Hx.
    - left. unfold function_top. destruct (f_sig f) as [[sig n]|]; [rewrite A|]; cbn [snd names_in] in *.
      + destruct Hx as [<-|Hx]; [eapply known_kw; [left; reflexivity|cbn; tauto]|]. cbn [flat_map names_in app] in Hx. apply in_app_iff in Hx as [Hx|[<-|[]]].
        * apply in_flat_map in Hx as (u & Hu & Hx). apply repeat_spec in Hu. subst. destruct Hx as [<-|[]]. eapply known_kw; [right; left; reflexivity|cbn; tauto].
        * eapply known_kw; [right; left; reflexivity|cbn; tauto].
      + destruct Hx as [<-|[]]. eapply known_kw; [left; reflexivity|cbn; tauto].
    - left. cbn [names_in flat_map snd] in *. rewrite app_nil_r in Hx. destruct Hx as [<-|Hx]; [eapply known_kw; [left; reflexivity|cbn; tauto]|]. left. now apply names_class in Hx.
    - left. destruct Hx as [<-|[]]. eapply known_kw; [left; reflexivity|cbn; tauto].
    - left. destruct Hx as [<-|[]]. eapply known_kw; [left; reflexivity|cbn; tauto].
    - destruct Hx.
    - cbv zeta. cbn [snd]. rewrite (child_type_imports s cs). fold cty. rewrite OI. cbn [names_in] in Hx. destruct Hx as [<-|Hx].
      { left. eapply known_incl; [|apply names_seq]. intros y Hy. rewrite in_app_iff. now left. }
      assert (G : In x (flat_map names_in (inside s cs)) \/ known (snd match k with KTuple => tuple_types_of (s_tuple s) (map print_ty (inside s cs)) | _ => types_of (map print_ty (inside s cs)) end) x).
      { destruct k; try (cbn [flat_map] in Hx; rewrite app_nil_r in Hx; now apply names_union in Hx). now apply names_tuple in Hx. }
      destruct G as [G|G].
      + apply Ins in G as [G|[G|G]]; auto. left. eapply known_incl; [|exact G]. intros y Hy. rewrite !in_app_iff. tauto.
      + left. eapply known_incl; [|exact G]. intros y Hy. rewrite !in_app_iff. tauto.
    - apply negb_true_iff in A. rewrite A. now apply D.
  Qed.

  Lemma wrap_names m k u x : In x (names_in (wrap s m k u)) -> In x (names_in u) \/ known (snd (field_type s m k (print_ty u))) x.
  Proof.
    unfold wrap, field_type. destruct (dget k (m_required m)) as [[]|]; auto; destruct (s_read_only s); cbn [names_in flat_map snd app]; rewrite ?app_nil_r; auto.
    - intros [<-|H]; auto. right. eapply known_kw; [left; reflexivity|cbn; tauto].
    - intros [<-|[<-|H]]; auto; right; [eapply known_kw; [right; left; reflexivity|cbn; tauto] | eapply known_kw; [left; reflexivity|cbn; tauto]].
    - intros [<-|H]; auto. right. eapply known_kw; [left; reflexivity|cbn; tauto].
  Qed.

  Lemma decl_names t : eq_free t -> perm s t = true -> function_fails t = false ->
    forall x, In x (mentioned (decl_of s t)) -> known (snd (top s t)) x \/ In x (map tname (refs s t)) \/ key_name t x \/
      (is_td s t = true /\ In x (map (fun c => to_camel_case (tname c)) (refs s t))).
  Proof.
    intros F P X x Hx. pose proof (rhs_names t F) as R.
    assert (AL : forall n u, assigned s t = true -> In "TypeAlias" (snd (top s t)) -> u = rhs s t -> In x (mentioned (DAlias n u)) -> known (snd (top s t)) x \/ In x (map tname (refs s t)) \/ key_name t x \/
      (is_td s t = true /\ In x (map (fun c => to_camel_case (tname c)) (refs s t)))).
    { intros n u A T -> [<-|G]; [left; eapply known_kw; [exact T|cbn; tauto]|]. apply R in G as [G|[G|G]]; auto. }
    destruct t as [i cs]. unfold decl_of, assigned, perm, function_fails, is_td, node_is_typed_dict, tkind in *. cbn [ti] in *. rewrite top_node in *.
    destruct (i_kind i) as [|f|n| | |d|k| |data m] eqn:K.
    - eapply AL; [reflexivity| |reflexivity|exact Hx]. unfold instance_top. rewrite P. destruct (Nat.eqb _ _); cbn [snd In]; tauto.
    - unfold fun_decl in Hx. unfold function_top in *. destruct (f_sig f) as [[sig n]|].
      + destruct (f_lambda f); [eapply AL; [reflexivity| |reflexivity|exact Hx]; cbn [snd In]; tauto|].
        cbn in Hx. destruct Hx as [<-|[]]. left. destruct (contains "->" sig); [eapply known_kw; [left; reflexivity|cbn; tauto]|].
        destruct (f_return f) as [[]|]; [| |discriminate]; (eapply known_kw; [left; reflexivity|cbn; tauto]).
      + eapply AL; [reflexivity| |reflexivity|exact Hx]. cbn [snd In]. tauto.
    - eapply AL; [reflexivity| |reflexivity|exact Hx]. cbn [snd In]. tauto.
    - eapply AL; [reflexivity| |reflexivity|exact Hx]. cbn [snd In]. tauto.
    - eapply AL; [reflexivity| |reflexivity|exact Hx]. cbn [snd In]. tauto.
    - eapply AL; [reflexivity| |reflexivity|exact Hx]. cbn [snd In]. tauto.
    - eapply AL; [reflexivity| |reflexivity|exact Hx]. cbv zeta. cbn [snd]. rewrite !in_app_iff. cbn [In]. tauto.
    - eapply AL; [reflexivity| |reflexivity|exact Hx]. unfold parse_dict. destruct (map_container _ _ _), (types_of _). destruct (outs s cs); cbv zeta; destruct (format_types _); cbn [snd]; rewrite !in_app_iff; cbn [In]; tauto.
    - destruct (is_typed_dict s m) eqn:T.
      + clear AL R. cbn [mentioned] in Hx. unfold parse_typed_dict. cbn [snd]. destruct Hx as [<-|Hx]; [left; eapply known_kw; [left; reflexivity|cbn; tauto]|].
        apply in_flat_map in Hx as (fl & Hf & Hx). apply filter_In in Hf as [Hf _]. apply in_map_iff in Hf as (e & <- & He). cbn [typed_field fd_type] in Hx.
        assert (RE : forall c, In c (if perm s (snd e) then [snd e] else refs s (snd e)) -> In c (refs s (Node i cs))) by (intros c Hc; cbn [refs]; apply in_flat_map; eauto).
        assert (IMP : forall l, incl l (snd (field_type s m (fst (fst e)) (print_ty (typed_ref s (snd e) (rhs s (snd e)))))) \/ (perm s (snd e) = false /\ incl l (snd (top s (snd e)))) ->
          incl l ("TypedDict" :: flat_map (fun f => snd (snd f)) (map (fun c => let t := fst (snd c) in
                  let base : out := if perm s t then (to_camel_case (tname t), []) else (without_lvalue (fst (snd (snd c))), snd (snd (snd c))) in
                  let ft := field_type s m (fst c) (fst base) in (key_str (fst c), (fst ft, (snd base ++ snd ft)%list))) (outs s cs)))).
        { intros l Hl y Hy. right. apply in_flat_map. eexists. split; [apply in_map; unfold outs; apply in_map; exact He|]. cbn [fst snd]. apply in_app_iff.
          unfold typed_ref in Hl. destruct (perm s (snd e)) eqn:Pe; cbn [fst snd].
          - right. destruct Hl as [Hl|[? _]]; [|discriminate]. now apply Hl.
          - assert (CO : without_lvalue (fst (top s (snd e))) = print_ty (rhs s (snd e))) by (apply (child_ok_all s (snd e)); auto; eapply eq_free_child; eauto).
            rewrite CO. destruct Hl as [Hl|[_ Hl]]; [right|left]; now apply Hl. }
        apply wrap_names in Hx as [Hx|Hx].
        * unfold typed_ref in Hx. destruct (perm s (snd e)) eqn:Pe.
          -- right. right. right. split; auto. destruct Hx as [<-|[]]. apply (in_map (fun c => to_camel_case (tname c))). apply RE. now left.
          -- apply rhs_names in Hx as [Hx|[Hx|Hx]]; [| | |eapply eq_free_child; eauto|now apply not_perm_assigned].
             ++ left. eapply known_incl; [|exact Hx]. apply IMP. right. split; auto using incl_refl.
             ++ right. left. apply in_map_iff in Hx as (r & <- & Hr). apply in_map. now apply RE.
             ++ right. right. left. eapply key_name_child; eauto.
        * left. eapply known_incl; [|exact Hx]. apply IMP. left. apply incl_refl.
      + eapply AL; [reflexivity| |reflexivity|exact Hx]. unfold parse_dict. destruct (map_container _ _ _), (types_of _). destruct (outs s cs); cbv zeta; destruct (format_types _); cbn [snd]; rewrite !in_app_iff; cbn [In]; tauto.
  Qed.
End Names.

(** ** Putting it together *)
Lemma imp_adds_In ks : forall acc x, In x (imp_adds ks acc) <-> In x ks \/ In x acc.
Proof.
  unfold imp_adds. induction ks as [|k ks IH]; intros acc x; cbn [fold_left In]; [tauto|]. rewrite IH. unfold imp_add.
  destruct (mem k acc) eqn:M; [apply mem_spec in M|]; rewrite ?in_app_iff; cbn [In]; intuition; subst; auto.
Qed.
Lemma recorded_top s t n : In n (collect s t) -> incl (snd (top s n)) (recorded_imports s t).
Proof. intros H x Hx. unfold recorded_imports. apply imp_adds_In. left. apply in_flat_map. eauto. Qed.

Lemma refs_node s n t : In n (refs s t) -> node_of n t /\ perm s n = true.
Proof.
  induction t as [i cs IH] using tree_ind'. rewrite Forall_forall in IH. cbn [refs]. intros H. apply in_flat_map in H as (e & He & H).
  destruct (perm s (snd e)) eqn:P.
  - destruct H as [<-|[]]. split; auto. econstructor; eauto. constructor.
  - apply IH in H as [A B]; auto. split; auto. econstructor; eauto.
Qed.

Lemma resolved s t texts : eq_free t -> keys_builtin t -> (forall n, node_of n t -> wordy (tname n)) ->
  (is_td_strategy s = true -> forall n, node_of n t -> to_camel_case (tname n) = tname n) ->
  declarations s t = Some texts ->
  texts = map print_decl (decls s t) /\ names_resolved (recorded_imports s t) (decls s t).
Proof.
  intros F H W C D. pose proof D as D0. apply declarations_decls in D as [D NF]; auto. split; auto.
  intros a d b E x Hx. unfold decls in E. apply map_eq_app in E as (ka & kb & E & <- & Eb). destruct kb as [|n kb]; [discriminate|]. cbn [map] in Eb. injection Eb as <- <-.
  assert (Kn : In n (kept s t)) by (rewrite E; apply in_or_app; right; now left).
  pose proof (NF n Kn) as Xn. assert (Cn : In n (collect s t)) by (eapply firsts_incl; exact Kn).
  destruct (collect_nodes s t n Cn) as [Nn Pn].
  assert (Fn : eq_free n) by (intros y Hy; apply F; eapply node_of_trans; eauto).
  assert (Hn : keys_builtin n) by (intros y e Hy; apply H; eapply node_of_trans; eauto).
  assert (Hx' : known (snd (top s n)) x \/ In x (map tname (refs s n))).
  { apply decl_names in Hx as [Hx|[Hx|[(y & e & Hy & He & ->)|[T Hx]]]]; auto.
    - left. left. now apply (Hn y).
    - right. apply in_map_iff in Hx as (c & <- & Hc). destruct (refs_node s c n Hc) as [Hc' _]. rewrite C; [now apply in_map|eapply td_is_strategy; eauto|eapply node_of_trans; eauto]. }
  clear Hx. rename Hx' into Hx.
  - destruct Hx as [[Hx|Hx]|Hx]; [right; now left| |].
    + right. right. destruct Hx as (kw & K & Pr). exists kw. split; auto. now apply (recorded_top s t n Cn).
    + left. apply in_map_iff in Hx as (r & <- & Hr).
      pose proof E as E0. unfold kept in E. apply firsts_split in E as (p & q & E & _ & Pp).
      assert (Hp : In r p) by (eapply (collect_ordered s t H); eauto).
      destruct (Pp r Hp) as [[]|Hf]. apply in_map_iff in Hf as (r' & Ef & Hr').
      assert (Kr : In r' (kept s t)) by (rewrite E0; apply in_or_app; now left).
      assert (Cr : In r (collect s t)) by (rewrite E; apply in_or_app; now left).
      assert (Cr' : In r' (collect s t)) by (eapply firsts_incl; exact Kr).
      destruct (collect_nodes s t r Cr) as [Nr Pr], (collect_nodes s t r' Cr') as [Nr' Pr'].
      assert (Xr : function_fails r = false).
      { unfold declarations in D0. destruct (existsb function_fails (collect s t)) eqn:X; [discriminate|]. apply not_true_iff_false. intros Y.
        assert (existsb function_fails (collect s t) = true) by (apply existsb_exists; eauto). congruence. }
      rewrite !top_decl in Ef; auto; try (intros y Hy; apply F; eapply node_of_trans; eauto).
      apply (f_equal head_name) in Ef. rewrite !print_decl_name in Ef by (rewrite declared_decl_of; auto). rewrite !declared_decl_of in Ef.
      apply in_map_iff. exists (decl_of s r'). rewrite declared_decl_of. split; auto. now apply in_map.
Qed.
