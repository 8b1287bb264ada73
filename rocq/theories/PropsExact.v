(** Theorems without side conditions beside the partial ones about C01, C26, C30, C35 and C80. *)
From Coq Require Import Ascii String List Bool Arith Lia.
From Verif Require Import PyStr PyStrFacts Exc Utils Strategies Dispatch Values Tree Build TreeFacts SpecNames NamesFacts SpecData SpecEmit BuildFacts TreeProofs
  Emit EmitFacts AlikeFacts TypedFacts SampleEmit PropsTree PropsEmit PropsShow Samples Show SpecExact SpecMypy PropsCheck.
Import ListNotations.
Local Open Scope string_scope.
Local Open Scope nat_scope.

(** ** C01 for all names *)
Definition name_charb (c : ascii) : bool := id_startb c || between 48 57 (code c) || existsb (Nat.eqb (code c)) [178; 179; 185; 188; 189; 190].
Lemma name_charb_spec c : name_charb c = true <-> name_char c.
Proof.
  unfold name_charb, name_char, in_range, numeral_sign. rewrite !orb_true_iff, id_startb_spec, between_spec, existsb_exists.
  split; [intros [[H|H]|(x & H & E)]|intros [H|[H|H]]]; auto. apply Nat.eqb_eq in E. subst. auto.
  right. exists (code c). now rewrite Nat.eqb_refl.
Qed.
Lemma by_all_chars (p q : ascii -> bool) : forallb (fun n => Bool.eqb (p (ascii_of_nat n)) (q (ascii_of_nat n))) (seq 0 256) = true -> forall c, p c = q c.
Proof.
  intros H c. rewrite forallb_forall in H. specialize (H (nat_of_ascii c)). rewrite ascii_nat_embedding in H. apply Bool.eqb_prop, H.
  apply in_seq. pose proof (nat_ascii_bounded c). lia.
Qed.
Lemma word_name c : word_char c = name_charb c.
Proof. revert c. apply by_all_chars. vm_compute. reflexivity. Qed.
Lemma word_begin c : word_char c && negb (is_numeric c) = id_startb c.
Proof. revert c. apply by_all_chars. vm_compute. reflexivity. Qed.
Lemma only_underscores s : str_forall (Ascii.eqb underscore) s = false <-> exists d, In d (chars s) /\ code d <> 95.
Proof.
  induction s as [|c s IH]; cbn [str_forall chars].
  - split; [discriminate|intros (d & [] & _)].
  - rewrite andb_false_iff, IH. assert (E : Ascii.eqb underscore c = false <-> code c <> 95).
    { destruct (Ascii.eqb_spec underscore c) as [<-|N]; [split; [discriminate|intros F; now destruct F]|]. split; auto. intros _ F. apply N.
      rewrite <- (ascii_nat_embedding c). unfold code in F. rewrite F. reflexivity. }
    rewrite E. split.
    + intros [H|(d & H & N)]; [exists c; split; [now left|auto]|exists d; split; [now right|auto]].
    + intros (d & [<-|H] & N); [now left|right; eauto].
Qed.
Lemma is_compatible_accepted n : is_compatible n = true <-> accepted n.
Proof.
  rewrite is_compatible_iff. unfold accepted. rewrite only_underscores. split.
  - intros ((c & r & -> & N) & W & D). exists c, r. split; [auto|]. cbn [str_forall] in W. apply andb_true_iff in W as [W1 W2]. split; [|split; auto].
    + apply id_startb_spec. now rewrite <- word_begin, W1, N.
    + apply Forall_chars in W2. eapply Forall_impl; [|exact W2]. intros x Hx. apply name_charb_spec. now rewrite <- word_name.
  - intros (c & r & -> & St & R & D). apply id_startb_spec in St. rewrite <- word_begin in St. apply andb_true_iff in St as [W N]. apply negb_true_iff in N.
    split; [eauto|]. split; auto. cbn [str_forall]. rewrite W. cbn [andb]. apply Forall_chars. eapply Forall_impl; [|exact R]. intros x Hx. rewrite word_name. now apply name_charb_spec.
Qed.
(** Every name that is not [accepted] is refused for all data, and with classes that are words every accepted one gives a tree. *)
Theorem C01_all_names : forall s ord v n,
  (~ accepted n -> from_data s ord v n = Err (BadName n)) /\
  (valid s -> set_like ord -> ordinary_types v -> accepted n -> exists t, from_data s ord v n = Ok t).
Proof.
  intros s ord v n. split.
  - intros H. apply from_data_refused. apply not_true_iff_false. now rewrite is_compatible_accepted.
  - intros Hs Ho Hv H. apply from_data_total; auto. now apply is_compatible_accepted.
Qed.
Print Assumptions C01_all_names.
Example C01_all_names_example : accepted "Team2" /\ ~ accepted "__" /\ ~ accepted "2Team" /\ accepted ("a" ++ String (ascii_of_nat 178) "").
Proof. rewrite <- !is_compatible_accepted. split; [reflexivity|]. split; [discriminate|]. split; [discriminate|reflexivity]. Qed.

(** ** Visible nodes *)
Lemma front_iter cs : Front cs (iter_entries cs).
Proof.
  unfold iter_entries. induction cs as [|[[k m] c] cs IH]; cbn [before_none ekey fst]; [constructor|]. destruct k; constructor; auto; discriminate.
Qed.
Lemma front_unique cs l : Front cs l -> l = iter_entries cs.
Proof.
  unfold iter_entries. induction 1 as [| |k m c r l K F IH]; cbn [before_none ekey fst]; auto. rewrite IH. destruct k; congruence.
Qed.
Lemma visible_iter n t : visible n t <-> visited_node n t.
Proof.
  split.
  - induction 1 as [|i before k m c after B K V IH]; [constructor|]. apply (v_child n i _ (k, m, c)); [|exact IH]. unfold iter_entries.
    induction B as [|[[k' m'] c'] before B0 B IHB]; cbn [before_none ekey fst app].
    + destruct k; [now left|congruence|now left].
    + cbn [fst] in B0. destruct k'; [now right|congruence|now right].
  - induction 1 as [|i cs e He V IH]; [constructor|].
    assert (S' : exists before after, cs = (before ++ e :: after)%list /\ Forall (fun e => fst (fst e) <> KNone) before /\ fst (fst e) <> KNone).
    { clear -He. unfold iter_entries in He. induction cs as [|[[k m] c] cs IH]; cbn [before_none ekey fst] in He; [destruct He|].
      assert (K : k <> KNone /\ (e = (k, m, c) \/ In e (before_none ekey cs))) by (destruct k; [split; [discriminate|destruct He; auto]|destruct He|split; [discriminate|destruct He; auto]]).
      destruct K as [K [->|H]]; [exists [], cs; auto|]. destruct (IH H) as (b & a & -> & B & E). exists ((k, m, c) :: b), a. split; auto. }
    destruct S' as (b & a & -> & B & K). destruct e as [[k m] c]. now constructor.
Qed.

(** *** C26: exactly the visible nodes that deserve it are declared, children first. *)
Definition typed_dict (s : strategies) (t : tree) : Prop := is_td s t = true.
Lemma perm_spec s t : perm s t = true <-> gets_declared s (typed_dict s) t.
Proof.
  unfold perm, gets_declared, typed_dict, is_td, node_is_typed_dict. destruct (tkind t) as [|f|c| | |a|k| |d m] eqn:K; rewrite ?orb_true_iff, ?Nat.ltb_lt; split; intros H; auto.
  all: try (destruct H as [H|[(f & H)|[H|(_ & [(k' & H)|[H|(d & m' & H)]])]]]; auto; discriminate).
  - right. left. eauto.
  - destruct H as [H|H]; auto. do 3 right. split; auto. left. eauto.
  - destruct H as [H|[(f & H)|[H|(H & _)]]]; auto; discriminate.
  - destruct H as [H|H]; auto. do 3 right. split; auto.
  - destruct H as [H|[(f & H)|[H|(H & _)]]]; auto; discriminate.
  - destruct H as [[H|H]|H]; auto. do 3 right. split; auto. right. right. eauto.
  - destruct H as [H|[(f & H)|[H|(H & _)]]]; auto; discriminate.
Qed.
Lemma collect_visible s t : i_depth (ti t) = 0 -> forall n, In n (collect s t) <-> visible n t /\ perm s n = true.
Proof.
  intros D n. rewrite visible_iter. split.
  - intros H. assert (G : forall t n, In n (collect s t) -> visited_node n t /\ perm s n = true); [|now apply G].
    clear. intros t n. induction t as [i cs IH] using tree_ind'. rewrite Forall_forall in IH. cbn [collect]. destruct cs as [|e0 cs].
    + destruct (Nat.eqb (i_depth i) 0); cbn [andb]; [|intros []]. destruct (perm s (Node i [])) eqn:P; intros H; [|destruct H]. destruct H as [<-|[]]. split; [constructor|auto].
    + set (l := e0 :: cs) in *. rewrite before_none_map. intros G. apply in_app_or in G as [G|G].
      * apply in_flat_map in G as (y & Hy & G). apply in_map_iff in Hy as (e & <- & He). cbn [snd] in G. pose proof (before_none_In _ _ _ He) as He'.
        apply in_app_or in G as [G|G]; [destruct (IH e He' G); split; [econstructor; eauto|auto]|].
        destruct (perm s (snd e)) eqn:P; [|destruct G]. destruct G as [<-|[]]. split; [econstructor; [exact He|constructor]|auto].
      * destruct (perm s (Node i l)) eqn:P; [|destruct G]. destruct G as [<-|[]]. split; [constructor|auto].
  - intros [V P]. destruct (always_collected s t n V P) as [->|H]; auto. destruct t as [i cs]. cbn [ti] in D. cbn [collect].
    destruct cs; [rewrite D, P; now left|]. rewrite P. apply in_or_app. right. now left.
Qed.

(** The texts of the declarations, in order. *)
Definition kept (seen : list string) (l : list string) : list string := firsts (fun x => x) seen l.
Lemma kept_Firsts l : forall seen, Firsts seen l (kept seen l).
Proof.
  unfold kept. induction l as [|x l IH]; intros seen; cbn [firsts]; [constructor|]. destruct (mem x seen) eqn:M.
  - apply firsts_old; auto. now apply mem_spec.
  - apply firsts_new; auto. now apply mem_false.
Qed.
Lemma kept_app a b : forall seen, kept seen (a ++ b) = (kept seen a ++ kept (a ++ seen) b)%list.
Proof.
  unfold kept. induction a as [|x a IH]; intros seen; cbn [firsts app]; auto. destruct (mem x seen) eqn:M.
  - rewrite IH. f_equal. apply firsts_ext. intros y. cbn [In]. rewrite !in_app_iff. apply mem_spec in M. split; [tauto|]. intros [<-|H]; auto.
  - cbn [app]. f_equal. rewrite IH. f_equal. apply firsts_ext. intros y. cbn [In]. rewrite !in_app_iff. cbn [In]. tauto.
Qed.
Definition alike_texts (l l' : list string) : Prop := (forall x, In x l <-> In x l') /\ forall seen, kept seen l = kept seen l'.
Lemma alike_refl l : alike_texts l l.
Proof. split; tauto. Qed.
Lemma alike_app a a' b b' : alike_texts a a' -> alike_texts b b' -> alike_texts (a ++ b) (a' ++ b').
Proof.
  intros [A1 A2] [B1 B2]. split; [intros x; now rewrite !in_app_iff, A1, B1|]. intros seen. rewrite !kept_app, A2, B2. f_equal. apply firsts_ext.
  intros y. rewrite !in_app_iff. now rewrite A1.
Qed.
Lemma alike_trans a b c : alike_texts a b -> alike_texts b c -> alike_texts a c.
Proof. intros [A1 A2] [B1 B2]. split; intros x; [now rewrite A1, B1|now rewrite A2, B2]. Qed.
Lemma alike_twice l : alike_texts (l ++ l) l.
Proof.
  split; [intros x; rewrite in_app_iff; tauto|]. intros seen. rewrite kept_app. assert (E : kept (l ++ seen) l = []); [|now rewrite E, app_nil_r].
  unfold kept. assert (G : forall m seen', (forall x, In x m -> In x seen') -> firsts (fun x : string => x) seen' m = []); [|apply G; intros x; rewrite in_app_iff; tauto].
  clear. induction m as [|x m IH]; intros seen H; cbn [firsts]; auto. rewrite (proj2 (mem_spec _ _)) by (apply H; now left). apply IH. intros y Hy. apply H. now right.
Qed.
Fixpoint up (t : tree) : list tree := match t with Node _ cs => (flat_map (fun x => snd x) (before_none fst (map (fun e => (ekey e, up (snd e))) cs)) ++ [t])%list end.
Lemma up_node i cs : up (Node i cs) = (flat_map (fun e => up (snd e)) (iter_entries cs) ++ [Node i cs])%list.
Proof.
  cbn [up]. f_equal. unfold iter_entries. induction cs as [|[[k m] c] cs IH]; cbn [before_none ekey fst map snd flat_map]; auto. destruct k; auto; cbn [flat_map snd]; f_equal; exact IH.
Qed.
Lemma collect_node s i cs : collect s (Node i cs) = match cs with
  | [] => if Nat.eqb (i_depth i) 0 && perm s (Node i []) then [Node i []] else []
  | _ => (flat_map (fun e => collect s (snd e) ++ (if perm s (snd e) then [snd e] else [])) (iter_entries cs) ++ (if perm s (Node i cs) then [Node i cs] else []))%list
  end.
Proof.
  destruct cs as [|e cs]; [reflexivity|]. cbn [collect]. f_equal. set (l := e :: cs). clearbody l. unfold iter_entries.
  induction l as [|[[k m] c] l IH]; cbn [before_none ekey fst map snd flat_map]; auto. destruct k; auto; cbn [flat_map snd]; f_equal; exact IH.
Qed.
Lemma flat_map_flat {A B} (f : A -> list B) l : flat_map f l = concat (map f l).
Proof. apply flat_map_concat_map. Qed.
Lemma up_Upwards t : Upwards t (up t).
Proof.
  induction t as [i cs IH] using tree_ind'. rewrite Forall_forall in IH. rewrite up_node, flat_map_flat. apply upwards with (l := iter_entries cs); [apply front_iter|].
  assert (G : forall l, (forall e, In e l -> In e cs) -> Forall2 (fun e => Upwards (snd e)) l (map (fun e => up (snd e)) l)).
  { induction l as [|e l IHl]; intros H; cbn [map]; constructor; auto. apply IH, H. now left. apply IHl. intros x Hx. apply H. now right. }
  apply G. intros e He. eapply before_none_In. exact He.
Qed.
Section Order.
  Variable s : strategies.
  Definition text_of (t : tree) : string := fst (top s t).
  Lemma alike_collect t : alike_texts (map text_of (collect s t ++ (if perm s t then [t] else []))) (map text_of (filter (perm s) (up t))) /\
    (i_depth (ti t) = 0 -> alike_texts (map text_of (collect s t)) (map text_of (filter (perm s) (up t)))).
  Proof.
    induction t as [i cs IH] using tree_ind'. rewrite Forall_forall in IH. rewrite up_node, filter_app, map_app. cbn [filter].
    rewrite collect_node. set (self := if perm s (Node i cs) then [Node i cs] else []).
    assert (C : alike_texts (map text_of (flat_map (fun e => collect s (snd e) ++ (if perm s (snd e) then [snd e] else [])) (iter_entries cs))%list)
                            (map text_of (filter (perm s) (flat_map (fun e => up (snd e)) (iter_entries cs))))).
    { assert (G : forall l, (forall e, In e l -> In e cs) -> alike_texts (map text_of (flat_map (fun e => collect s (snd e) ++ (if perm s (snd e) then [snd e] else [])) l)%list)
                            (map text_of (filter (perm s) (flat_map (fun e => up (snd e)) l)))).
      { induction l as [|e l IHl]; intros H; cbn [flat_map]; [apply alike_refl|]. rewrite filter_app. set (x := (collect s (snd e) ++ _)%list). rewrite !map_app. subst x. apply alike_app.
        - apply (IH e). apply H. now left.
        - apply IHl. intros x Hx. apply H. now right. }
      apply G. intros e He. eapply before_none_In. exact He. }
    destruct cs as [|e0 cs0].
    - cbn [iter_entries before_none flat_map filter map app ti]. fold self. split.
      + unfold self. destruct (Nat.eqb (i_depth i) 0), (perm s (Node i [])); cbn [andb map app]; try apply alike_refl. apply (alike_twice [text_of (Node i [])]).
      + intros D. rewrite D. cbn [Nat.eqb andb]. fold self. apply alike_refl.
    - fold self. rewrite !map_app. split.
      + rewrite <- app_assoc. apply alike_app; auto. apply alike_twice.
      + intros _. apply alike_app; auto. apply alike_refl.
  Qed.
End Order.
Lemma filter_Chosen {A} (p : A -> bool) (P : A -> Prop) l : (forall x, p x = true <-> P x) -> Chosen P l (filter p l).
Proof.
  intros E. induction l as [|x l IH]; cbn [filter]; [constructor|]. destruct (p x) eqn:H; constructor; auto; rewrite <- E; congruence.
Qed.
Lemma declarations_kept s t ds : declarations s t = Some ds -> ds = kept [] (map (fun n => fst (top s n)) (collect s t)).
Proof.
  unfold declarations. destruct (existsb _ _); [discriminate|]. intros E. injection E as <-. unfold oset_as_list, kept.
  set (l := map _ _). clearbody l. pose proof (oset_firsts (fun x : string => x) l oset_empty) as F. rewrite !map_id in F. apply F. intros x. reflexivity.
Qed.
(** Every visible node that deserves it is declared and nothing else; the texts come children first, each once. *)
Theorem C26_all_data : forall s ord v n t, set_like ord -> from_data s ord v n = Ok t ->
  (forall c, In c (collect s t) <-> visible c t /\ gets_declared s (typed_dict s) c) /\
  (forall ds, declarations s t = Some ds -> exists nodes declared, Upwards t nodes /\ Chosen (gets_declared s (typed_dict s)) nodes declared /\
     Firsts [] (map (fun c => fst (top s c)) declared) ds).
Proof.
  intros s ord v n t Ho H. destruct (C07_bookkeeping s ord v n t Ho H) as (D & _ & _). split.
  - intros c. rewrite (collect_visible s t D). now rewrite perm_spec.
  - intros ds E. exists (up t), (filter (perm s) (up t)). split; [apply up_Upwards|]. split; [apply filter_Chosen, perm_spec|].
    apply declarations_kept in E. subst ds. destruct (alike_collect s t) as [_ [_ A]]; auto. unfold text_of in A. rewrite A. apply kept_Firsts.
Qed.
Print Assumptions C26_all_data.
Definition none_first : pyval := VMap MDict ty_dict [(KStr "a", vdict [("b", vint)]); (KNone, vint); (KStr "c", vdict [("d", vint)])].
Example C26_all_data_example : exists t, from_data default_strategies as_inserted none_first "Example" = Ok t /\
  map tname (collect default_strategies t) = ["ExampleA"; "ExampleA"; "Example"] /\ map tname (up t) = ["ExampleAB"; "ExampleA"; "Example"].
Proof. eexists. split; [vm_compute; reflexivity|]. split; vm_compute; reflexivity. Qed.

(** ** C80 for all data *)
Lemma print_visible r t : forall level, i_depth (ti t) = level -> (forall x, node_of x t -> bookkept x) ->
  exists l, Downwards level t l /\ print_all_children r t = map shown_line l.
Proof.
  induction t as [i cs IH] using tree_ind'. rewrite Forall_forall in IH. intros level D B. rewrite print_node.
  assert (G : forall es, (forall e, In e es -> In e cs) -> exists ls, Forall2 (fun e => Downwards (S level) (snd e)) es ls /\
    flat_map (print_all_children r) (map etree es) = map shown_line (concat ls)).
  { induction es as [|e es IHe]; intros H; [exists []; split; [constructor|reflexivity]|]. destruct IHe as (ls & F & E); [intros x Hx; apply H; now right|].
    destruct (IH e (H e (or_introl eq_refl)) (S level)) as (l & Dl & El).
    - pose proof (B (Node i cs) ltac:(constructor)) as [Bd _ _ _ _]. rewrite (Bd e (H e (or_introl eq_refl))). now rewrite D.
    - intros x Hx. apply B. econstructor; [apply H; now left|exact Hx].
    - exists (l :: ls). split; [now constructor|]. cbn [map flat_map concat]. rewrite map_app. unfold etree at 1. now rewrite El, E. }
  destruct (G (iter_entries cs)) as (ls & F & E); [intros e He; eapply before_none_In; exact He|]. rewrite E. exists ((level, Node i cs) :: concat ls). split.
  - eapply downwards; [apply front_iter|exact F].
  - cbn [map]. f_equal. unfold shown_line. cbn [fst snd]. rewrite blanks_repeat. cbn [ti] in D. rewrite D. reflexivity.
Qed.
Lemma front_one cs l l' : Front cs l -> Front cs l' -> l = l'.
Proof. intros H H'. apply front_unique in H, H'. congruence. Qed.
Lemma downwards_one t : forall level l l', Downwards level t l -> Downwards level t l' -> l = l'.
Proof.
  induction t as [i cs IH] using tree_ind'. rewrite Forall_forall in IH. intros level l l' H H'. inversion H as [? ? ? es ls F A]; subst. inversion H' as [? ? ? es' ls' F' A']; subst.
  rewrite (front_one _ _ _ F' F) in A'. clear F'. f_equal. f_equal.
  assert (I : forall e, In e es -> In e cs) by (apply front_unique in F; subst es; intros e He; eapply before_none_In; exact He).
  clear F H H'. revert ls' A'. induction A as [|e l es ls P A IHA]; intros ls' A'; inversion A' as [|? l' ? ls'' P' A'']; subst; auto.
  f_equal; [eapply (IH e); eauto; apply I; now left|]. apply IHA; auto. intros x Hx. apply I. now right.
Qed.
(** One line per visible node, parents first, whatever the argument. *)
Theorem C80_all_data : forall s ord v n t recursive l, set_like ord -> from_data s ord v n = Ok t -> Downwards 0 t l ->
  print_all_children recursive t = map shown_line l.
Proof.
  intros s ord v n t r l Ho H Dl. destruct (C07_bookkeeping s ord v n t Ho H) as (D & _ & B). destruct (print_visible r t 0 D B) as (l' & Dl' & E).
  now rewrite (downwards_one _ _ _ _ Dl Dl').
Qed.
Print Assumptions C80_all_data.
Example C80_all_data_example : exists t l, from_data default_strategies as_inserted none_first "Example" = Ok t /\ Downwards 0 t l /\
  map shown_line l = ["DictDataTypeTree-Example"; "    DictDataTypeTree-ExampleA"; "        InstanceDataTypeTree-ExampleAB"].
Proof.
  destruct (from_data default_strategies as_inserted none_first "Example") as [t| |] eqn:E; [|vm_compute in E; discriminate..].
  destruct (C07_bookkeeping _ _ _ _ _ as_inserted_set_like E) as (D & _ & B). destruct (print_visible true t 0 D B) as (l & Dl & P).
  exists t, l. split; auto. split; auto. rewrite <- P. vm_compute in E. injection E as <-. vm_compute. reflexivity.
Qed.

(** ** C30 for all trees *)
Lemma drop_split k n : exists old, n = (old ++ drop k n)%string /\ (String.length old = k \/ String.length old < k /\ drop k n = "").
Proof.
  revert n. induction k as [|k IH]; intros n; [exists ""; split; auto|]. destruct n as [|c n]; [exists ""; split; [reflexivity|right; cbn; split; [lia|reflexivity]]|].
  destruct (IH n) as (old & E & L). exists (String c old). cbn [drop String.append String.length]. split; [congruence|]. destruct L as [L|[L E']]; [left; lia|right; split; [lia|auto]].
Qed.
Lemma iterate_out {A} k (f : A -> A) : forall x, iterate (S k) f x = f (iterate k f x).
Proof. induction k as [|k IH]; intros x; [reflexivity|]. change (iterate (S (S k)) f x) with (iterate (S k) f (f x)). rewrite IH. reflexivity. Qed.
Lemma iterate_Replaced size new k n : Replaced size new k n (iterate k (fun n => new ++ drop size n) n).
Proof.
  induction k as [|k IH]; [constructor|]. rewrite iterate_out. destruct (drop_split size (iterate k (fun n => new ++ drop size n) n)) as (old & E & L).
  apply (replaced_1 _ _ _ _ old); auto. now rewrite <- E.
Qed.
Lemma ren_Renamed new size t : forall k, (i_root (ti t) = true -> k = 1 /\ String.length (tname t) = size) ->
  (forall x e, node_of x t -> In e (tcs x) -> i_root (ti (snd e)) = false) -> Renamed size new k t (ren k new size t).
Proof.
  induction t as [i cs IH] using tree_ind'. rewrite Forall_forall in IH. intros k R P. destruct i as [n d h r kd ty]. cbn [ren with_name i_root i_name].
  constructor.
  - destruct r; [|apply iterate_Replaced]. destruct R as [-> L]; [reflexivity|]. cbn [iterate]. unfold tname in L. cbn [ti i_name] in L.
    replace new with (new ++ "") at 2 by apply app_nil_r_s. apply (replaced_1 _ _ _ _ n); [rewrite app_nil_r_s; constructor|auto].
  - assert (Pc : forall e, In e cs -> i_root (ti (snd e)) = false) by (intros e He; apply (P (Node (Info n d h r kd ty) cs)); [constructor|exact He]).
    assert (Pn : forall e x e', In e cs -> node_of x (snd e) -> In e' (tcs x) -> i_root (ti (snd e')) = false) by (intros e x e' He Hx; apply P; econstructor; eauto).
    clear R P. induction cs as [|[[key m] c] cs IHc]; cbn [map]; constructor.
    + cbn [fst snd]. split; auto. apply (IH (key, m, c)); [now left| |].
      * intros F. specialize (Pc (key, m, c) (or_introl eq_refl)). cbn [snd] in *. congruence.
      * intros x e. apply (Pn (key, m, c)). now left.
    + apply IHc; [intros e He; apply IH; now right|intros e He; apply Pc; now right|intros e x e' He; apply Pn; now right].
Qed.
(** What renaming does to every node of every tree, shared or not: a node in [m] places of its parent is renamed [m] times
    as often as the parent, and each time as many characters as the old name of the root has are replaced. *)
Theorem C30_all_trees : forall s ord v n t new, set_like ord -> from_data s ord v n = Ok t ->
  tname (rename new t) = new /\ Renamed (String.length n) new 1 t (rename new t).
Proof.
  intros s ord v n t new Ho H. split; [apply SeqFacts.rename_name|].
  assert (En : tname t = n) by (unfold from_data in H; destruct (is_compatible n); [|discriminate]; now apply TotalFacts.build_from_els in H).
  unfold rename. rewrite En. apply ren_Renamed; [intros _; split; [auto|now rewrite En]|]. intros x e Hx He. eapply bk_parent; eauto. now apply (C07_bookkeeping s ord v n t Ho H).
Qed.
Print Assumptions C30_all_trees.
(** The relation determines the result. *)
Lemma append_cut (a : string) : forall b c d, (a ++ b = c ++ d)%string -> String.length a = String.length c -> b = d.
Proof. induction a as [|x a IH]; intros b [|y c] d E L; try discriminate; auto. cbn in E, L. injection E as -> E. eapply IH; eauto. Qed.
Lemma Replaced_one size new k n : forall a b, Replaced size new k n a -> Replaced size new k n b -> a = b.
Proof.
  induction k as [|k IH]; intros a b H H'; inversion H as [|? ? o r P L]; inversion H' as [|? ? o' r' P' L']; subst; auto. f_equal.
  pose proof (IH _ _ P P') as E. assert (E' := f_equal String.length E). rewrite !length_app_s in E'.
  destruct L as [L|[L ->]], L' as [L'|[L' ->]]; auto.
  - eapply append_cut; eauto. congruence.
  - cbn in E'. lia.
  - cbn in E'. lia.
Qed.
Example C30_all_trees_example : exists t, from_data default_strategies as_inserted shared_value "Example" = Ok t /\
  Renamed 7 "Ab" 1 t (rename "Ab" t) /\ map (fun e => (snd (fst e), tname (snd e))) (tcs (rename "Ab" t)) = [(2, "Ab"); (2, "Ab")].
Proof.
  destruct (from_data default_strategies as_inserted shared_value "Example") as [t| |] eqn:E; [|vm_compute in E; discriminate..].
  exists t. split; auto. split; [apply (C30_all_trees _ _ _ _ _ "Ab" as_inserted_set_like E)|]. vm_compute in E. injection E as <-. vm_compute. reflexivity.
Qed.

(** ** C35 for all functions *)
Definition has_arrow (sig : string) : Prop := exists a b, sig = a ++ "->" ++ b.
Definition protocol (n sig result : string) : string := "class " ++ n ++ "(Protocol):" ++ String (ascii_of_nat 10) "    def __call__" ++ sig ++ result ++ ": ...".
(** The cases of the claim and the others: signatures that contain an arrow anywhere, functions whose source cannot be read and
    functions without a signature. *)
Theorem C35_all_functions : forall s ord f n t, from_data s ord (VFun f) n = Ok t ->
  (f_sig f = None -> declarations s t = Some [n ++ ": TypeAlias = Callable"]) /\
  (forall sig k, f_sig f = Some (sig, k) ->
    (f_lambda f = true -> declarations s t = Some [n ++ ": TypeAlias = Callable[[" ++ join ", " (repeat "Any" k) ++ "], Any]"]) /\
    (f_lambda f = false -> has_arrow sig -> declarations s t = Some [protocol n sig ""]) /\
    (f_lambda f = false -> ~ has_arrow sig ->
       declarations s t = match f_return f with Some true => Some [protocol n sig " -> Any"] | Some false => Some [protocol n sig " -> None"] | None => None end)).
Proof.
  intros s ord f n t H. rewrite (fun_declarations s ord f n t H). unfold function_top. split; [intros ->; reflexivity|]. intros sig k ->.
  assert (C : contains "->" sig = true <-> has_arrow sig) by apply occurs_contains.
  split; [intros ->; reflexivity|]. split; intros ->; intros A.
  - rewrite (proj2 C A). cbn [fst]. unfold protocol. now rewrite !app_assoc_s.
  - destruct (contains "->" sig); [exfalso; tauto|]. destruct (f_return f) as [[]|]; auto; cbn [fst]; unfold protocol; rewrite !app_assoc_s; reflexivity.
Qed.
Print Assumptions C35_all_functions.
Example C35_all_example : exists t, from_data default_strategies as_inserted (VFun (PyFun ty_fun false (Some ("(a, b: int)", 2)) (Some true))) "Example" = Ok t /\
  declarations default_strategies t = Some [protocol "Example" "(a, b: int)" " -> Any"].
Proof. eexists. split; [vm_compute; reflexivity|]. vm_compute; reflexivity. Qed.
