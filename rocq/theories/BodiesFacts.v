(** How [walk] goes through a heap. *)
From Coq Require Import Ascii String List Bool Arith Lia.
From Verif Require Import PyStr PyStrFacts Exc Ast Bodies SpecBodies.
Import ListNotations.
Local Open Scope string_scope.
Local Open Scope nat_scope.

Lemma tree_nested (P : ast -> Prop) : (forall t v, P (AConst t v)) -> (forall l, Forall P l -> P (AList l)) ->
  (forall c fs, Forall (fun e => P (snd e)) fs -> P (ANode c fs)) -> forall n, P n.
Proof.
  intros Hc Hl Hn. fix IH 1. intros [c fs|l|t v].
  - apply Hn. induction fs as [|[k v] fs I]; constructor; auto.
  - apply Hl. induction l as [|x l I]; constructor; auto.
  - apply Hc.
Qed.

Definition shows_field (h : heap) (e : string * ast) (n : string * field) : Prop := fst e = fst n /\ shows h (snd e) (snd n).
Lemma shows_node h c fs a : shows h (ANode c fs) (FItem (INode a)) <->
  exists ns, nth_error h a = Some (Node c ns) /\ Forall2 (shows_field h) fs ns.
Proof.
  cbn [shows]. split; intros (ns & E & H); exists ns; split; auto; clear E.
  - revert ns H. induction fs as [|[k t] fs IH]; intros [|[k' f] ns] H; try contradiction; constructor.
    + split; apply H.
    + apply IH, H.
  - revert ns H. induction fs as [|[k t] fs IH]; intros ns H; inversion H; subst; auto.
    destruct y as [k' f]. destruct H2 as [A B]. cbn in A, B. split; [exact A|]. split; [exact B|]. apply IH. assumption.
Qed.
Lemma shows_list h l is : shows h (AList l) (FList is) <-> Forall2 (fun t i => shows h t (FItem i)) l is.
Proof.
  cbn [shows]. split; revert is; induction l as [|t l IH]; intros [|i is] H.
  all: try contradiction. all: try (constructor; fail). all: try (inversion H; fail).
  - constructor; [exact (proj1 H)|]. apply IH. exact (proj2 H).
  - inversion H; subst. split; [assumption|]. apply IH. assumption.
Qed.

(** ** The heap while it is rewritten *)
Definition emptied (n : node) (e : nat) : node := Node (n_class n) (set_field "body" (FList [INode e]) (n_fields n)).
Definition replaced (h0 h : heap) (a : nat) (n : node) : Prop :=
  is_function n = true /\ exists e, List.length h0 <= e < List.length h /\ nth_error h a = Some (emptied n e).
Definition rewritten (h0 h : heap) : Prop :=
  List.length h0 <= List.length h /\
  (forall a, List.length h0 <= a < List.length h -> nth_error h a = Some new_ellipsis) /\
  (forall a n, nth_error h0 a = Some n -> nth_error h a = Some n \/ replaced h0 h a n).

Lemma set_field_twice k v w fs : set_field k v (set_field k w fs) = set_field k v fs.
Proof.
  induction fs as [|[n x] fs IH]; cbn.
  - now rewrite String.eqb_refl.
  - destruct (String.eqb k n) eqn:E; cbn; rewrite E; congruence.
Qed.
Lemma emptied_twice n e e' : emptied (emptied n e) e' = emptied n e'.
Proof. unfold emptied. cbn. now rewrite set_field_twice. Qed.
Lemma nth_set_same {A} (l : list A) a x : a < List.length l -> nth_error (set_nth a x l) a = Some x.
Proof. revert a. induction l as [|y l IH]; intros [|a]; cbn; intros; try lia; auto. apply IH. lia. Qed.
Lemma nth_set_other {A} (l : list A) a b x : a <> b -> nth_error (set_nth a x l) b = nth_error l b.
Proof. revert a b. induction l as [|y l IH]; intros [|a] [|b]; cbn; intros; try lia; auto. Qed.
Lemma set_nth_len {A} (l : list A) a x : List.length (set_nth a x l) = List.length l.
Proof. revert a. induction l as [|y l IH]; intros [|a]; cbn; auto. Qed.

Lemma empty_body_length a n h : List.length (empty_body a n h) = S (List.length h).
Proof. unfold empty_body. rewrite app_length, set_nth_len. cbn. lia. Qed.
Lemma empty_body_here a n h : a < List.length h -> nth_error (empty_body a n h) a = Some (emptied n (List.length h)).
Proof. intros H. unfold empty_body. rewrite nth_error_app1 by (rewrite set_nth_len; auto). now apply nth_set_same. Qed.
Lemma empty_body_there a n h b : a <> b -> b < List.length h -> nth_error (empty_body a n h) b = nth_error h b.
Proof. intros N H. unfold empty_body. rewrite nth_error_app1 by (rewrite set_nth_len; auto). now apply nth_set_other. Qed.
Lemma empty_body_new a n h : nth_error (empty_body a n h) (List.length h) = Some new_ellipsis.
Proof. unfold empty_body. rewrite nth_error_app2 by (rewrite set_nth_len; auto). now rewrite set_nth_len, Nat.sub_diag. Qed.

Lemma nth_lt {A} (l : list A) a x : nth_error l a = Some x -> a < List.length l.
Proof. intros E. apply nth_error_Some. congruence. Qed.

Lemma rewritten_refl h : rewritten h h.
Proof. repeat split; auto; intros; lia. Qed.
Lemma function_emptied n e : is_function (emptied n e) = is_function n.
Proof. reflexivity. Qed.

(** A function of the first heap is replaced, others stay. *)
Lemma rewritten_step h0 h a n : rewritten h0 h -> nth_error h a = Some n -> is_function n = true ->
  rewritten h0 (empty_body a n h) /\ (forall n0, nth_error h0 a = Some n0 -> replaced h0 (empty_body a n h) a n0).
Proof.
  intros (L & N & O) E F.
  assert (La := nth_lt _ _ _ E).
  assert (R : forall n0, nth_error h0 a = Some n0 -> replaced h0 (empty_body a n h) a n0).
  { intros n0 E0. destruct (O a n0 E0) as [Q|(F0 & e & Le & Q)]; rewrite E in Q; injection Q as ->.
    - split; auto. exists (List.length h). rewrite empty_body_length. split; [lia|]. now apply empty_body_here.
    - split; auto. exists (List.length h). rewrite empty_body_length. split; [lia|].
      rewrite empty_body_here by auto. now rewrite emptied_twice. }
  split; auto. repeat split.
  - rewrite empty_body_length. lia.
  - intros b Hb. rewrite empty_body_length in Hb. destruct (Nat.eq_dec b (List.length h)) as [->|]; [apply empty_body_new|].
    destruct (Nat.eq_dec a b) as [->|D].
    + rewrite N in E by lia. injection E as <-. discriminate F.
    + rewrite empty_body_there by (auto; lia). apply N. lia.
  - intros b m E0. destruct (Nat.eq_dec a b) as [->|D]; [right; auto|].
    destruct (O b m E0) as [Q|(F0 & e & Le & Q)]; assert (Lb := nth_lt _ _ _ Q).
    + left. rewrite empty_body_there; auto.
    + right. split; auto. exists e. rewrite empty_body_length. split; [lia|]. rewrite empty_body_there; auto.
Qed.

(** ** Children *)
Lemma children_set e fs b : In b (flat_map (fun f => of_field (snd f)) (set_field "body" (FList [INode e]) fs)) ->
  b = e \/ In b (flat_map (fun f => of_field (snd f)) fs).
Proof.
  induction fs as [|[k f] fs IH].
  - cbn. intros [->|[]]. auto.
  - cbn [set_field]. destruct (String.eqb "body" k) eqn:E; cbn [flat_map snd]; rewrite !in_app_iff.
    + cbn. intros [[->|[]]|H]; auto.
    + intros [H|H]; auto. destruct (IH H); auto.
Qed.
Lemma children_emptied n e b : In b (child_nodes (emptied n e)) -> b = e \/ In b (child_nodes n).
Proof. apply children_set. Qed.

(** ** Invariant of the loop: what was visited is replaced and its children are visited or waiting *)
Definition closed (h0 h : heap) (V Q : list nat) : Prop :=
  rewritten h0 h /\
  forall a n, In a V -> nth_error h0 a = Some n ->
    (is_function n = true -> replaced h0 h a n) /\
    forall m, nth_error h a = Some m -> forall b, In b (child_nodes m) -> In b V \/ In b Q \/ List.length h0 <= b.

(** ** Termination *)
Definition total (l : list nat) : nat := fold_right plus 0 l.
Lemma total_app a b : total (a ++ b) = total a + total b.
Proof. unfold total. induction a as [|x a IH]; cbn; auto. rewrite IH. lia. Qed.
Fixpoint weight (t : ast) : nat :=
  match t with
  | AConst _ _ => 0
  | AList l => total (map weight l)
  | ANode c fs => (if String.eqb c "FunctionDef" then 2 else 1) + total (map (fun e => weight (snd e)) fs)
  end.
Definition cost (h0 : heap) (limit a k : nat) : Prop :=
  (exists t, shows h0 t (FItem (INode a)) /\ weight t = k) \/ (List.length h0 <= a < limit /\ k = 1).
Lemma cost_mono h0 l l' a k : l <= l' -> cost h0 l a k -> cost h0 l' a k.
Proof. intros L [H|[H ->]]; [left; auto|right; split; auto; lia]. Qed.
Lemma costs_mono h0 l l' q ks : l <= l' -> Forall2 (cost h0 l) q ks -> Forall2 (cost h0 l') q ks.
Proof. intros L. induction 1; constructor; auto. eapply cost_mono; eauto. Qed.

Definition affordable (h0 : heap) (limit : nat) (q : list nat) (s : nat) : Prop := exists ks, Forall2 (cost h0 limit) q ks /\ total ks <= s.
Lemma affordable_app h0 l p q s s' : affordable h0 l p s -> affordable h0 l q s' -> affordable h0 l (p ++ q) (s + s').
Proof.
  intros (ks & H & L) (ks' & H' & L'). exists (ks ++ ks')%list. split; [now apply Forall2_app|]. rewrite total_app. lia.
Qed.
Lemma affordable_nil h0 l s : affordable h0 l [] s.
Proof. exists []. split; [constructor|cbn; lia]. Qed.
Lemma affordable_le h0 l q s s' : s <= s' -> affordable h0 l q s -> affordable h0 l q s'.
Proof. intros L (ks & H & T). exists ks. split; auto. lia. Qed.

Lemma item_affordable h0 l t i : shows h0 t (FItem i) -> affordable h0 l (of_item i) (weight t).
Proof.
  destruct i as [a|ty v]; cbn [of_item]; intros H; [|apply affordable_nil].
  exists [weight t]. split; [|cbn; lia]. constructor; [|constructor]. left. eauto.
Qed.
Lemma field_affordable h0 l t f : shows h0 t f -> affordable h0 l (of_field f) (weight t).
Proof.
  destruct f as [i|is]; cbn [of_field]; [apply item_affordable|].
  intros H. destruct t as [c fs|ts|ty v]; try contradiction. apply shows_list in H. cbn [weight].
  induction H as [|t i ts is H _ IH]; cbn; [apply affordable_nil|].
  apply affordable_app; auto. now apply item_affordable.
Qed.
Lemma fields_affordable h0 l fs ns : Forall2 (shows_field h0) fs ns ->
  affordable h0 l (flat_map (fun f => of_field (snd f)) ns) (total (map (fun e => weight (snd e)) fs)).
Proof.
  induction 1 as [|e n fs ns [_ H] _ IH]; cbn; [apply affordable_nil|]. apply affordable_app; auto. now apply field_affordable.
Qed.
Lemma set_affordable h0 l e fs ns : List.length h0 <= e < l -> Forall2 (shows_field h0) fs ns ->
  affordable h0 l (flat_map (fun f => of_field (snd f)) (set_field "body" (FList [INode e]) ns)) (S (total (map (fun e => weight (snd e)) fs))).
Proof.
  intros L H. assert (One : affordable h0 l [e] 1).
  { exists [1]. split; [|cbn; lia]. constructor; [|constructor]. right. auto. }
  induction H as [|x n fs ns [_ H] F IH]; [apply One|].
  destruct n as [k f]. cbn [set_field map snd]. cbn [total fold_right]. destruct (String.eqb "body" k); cbn [flat_map snd].
  - change (of_field (FList [INode e])) with [e].
    apply affordable_le with (s := 1 + total (map (fun e => weight (snd e)) fs)); [unfold total; lia|].
    apply affordable_app; auto. now apply fields_affordable.
  - apply affordable_le with (s := weight (snd x) + S (total (map (fun e => weight (snd e)) fs))); [unfold total; lia|].
    apply affordable_app; auto. now apply field_affordable.
Qed.

(** One round. *)
Lemma visit h0 h V Q a k : closed h0 h V (a :: Q) -> cost h0 (List.length h) a k ->
  exists n, nth_error h a = Some n /\
    let h' := if is_function n then empty_body a n h else h in
    closed h0 h' (a :: V) (Q ++ child_nodes n) /\ List.length h <= List.length h' /\
    affordable h0 (List.length h) (child_nodes n) (k - 1) /\ 1 <= k.
Proof.
  intros [R C] K.
  assert (Ex : exists n, nth_error h a = Some n /\ affordable h0 (List.length h) (child_nodes n) (k - 1) /\ 1 <= k).
  { destruct R as (L & N & O). destruct K as [(t & S & W)|[La ->]].
    - destruct t as [c fs|l|ty v]; try contradiction. apply shows_node in S as (ns & E & F). cbn [weight] in W.
      destruct (O _ _ E) as [E'|(Fn & e & Le & E')].
      + exists (Node c ns). split; auto. split; [|destruct (String.eqb c "FunctionDef"); lia].
        eapply affordable_le; [|apply fields_affordable; eauto]. destruct (String.eqb c "FunctionDef"); lia.
      + eexists. split; [exact E'|]. unfold is_function in Fn. cbn [n_class] in Fn. rewrite Fn in W. split; [|lia].
        unfold child_nodes, emptied. cbn [n_fields]. eapply affordable_le; [|apply set_affordable; eauto]. lia.
    - exists new_ellipsis. split; auto. split; auto. apply affordable_nil. }
  destruct Ex as (n & E & A & P). exists n. split; auto. cbv zeta. split; [|split; [|auto]].
  2: destruct (is_function n); [rewrite empty_body_length|]; lia.
  destruct (is_function n) eqn:F.
  - destruct (rewritten_step _ _ _ _ R E F) as [R' Ra]. split; auto. intros b m [<-|Hb] E0.
    + split; [intros _; apply Ra; exact E0|]. intros m' E'. rewrite empty_body_here in E' by (eapply nth_lt; eauto). injection E' as <-.
      intros b Hb. apply children_emptied in Hb as [->|Hb].
      * right. right. destruct R as (L & _). lia.
      * right. left. apply in_or_app. auto.
    + destruct (Nat.eq_dec a b) as [->|D].
      * split; [intros _; apply Ra; exact E0|]. intros m' E'. rewrite empty_body_here in E' by (eapply nth_lt; eauto). injection E' as <-.
        intros x Hx. apply children_emptied in Hx as [->|Hx].
        -- right. right. destruct R as (L & _). lia.
        -- right. left. apply in_or_app. auto.
      * destruct (C b m Hb E0) as [Rb Cb]. split.
        -- intros Fb. destruct (Rb Fb) as (_ & e & Le & Eb). split; auto. exists e. rewrite empty_body_length. split; [lia|].
           rewrite empty_body_there; auto. eapply nth_lt; eauto.
        -- intros m' E' x Hx.
           assert (Lb : b < List.length h). { destruct R as (L & _). apply nth_lt in E0. lia. }
           rewrite empty_body_there in E' by auto. rewrite in_app_iff. cbn [In]. destruct (Cb m' E' x Hx) as [H|[[<-|H]|H]]; tauto.
  - split; auto. intros b m Hb E0.
    assert (Case : b = a \/ b <> a) by lia. destruct Case as [->|D].
    + split.
      * intros Fm. destruct R as (L & N & O). destruct (O a m E0) as [Q'|Q']; auto. rewrite E in Q'. injection Q' as ->. congruence.
      * intros m' E' x Hx. rewrite E in E'. injection E' as <-. right. left. apply in_or_app. auto.
    + destruct Hb as [Hb|Hb]; [congruence|]. destruct (C b m Hb E0) as [Rb Cb]. split; auto.
      intros m' E' x Hx. rewrite in_app_iff. cbn [In]. destruct (Cb m' E' x Hx) as [H|[[<-|H]|H]]; tauto.
Qed.

Lemma walk_closed h0 fuel : forall h V Q ks, closed h0 h V Q -> Forall2 (cost h0 (List.length h)) Q ks -> total ks < fuel ->
  exists h' V', walk fuel h Q = Val h' /\ closed h0 h' V' [] /\ incl Q V' /\ incl V V'.
Proof.
  induction fuel as [|fuel IH]; intros h V Q ks C K L; [lia|]. cbn [walk].
  destruct Q as [|a Q].
  - exists h, V. split; auto. split; auto. split; intros x Hx; auto. contradiction.
  - inversion K; subst. rename y into k. rename l' into ks'.
    destruct (visit _ _ _ _ _ _ C H1) as (n & E & C' & Lh & (kc & Kc & Tc) & P). rewrite E.
    set (h' := if is_function n then empty_body a n h else h) in *.
    destruct (IH h' (a :: V) (Q ++ child_nodes n)%list (ks' ++ kc)%list) as (h'' & V' & W & C'' & I & I').
    + exact C'.
    + apply Forall2_app; eapply costs_mono; eauto.
    + rewrite total_app. cbn in L. unfold total in *. lia.
    + exists h'', V'. split; auto. split; auto. split.
      * intros x [<-|Hx]; [apply I'; left; auto|]. apply I. apply in_or_app. auto.
      * intros x Hx. apply I'. right. auto.
Qed.
