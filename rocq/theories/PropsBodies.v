(** C89: [remove_all_method_bodies]. *)
From Coq Require Import Ascii String List Bool Arith Lia.
From Verif Require Import PyStr PyStrFacts Exc PyFile Ast Bodies SpecBodies BodiesFacts.
Import ListNotations.
Local Open Scope string_scope.
Local Open Scope nat_scope.

Lemma part_trans_list l t : In t l -> forall x, part x t -> part x (AList l).
Proof. intros I x P. eapply part_list; eauto. Qed.

Lemma set_field_split k v ns nsa f nsb : ~ In k (map fst nsa) -> ns = (nsa ++ (k, f) :: nsb)%list ->
  set_field k v ns = (nsa ++ (k, v) :: nsb)%list.
Proof.
  intros N ->. induction nsa as [|[k' f'] nsa IH]; cbn.
  - now rewrite String.eqb_refl.
  - destruct (String.eqb k k') eqn:E.
    + apply String.eqb_eq in E as ->. exfalso. apply N. cbn. auto.
    + rewrite IH; auto. intros H. apply N. cbn. auto.
Qed.

(** The addresses that occur in a tree shown by a heap are in the heap. *)
Lemma shows_lt h t i : shows h t (FItem i) -> forall a, In a (of_item i) -> a < List.length h.
Proof.
  intros S a Ha. destruct i as [b|ty v]; cbn in Ha; [destruct Ha as [<-|[]]|contradiction].
  destruct t as [c fs|l|ty v]; try contradiction. apply shows_node in S as (ns & E & _). eapply nth_lt; eauto.
Qed.
Lemma shows_field_lt h t f : shows h t f -> forall a, In a (of_field f) -> a < List.length h.
Proof.
  destruct f as [i|is]; [apply shows_lt|]. destruct t as [c fs|l|ty v]; try contradiction. intros S. apply shows_list in S. cbn [of_field].
  intros a Ha. apply in_flat_map in Ha as (i & Hi & Ha). induction S as [|t i' l is S _ IH]; [contradiction|].
  destruct Hi as [->|Hi]; auto. eapply shows_lt; eauto.
Qed.

Section Result.
  Variables (h0 h : heap) (V : list nat).
  Hypothesis C : closed h0 h V [].

  Definition known (f : field) : Prop := forall a, In a (of_field f) -> In a V.
  Definition good (t : ast) : Prop := functions_have_bodies t -> forall f, shows h0 t f -> known f -> exists t', bare t t' /\ shows h t' f.

  Lemma fields_good fs ns : Forall (fun e => good (snd e)) fs -> (forall e, In e fs -> functions_have_bodies (snd e)) ->
    Forall2 (shows_field h0) fs ns -> (forall n, In n ns -> known (snd n)) ->
    exists fs', Forall2 (fun e e' => fst e = fst e' /\ bare (snd e) (snd e')) fs fs' /\ Forall2 (shows_field h) fs' ns.
  Proof.
    intros G B S. revert G B. induction S as [|[k t] [k' f] fs ns [K S0] _ IH]; intros G B W; [exists []; auto|].
    inversion G; subst. cbn in K, S0. subst k'.
    destruct IH as (fs' & B' & S'); auto.
    { intros e He. apply B. right. auto. } { intros n Hn. apply W. right. auto. }
    destruct (H1 (B (k, t) (or_introl eq_refl)) f S0 (W (k, f) (or_introl eq_refl))) as (t' & Bt & St).
    exists ((k, t') :: fs'). split; constructor; auto; split; auto.
  Qed.

  Lemma all_good t : good t.
  Proof.
    destruct C as [R CV]. induction t as [ty v|l IH|c fs IH] using tree_nested; intros B f S K.
    - destruct f as [[a|ty' v']|is]; try contradiction. exists (AConst ty v). split; [constructor|exact S].
    - destruct f as [i|is]; [destruct i; contradiction|]. apply shows_list in S.
      assert (E : exists l', Forall2 bare l l' /\ Forall2 (fun t i => shows h t (FItem i)) l' is).
      { assert (Bl : forall t, In t l -> functions_have_bodies t) by (intros t Ht fs P; apply B; eapply part_list; eauto).
        assert (Kl : forall i, In i is -> known (FItem i)).
        { intros i Hi a Ha. apply K. cbn. apply in_flat_map. exists i. split; auto. }
        clear B K. revert IH Bl Kl. induction S as [|t i l is S0 _ IHS]; intros IH Bl Kl; [exists []; auto|].
        inversion IH; subst. destruct IHS as (l' & B' & S'); auto.
        { intros x Hx. apply Bl. right. auto. } { intros x Hx. apply Kl. right. auto. }
        destruct (H1 (Bl t (or_introl eq_refl)) (FItem i) S0 (Kl i (or_introl eq_refl))) as (t' & Bt & St).
        exists (t' :: l'). split; constructor; auto. }
      destruct E as (l' & B' & S'). exists (AList l'). split; [now constructor|]. now apply shows_list.
    - destruct f as [[a|ty' v']|is]; try contradiction. apply shows_node in S as (ns & E & F).
      assert (Va : In a V) by (apply K; cbn; auto).
      assert (Bf : forall e, In e fs -> functions_have_bodies (snd e)).
      { intros [k t] He gs P. apply B. eapply part_node; eauto. }
      destruct (CV a _ Va E) as [Rep Ch].
      assert (Old : forall n, In n ns -> forall b, In b (of_field (snd n)) -> b < List.length h0).
      { intros n Hn b Hb. clear - F Hn Hb. induction F as [|e m fs ns [_ S] _ IHF]; [contradiction|].
        destruct Hn as [->|Hn]; auto. eapply shows_field_lt; eauto. }
      destruct (String.eqb c "FunctionDef") eqn:Ec.
      + apply String.eqb_eq in Ec as ->.
        destruct (Rep eq_refl) as (_ & e & Le & Eh).
        destruct (B fs (part_here _)) as [ND Ib].
        apply in_map_iff in Ib as ([k body] & Ek & Ib). cbn in Ek. subst k.
        apply in_split in Ib as (above & below & ->).
        rewrite map_app in ND. cbn in ND.
        assert (Na : ~ In "body" (map fst above)) by (intros H; apply NoDup_remove_2 in ND; apply ND, in_or_app; auto).
        apply Forall2_app_inv_l in F as (nsa & nsr & Fa & Fr & ->). inversion Fr as [|e0 [k' fb] l0 nsb [K1 K2] Fb]; subst. cbn in K1. subst k'.
        assert (Nn : ~ In "body" (map fst nsa)).
        { intros H. apply Na. clear - Fa H. induction Fa as [|x y xs ys [Q _] _ IHF]; cbn in *; [contradiction|]. destruct H as [H|H]; [left; congruence|auto]. }
        unfold emptied in Eh. cbn [n_class n_fields] in Eh. rewrite (set_field_split _ _ _ _ _ _ Nn eq_refl) in Eh.
        specialize (Ch _ Eh). unfold child_nodes in Ch. cbn [n_fields] in Ch.
        assert (Kx : forall n, In n nsa \/ In n nsb -> known (snd n)).
        { intros n Hn b Hb. destruct (Ch b) as [H|[[]|H]]; auto.
          - rewrite flat_map_app. apply in_or_app. destruct Hn as [Hn|Hn]; [left|right; cbn [flat_map]; apply in_or_app; right];
              apply in_flat_map; exists n; auto.
          - exfalso. assert (b < List.length h0); [|lia]. eapply (Old n); eauto. apply in_or_app. cbn. tauto. }
        apply Forall_app in IH as [IHa IHr]. inversion IHr; subst.
        destruct (fields_good above nsa) as (above' & Ba & Sa); auto. { intros x Hx. apply Bf, in_or_app. auto. }
        destruct (fields_good below nsb) as (below' & Bb & Sb); auto. { intros x Hx. apply Bf, in_or_app. cbn. auto. }
        exists (ANode "FunctionDef" (above' ++ ("body", dots) :: below')). split; [now constructor|].
        apply shows_node. eexists. split; [exact Eh|]. apply Forall2_app; auto. constructor; auto. split; auto. cbn [snd].
        apply shows_list. constructor; [|constructor]. apply shows_node. destruct R as (_ & N & _).
        eexists. split; [apply N; lia|]. constructor; [|constructor]. split; cbn; auto.
      + assert (Eh : nth_error h a = Some (Node c ns)).
        { destruct R as (_ & _ & O). destruct (O a _ E) as [H|(H & _)]; auto. unfold is_function in H. cbn in H. congruence. }
        specialize (Ch _ Eh).
        destruct (fields_good fs ns) as (fs' & Bs & Ss); auto.
        { intros n Hn b Hb. destruct (Ch b) as [H|[[]|H]]; auto.
          - unfold child_nodes. apply in_flat_map. exists n. auto.
          - exfalso. assert (b < List.length h0); [|lia]. eapply (Old n); eauto. }
        exists (ANode c fs'). split; [constructor; auto; intros ->; discriminate Ec|]. apply shows_node. eauto.
  Qed.
End Result.

(** ** C89, partial: the whole effect.  For every heap and tree in it (also with shared nodes), the loop ends, and then the root shows the
    tree with three dots as the body of every function and nothing else changed.  The claim is false for asynchronous functions, see below. *)
Theorem C89_bodies_partial : forall h root t,
  shows h t (FItem (INode root)) -> functions_have_bodies t ->
  exists t' least, bare t t' /\ forall fuel, least <= fuel ->
    exists h', walk fuel h [root] = Val h' /\ shows h' t' (FItem (INode root)).
Proof.
  intros h root t Sh B.
  assert (C0 : closed h h [] [root]). { split; [apply rewritten_refl|]. intros a n []. }
  assert (K : Forall2 (cost h (List.length h)) [root] [weight t]). { constructor; [|constructor]. left. eauto. }
  assert (W : forall fuel, S (weight t) <= fuel -> exists h' V, walk fuel h [root] = Val h' /\ closed h h' V [] /\ In root V).
  { intros fuel L. destruct (walk_closed h fuel h [] [root] [weight t] C0 K) as (h' & V & E & C & I & _); [cbn; lia|].
    exists h', V. split; auto. split; auto. apply I. left. auto. }
  destruct (W (S (weight t)) (le_n _)) as (h1 & V1 & E1 & C1 & I1).
  destruct (all_good h h1 V1 C1 t B _ Sh) as (t' & Bt & St). { intros a [<-|[]]. auto. }
  exists t', (S (weight t)). split; auto. intros fuel L. exists h1. split; auto.
  clear - E1 L. revert fuel L E1. generalize (S (weight t)) as m. intros m. generalize [root] as q. revert h.
  induction m as [|m IH]; intros h q fuel L E; [discriminate|]. destruct fuel as [|fuel]; [lia|]. cbn [walk] in *.
  destruct q as [|a q]; auto. destruct (nth_error h a); auto. apply IH; auto. lia.
Qed.
Print Assumptions C89_bodies_partial.

(** The result is determined by the tree ... *)
Lemma bare_unique : forall t, functions_have_bodies t -> forall a b, bare t a -> bare t b -> a = b.
Proof.
  assert (Fields : forall fs : list (string * ast), Forall (fun e => functions_have_bodies (snd e) -> forall a b, bare (snd e) a -> bare (snd e) b -> a = b) fs ->
    (forall e, In e fs -> functions_have_bodies (snd e)) -> forall gs hs : list (string * ast),
    Forall2 (fun e e' => fst e = fst e' /\ bare (snd e) (snd e')) fs gs -> Forall2 (fun e e' => fst e = fst e' /\ bare (snd e) (snd e')) fs hs -> gs = hs).
  { intros fs F. induction F as [|e fs H F IH]; intros B gs hs G H'; inversion G; subst; inversion H'; subst; auto.
    destruct H2 as [K1 B1], H3 as [K2 B2]. f_equal; [|apply IH; auto; intros x Hx; apply B; right; auto].
    destruct y as [k t], y0 as [k' t']. cbn in *. f_equal; [congruence|]. eapply H; eauto. }
  induction t as [ty v|l IH|c fs IH] using tree_nested; intros B a b Ha Hb.
  - inversion Ha; inversion Hb; subst. auto.
  - inversion Ha as [|l0 l1 F1| |]; inversion Hb as [|l2 l3 F2| |]; subst. f_equal.
    assert (Bl : forall t, In t l -> functions_have_bodies t) by (intros t Ht gs P; apply B; eapply part_list; eauto).
    clear Ha Hb B. revert l1 l3 F1 F2 Bl. induction IH as [|t l H _ IHl]; intros l1 l3 F1 F2 Bl; inversion F1; subst; inversion F2; subst; auto.
    f_equal; [apply H; auto; apply Bl; left; auto|]. apply IHl; auto. intros x Hx. apply Bl. right. auto.
  - assert (Bf : forall e, In e fs -> functions_have_bodies (snd e)). { intros [k t] He gs P. apply B. eapply part_node; eauto. }
    destruct (string_dec c "FunctionDef") as [->|N].
    + destruct (B fs (part_here _)) as [ND _].
      inversion Ha as [| |c0 x y N0 F0|above body below above' below' Fa Fb]; subst; [congruence|].
      inversion Hb as [| |c0 x y N0 F0|above2 body2 below2 above2' below2' Fa2 Fb2 E]; subst; [congruence|].
      assert (Eq : above2 = above /\ body2 = body /\ below2 = below).
      { clear - ND E. revert above2 E. induction above as [|[k t] above IH]; intros [|[k2 t2] above2] E; cbn in E; injection E as E1 E2.
        - subst. repeat split; congruence.
        - subst. exfalso. cbn in ND. apply NoDup_cons_iff in ND as [ND _]. apply ND. rewrite map_app. apply in_or_app. right. left. auto.
        - subst. exfalso. cbn in ND. apply NoDup_cons_iff in ND as [ND _]. apply ND. rewrite map_app. apply in_or_app. right. left. auto.
        - subst. cbn in ND. apply NoDup_cons_iff in ND as [_ ND]. destruct (IH ND above2) as (-> & -> & ->); auto. }
      destruct Eq as (-> & -> & ->). apply Forall_app in IH as [IHa IHr]. inversion IHr; subst.
      assert (above' = above2'). { eapply (Fields above); eauto. intros e He. apply Bf, in_or_app. auto. }
      assert (below' = below2'). { eapply (Fields below); eauto. intros e He. apply Bf, in_or_app. cbn. auto. }
      congruence.
    + inversion Ha; subst; [|congruence]. inversion Hb; subst; [|congruence]. f_equal. eapply Fields; eauto.
Qed.

(** ... every function in it has the new body (statements that are no functions are as before) ... *)
Lemma bare_functions : forall t t', bare t t' -> forall fs, part (ANode "FunctionDef" fs) t' -> In ("body", dots) fs.
Proof.
  induction t as [ty v|l IH|c fs IH] using tree_nested; intros t' Bt gs P.
  - inversion Bt; subst. inversion P.
  - inversion Bt as [|l0 l' F| |]; subst. inversion P as [|x t l1 I Q|]; subst. clear Bt P.
    revert IH. induction F as [|u u' l l' Bu F IHF]; intros IH; [contradiction|]. inversion IH; subst. destruct I as [->|I]; eauto.
  - assert (Fields : forall fs fs' : list (string * ast), Forall (fun e => forall t', bare (snd e) t' -> forall gs, part (ANode "FunctionDef" gs) t' -> In ("body", dots) gs) fs ->
      Forall2 (fun e e' => fst e = fst e' /\ bare (snd e) (snd e')) fs fs' -> forall k t, In (k, t) fs' -> part (ANode "FunctionDef" gs) t -> In ("body", dots) gs).
    { clear. intros fs fs' G F k t I Q. induction F as [|e e' fs fs' [_ Be] F IHF]; [contradiction|]. inversion G; subst.
      destruct I as [->|I]; eauto. }
    inversion Bt as [| |c0 x fs' N F|above body below above' below' Fa Fb]; subst.
    + inversion P as [|  |x k t c1 fs1 I Q]; subst; [congruence|]. eauto.
    + apply Forall_app in IH as [IHa IHr]. inversion IHr; subst.
      inversion P as [| |x k t c1 fs1 I Q]; subst; [apply in_or_app; right; left; auto|].
      apply in_app_or in I as [I|[I|I]].
      * eapply (Fields above); eauto.
      * injection I as <- <-. exfalso. clear - Q. unfold dots in Q.
        inversion Q as [|x t l I R|]; subst. destruct I as [<-|[]]. inversion R as [| |x k t c fs I R']; subst. destruct I as [I|[]]. injection I as <- <-. inversion R'.
      * eapply (Fields below); eauto.
Qed.

(** ... and so the lines of the file are those of the printed result, if the text of a tree depends on nothing but the tree.  An exception of the parser passes. *)
Theorem C89_lines_partial : forall parse unparse (print : ast -> string) lines,
  (forall h root t, shows h t (FItem (INode root)) -> unparse h root = print t) ->
  match parse (py_str lines) with
  | Val (h, root) => forall t, shows h t (FItem (INode root)) -> functions_have_bodies t ->
      exists t' least, bare t t' /\ (forall t'', bare t t'' -> t'' = t') /\
        (forall fs, part (ANode "FunctionDef" fs) t' -> In ("body", dots) fs) /\
        forall fuel, least <= fuel -> remove_all_method_bodies parse unparse fuel lines = Val (splitlines (strip (print t')))
  | Raise e => forall fuel, remove_all_method_bodies parse unparse fuel lines = Raise e
  | NoFuel => True
  end.
Proof.
  intros parse unparse print lines U. destruct (parse (py_str lines)) as [[h root]|e|] eqn:E; auto.
  - intros t Sh B. destruct (C89_bodies_partial h root t Sh B) as (t' & least & Bt & W). exists t', least. split; auto.
    split; [intros t'' Bt'; eapply bare_unique; eauto|]. split; [apply (bare_functions t); auto|].
    intros fuel L. unfold remove_all_method_bodies. rewrite E. cbn [andthen fst snd]. destruct (W fuel L) as (h' & -> & Sh'). cbn [andthen]. now rewrite (U _ _ _ Sh').
  - intros fuel. unfold remove_all_method_bodies. rewrite E. reflexivity.
Qed.
Print Assumptions C89_lines_partial.

(** ** The sample: a class with a method that contains a function, decorated by an expression shared with an asynchronous method. *)
Definition method (cls : string) (body : list item) : node :=
  Node cls [("name", FItem (IConst "str" "f")); ("body", FList body); ("decorator_list", FList [INode 1])].
Definition sample : heap :=
  [Node "Module" [("body", FList [INode 2])];
   Node "Name" [("id", FItem (IConst "str" "final"))];
   Node "ClassDef" [("name", FItem (IConst "str" "A")); ("body", FList [INode 3; INode 4])];
   method "FunctionDef" [INode 5; INode 6];
   method "AsyncFunctionDef" [INode 6];
   method "FunctionDef" [INode 6];
   Node "Pass" []].
Definition tree_method (cls : string) (body : ast) : ast :=
  ANode cls [("name", AConst "str" "f"); ("body", body); ("decorator_list", AList [ANode "Name" [("id", AConst "str" "final")]])].
Definition tree_of (body : ast) : ast :=
  ANode "Module" [("body", AList [ANode "ClassDef" [("name", AConst "str" "A");
    ("body", AList [tree_method "FunctionDef" body; tree_method "AsyncFunctionDef" (AList [ANode "Pass" []])])]])].
Definition sample_tree : ast := tree_of (AList [tree_method "FunctionDef" (AList [ANode "Pass" []]); ANode "Pass" []]).

Lemma sample_shown : shows sample sample_tree (FItem (INode 0)).
Proof.
  repeat first [apply (proj2 (shows_node _ _ _ _)); eexists; split; [reflexivity|] | apply (proj2 (shows_list _ _ _)) | apply Forall2_cons | apply Forall2_nil
               | split; [reflexivity|]; cbn [snd] | split; reflexivity].
Qed.
Lemma bodies_const ty v : functions_have_bodies (AConst ty v).
Proof. intros fs P. inversion P. Qed.
Lemma bodies_list l : Forall functions_have_bodies l -> functions_have_bodies (AList l).
Proof. intros F fs P. inversion P as [|x t l' I Q|]; subst. rewrite Forall_forall in F. eapply F; eauto. Qed.
Lemma bodies_node c fs : (c = "FunctionDef" -> NoDup (map fst fs) /\ In "body" (map fst fs)) -> Forall (fun e => functions_have_bodies (snd e)) fs ->
  functions_have_bodies (ANode c fs).
Proof.
  intros H F gs P. inversion P as [| |x k t c' fs' I Q]; subst; auto. rewrite Forall_forall in F. eapply (F (k, t)); eauto.
Qed.
Lemma sample_bodies : functions_have_bodies sample_tree.
Proof.
  unfold sample_tree, tree_of, tree_method.
  repeat first [apply bodies_const | apply bodies_list
               | apply bodies_node; [first [discriminate|intros _; cbn; split; [repeat constructor; cbn; intuition discriminate|auto]]|]
               | apply Forall_cons; cbn [snd] | apply Forall_nil].
Qed.

(** The inner function is gone, the decorators stay. *)
Example C89_example : shows sample sample_tree (FItem (INode 0)) /\ functions_have_bodies sample_tree /\ bare sample_tree (tree_of dots) /\
  exists h', walk 100 sample [0] = Val h' /\ shows h' (tree_of dots) (FItem (INode 0)).
Proof.
  split; [exact sample_shown|]. split; [exact sample_bodies|].
  assert (B' : bare sample_tree (tree_of dots)).
  { unfold sample_tree, tree_of, tree_method.
    repeat first [apply bare_const | apply bare_list
                 | apply (bare_function [("name", _)] _ [("decorator_list", _)] [("name", _)] [("decorator_list", _)])
                 | apply bare_node; [discriminate|] | apply Forall2_cons | apply Forall2_nil | split; [reflexivity|]; cbn [snd]]. }
  split; auto.
  eexists. split; [vm_compute; reflexivity|].
  repeat first [apply (proj2 (shows_node _ _ _ _)); eexists; split; [reflexivity|] | apply (proj2 (shows_list _ _ _)) | apply Forall2_cons | apply Forall2_nil
               | split; [reflexivity|]; cbn [snd] | split; reflexivity].
Qed.

(** ** C89 as stated is false: an asynchronous function keeps its body. *)
Theorem C89_bodies_refuted : exists h root h' body,
  nth_error h root = Some (Node "AsyncFunctionDef" [("body", FList [INode body])]) /\ nth_error h body = Some (Node "Pass" []) /\
  (forall fuel, 3 <= fuel -> walk fuel h [root] = Val h') /\ h' = h.
Proof.
  exists [Node "AsyncFunctionDef" [("body", FList [INode 1])]; Node "Pass" []], 0, [Node "AsyncFunctionDef" [("body", FList [INode 1])]; Node "Pass" []], 1.
  repeat split; auto. intros [|[|[|fuel]]] L; try lia. reflexivity.
Qed.
Print Assumptions C89_bodies_refuted.
