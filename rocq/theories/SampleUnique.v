(** Decision procedure for trees with clear names, used in examples. *)
From Coq Require Import Ascii String List Bool Arith Lia.
From Verif Require Import PyStr PyStrFacts Utils Strategies Dispatch Values Tree Build Emit TreeFacts SpecNames SpecData TreeProofs SpecCamel CamelFacts SpecUnique UniqueFacts ShareFacts.
Import ListNotations.
Local Open Scope string_scope.
Local Open Scope nat_scope.

Fixpoint nodes (t : tree) : list tree := match t with Node i cs => t :: flat_map (fun e => nodes (snd e)) cs end.
Lemma nodes_iff x t : In x (nodes t) <-> node_of x t.
Proof.
  induction t as [i cs IH] using tree_ind'. rewrite Forall_forall in IH. cbn [nodes In]. rewrite in_flat_map. split.
  - intros [<-|(e & He & H)]; [constructor|]. apply IH in H; auto. econstructor; eauto.
  - intros H. apply node_of_inv in H as [->|(e & He & H)]; [now left|]. right. exists e. split; auto. now apply IH.
Qed.
Definition liveb (s : strategies) (t : tree) : bool := existsb (perm s) (nodes t).
Lemma liveb_spec s t : liveb s t = true <-> declared_inside s t.
Proof. unfold liveb, declared_inside. rewrite existsb_exists. split; intros (y & H & P); exists y; split; auto; now apply nodes_iff. Qed.
Definition oneb (s : strategies) (es : list (key * nat * tree)) (e : key * nat * tree) : bool :=
  forallb (fun e' => key_eqb (ekey e') (ekey e) || negb (teq s (etree e) (etree e'))) es.
Lemma oneb_spec s es e : oneb s es e = true <-> only_one s es e.
Proof.
  unfold oneb. rewrite forallb_forall. split; intros H e' He'.
  - intros N. specialize (H e' He'). apply orb_true_iff in H as [H|H]; [apply key_eqb_spec in H; congruence|]. now apply negb_true_iff.
  - destruct (key_eqb (ekey e') (ekey e)) eqn:K; auto. cbn [orb]. rewrite (H e' He'); auto. intros E. rewrite E, (proj2 (key_eqb_spec _ _) eq_refl) in K. discriminate.
Qed.
Definition letterb (c : ascii) : bool := between 65 90 (PyStr.ord c) || between 97 122 (PyStr.ord c).
Definition begins_letterb (x : string) : bool := match x with String c _ => letterb c | "" => false end.
Lemma begins_letterb_spec x : begins_letterb x = true -> begins ascii_letter x.
Proof. destruct x as [|c r]; [discriminate|]. cbn. intros H. exists c, r. split; auto. unfold ascii_letter. rewrite <- !between_spec. now apply orb_true_iff. Qed.
Definition extendsb (a b : string) : bool :=
  startswith a b && match drop (String.length a) b with "" => true | String c _ => between 65 90 (PyStr.ord c) end.
Lemma extendsb_spec a b : extends a b -> extendsb a b = true.
Proof.
  intros (z & Z & ->). unfold extendsb. apply andb_true_iff. split; [apply startswith_spec; eauto|]. rewrite drop_app.
  destruct Z as [->|(c & r & -> & C)]; auto. now apply capital_iff'.
Qed.
Definition comparableb (a b : string) : bool := startswith a b || startswith b a.
Lemma comparableb_spec a b x y : extends (a ++ x) (b ++ y) -> comparableb a b = true.
Proof.
  intros (z & _ & E). rewrite app_assoc_s in E. unfold comparableb. apply orb_true_iff. rewrite !startswith_spec.
  symmetry in E. apply app_prefix in E as [(u & -> & _)|(u & -> & _)]; eauto.
Qed.
Definition root_word (s : strategies) (es : list (key * nat * tree)) (e : key * nat * tree) : string :=
  if oneb s es e then match ekey e with KStr k => to_camel_case k | _ => "" end else capitalize (ty_name (i_type (ti (etree e)))).
Definition clashb (s : strategies) (es : list (key * nat * tree)) (e e' : key * nat * tree) : bool :=
  if oneb s es e && oneb s es e' then extendsb (root_word s es e) (root_word s es e') else comparableb (root_word s es e) (root_word s es e').
Fixpoint nodupb (l : list key) : bool := match l with [] => true | x :: r => negb (existsb (key_eqb x) r) && nodupb r end.
Lemma nodupb_spec l : nodupb l = true -> NoDup l.
Proof.
  induction l as [|x l IH]; cbn [nodupb]; intros H; constructor; apply andb_true_iff in H as [H1 H2]; auto. intros F. apply negb_true_iff, not_true_iff_false in H1. apply H1.
  apply existsb_exists. exists x. split; auto. now apply key_eqb_spec.
Qed.
Definition clear_mappingb (s : strategies) (es : list (key * nat * tree)) : bool :=
  nodupb (map ekey es) &&
  forallb (fun e => negb (liveb s (etree e)) ||
    (if oneb s es e then match ekey e with KStr k => begins_letterb k | _ => false end
     else forallb (fun x => forallb (fun e' => negb (liveb s (etree e')) || Nat.eqb (emult e') 1) (tcs x)) (nodes (etree e))) &&
    forallb (fun e' => negb (liveb s (etree e')) || key_eqb (ekey e) (ekey e') ||
                       (negb (oneb s es e) && negb (oneb s es e') && type_eqb (i_type (ti (etree e))) (i_type (ti (etree e')))) || negb (clashb s es e e')) es) es.
Lemma clear_mappingb_spec s es : clear_mappingb s es = true -> clear_mapping s es.
Proof.
  unfold clear_mappingb. rewrite andb_true_iff, forallb_forall. intros [A B]. apply nodupb_spec in A.
  assert (B' : forall e, In e es -> declared_inside s (etree e) -> 
    (if oneb s es e then match ekey e with KStr k => begins_letterb k | _ => false end
     else forallb (fun x => forallb (fun e' => negb (liveb s (etree e')) || Nat.eqb (emult e') 1) (tcs x)) (nodes (etree e))) = true /\
    forall e', In e' es -> declared_inside s (etree e') -> ekey e <> ekey e' ->
      (negb (oneb s es e) && negb (oneb s es e') && type_eqb (i_type (ti (etree e))) (i_type (ti (etree e')))) = true \/ clashb s es e e' = false).
  { intros e He L. apply liveb_spec in L. specialize (B e He). rewrite L in B. cbn [negb orb] in B. apply andb_true_iff in B as [B1 B2]. split; auto.
    rewrite forallb_forall in B2. intros e' He' L' N. apply liveb_spec in L'. specialize (B2 e' He'). rewrite L' in B2. cbn [negb orb] in B2.
    destruct (key_eqb (ekey e) (ekey e')) eqn:K; [apply key_eqb_spec in K; congruence|]. cbn [orb] in B2. apply orb_true_iff in B2 as [B2|B2]; auto. right. now apply negb_true_iff. }
  split; auto.
  - intros e He L O. destruct (B' e He L) as [X _]. apply oneb_spec in O. rewrite O in X. destruct (ekey e); try discriminate. eexists. split; [reflexivity|]. now apply begins_letterb_spec.
  - intros e e' w w' He He' L L' N T W W' X. destruct (B' e He L) as [_ Y]. destruct (Y e' He' L' N) as [Z|Z].
    + apply andb_true_iff in Z as [Z Z3]. apply andb_true_iff in Z as [Z1 Z2]. apply negb_true_iff, not_true_iff_false in Z1, Z2. rewrite oneb_spec in Z1, Z2. destruct T as [T|[T|T]]; auto.
      apply T. unfold type_eqb in Z3. apply andb_true_iff in Z3 as [Z3 Z4]. apply Nat.eqb_eq in Z3. apply String.eqb_eq in Z4. destruct (i_type (ti (etree e))), (i_type (ti (etree e'))). cbn in *. congruence.
    + assert (R : forall e w, entry_word s es e w -> exists ds, w = root_word s es e ++ ds /\ (oneb s es e = true -> ds = "")).
      { clear. intros e w [k w0 O K C|ds O D]; unfold root_word.
        - apply oneb_spec in O. rewrite O, K. exists "". rewrite app_nil_r_s. split; auto. now apply camel_iff.
        - destruct (oneb s es e) eqn:Q; [apply oneb_spec in Q; contradiction|]. exists ds. split; auto. discriminate. }
      destruct (R e w W) as (ds & -> & D). destruct (R e' w' W') as (ds' & -> & D'). unfold clashb in Z. destruct (oneb s es e && oneb s es e') eqn:Q.
      * apply andb_true_iff in Q as [Q1 Q2]. rewrite (D Q1), (D' Q2), !app_nil_r_s in X. apply extendsb_spec in X. congruence.
      * apply comparableb_spec in X. congruence.
  - intros e x e' He L O Hx He' L'. destruct (B' e He L) as [X _]. destruct (oneb s es e) eqn:Q; [apply oneb_spec in Q; contradiction|].
    rewrite forallb_forall in X. apply nodes_iff in Hx. specialize (X x Hx). rewrite forallb_forall in X. specialize (X e' He'). apply liveb_spec in L'. rewrite L' in X. now apply Nat.eqb_eq in X.
Qed.
Fixpoint clear_tupleb (s : strategies) (es : list (key * nat * tree)) : bool :=
  match es with
  | [] => true
  | e :: r => forallb (fun e' => negb (Nat.eqb (emult e) 1 && Nat.eqb (emult e') 1 && (liveb s (etree e) || liveb s (etree e')) && teq s (etree e) (etree e'))) r && clear_tupleb s r
  end.
Lemma clear_tupleb_spec s es : clear_tupleb s es = true -> clear_tuple s es.
Proof.
  induction es as [|e es IH]; cbn [clear_tupleb]; intros H; [constructor|]. apply andb_true_iff in H as [H1 H2]. constructor; [|now apply IH].
  rewrite forallb_forall in H1. apply Forall_forall. intros e' He' M M' L. specialize (H1 e' He'). rewrite M, M' in H1. rewrite <- !liveb_spec, <- orb_true_iff in L. rewrite L in H1. cbn in H1. now apply negb_true_iff.
Qed.
Definition clear_nodeb (s : strategies) (x : tree) : bool :=
  match tkind x with
  | NProxy | NDict _ _ => clear_mappingb s (tcs x)
  | NSeq KTuple => match s_tuple s with TFixed => clear_tupleb s (tcs x) | TAnySize => true end
  | _ => true
  end.
Definition clear_namesb (s : strategies) (t : tree) : bool := forallb (clear_nodeb s) (nodes t).
Lemma clear_namesb_spec s t : clear_namesb s t = true -> clear_names s t.
Proof.
  unfold clear_namesb. rewrite forallb_forall. intros H x Hx. apply nodes_iff in Hx. specialize (H x Hx). unfold clear_nodeb, clear_node in *.
  destruct (tkind x) as [| | | | | |[]| |]; auto; try now apply clear_mappingb_spec. intros E. rewrite E in H. now apply clear_tupleb_spec.
Qed.
