(** Soundness of the declarations written for tidy data. *)
From Coq Require Import Ascii String List Bool Arith ZArith Lia Permutation.
From Verif Require Import PyStr PyStrFacts Utils Strategies Docstring Imports Dispatch Values Tree Build Emit TreeFacts SpecNames NamesFacts SpecData BuildFacts BuildInd TotalFacts FuelFacts TreeProofs SeqFacts SmallFacts.
From Verif Require Import SpecMerge MergeFacts GroupFacts SpecTypes Elab ElabFacts Provenance DictInv SpecEmit EmitFacts EmitTop TypedFacts AlikeFacts SpecSound SoundPrint SoundRead SoundTree SoundBuild SoundHash SoundEmit.
Import ListNotations.
Local Open Scope string_scope.
Local Open Scope nat_scope.

Lemma named_plain v : named_by_words v -> plain_texts v.
Proof. intros H x Hx. specialize (H x Hx). destruct x; auto; now apply plain_text_spec, word_no_eq, word_like_spec. Qed.

Lemma key_in_sub k x v : sub x v -> key_in k x -> key_in k v.
Proof. intros H (mk & t & kvs & y & Hs & Hk). exists mk, t, kvs, y. split; auto. eapply sub_trans; eauto. Qed.
Lemma tidy_sub s v x : tidy s v -> sub x v -> tidy s x.
Proof.
  intros [(A1 & A2 & A3 & A4) B C D E [F1 F2] [G1 G2] R O] Hx.
  assert (S : forall y, sub y x -> sub y v) by (intros; eapply sub_trans; eauto). assert (K : forall k, key_in k x -> key_in k v) by (intros; eapply key_in_sub; eauto).
  split.
  - split; [intros y Hy; apply A1; auto|]. split; [intros; eapply A2; eauto|]. split; [intros; eapply A3; eauto|]. intros; eapply A4; eauto.
  - intros y z Hy Hz. apply B; auto.
  - intros k k' Hk Hk'. apply C; auto.
  - intros k t kvs Hy. eapply D; eauto.
  - intros k Hk. apply E; auto.
  - split; intros; [eapply F1|eapply F2]; eauto.
  - split; [intros; eapply G1; eauto|]. intros t t' H1 H2. eapply G2; eauto.
  - intros T. specialize (R T). intros k t l d d' key y z Hl. eapply R; eauto.
  - intros T. specialize (O T). intros k t l k' t' l' H1 H2. eapply O; eauto.
Qed.

Section Top.
  Variable s : strategies.
  Variable ord : set_order.
  Hypothesis Hs : valid s.
  Hypothesis Hord : set_like ord.

  (** What the nodes come from. *)
  Definition origin (v x : pyval) : Prop :=
    unquoted (ty_name (type_of x)) /\
    match x with
    | VSeq _ _ _ => True
    | VMap k t _ => t = map_class k
    | _ => sub x v
    end.

  Lemma fits_accepts_all v n t texts : tidy s v -> names_ok s v n -> from_data s ord v n = Ok t -> declarations s t = Some texts ->
    (forall m, In m (collect s t) -> readable (decl_of s m)) /\ texts = map print_decl (decls s t) /\ Forall readable (decls s t) /\
      (unambiguous (decls s t) v -> forall c, node_of c t -> (perm s c = true -> In c (collect s t)) -> forall w, fits s c w -> accepts (decls s t) (child_ty s c) w).
  Proof.
    intros Ht (Hv & Hn & Hk & Hc) H D. pose proof (named_plain v Hn) as Hp.
    pose proof (from_data_eq_free s ord v n t Hs Hord Hv Hp H) as EF. pose proof (from_data_keys_builtin s ord v n t Hord Hk H) as KB.
    pose proof (from_data_wordy s ord v n t Hs Hord Hv H) as W.
    pose proof (declarations_decls s t texts EF D) as [-> NF].
    assert (P : tree_ok (origin v) (fun k => key_in k v) t).
    { unfold from_data in H. destruct (is_compatible n); [|discriminate]. eapply (build_prov s ord Hord (origin v) (fun k => key_in k v)); [| | |exact H].
      - intros x [A B]. split; [now rewrite type_exhaust|]. destruct x as [| | | | | | |k ? ?|]; try exact B. destruct k; exact B.
      - intros d _. split; [reflexivity|]. auto.
      - split; auto. intros x Hx. split; [apply word_unquoted, word_like_spec; now apply Hv|]. pose proof (proj1 (tidy_plain s v Ht) x Hx) as Q. destruct x; auto. }
    assert (Fx : forall m, In m (collect s t) -> function_fails m = false).
    { unfold declarations in D. destruct (existsb function_fails (collect s t)) eqn:X; [discriminate|]. intros m Hm. apply not_true_iff_false. intros Y.
      assert (existsb function_fails (collect s t) = true) by (apply existsb_exists; eauto). congruence. }
    assert (SP : spelled_tree t).
    { intros m Hm. destruct (P m Hm) as ((x & [X1 X2] & M1 & M2) & _). split; [now apply word_is_name, W|]. split; [now rewrite M1|]. split.
      + destruct x as [| | |? cn| | |? d| |[]]; try destruct M2 as (? & ? & M2); rewrite M2; auto.
        * apply word_unquoted, word_like_spec. exact (Hn _ X2).
        * apply word_unquoted, word_like_spec. exact (Hn _ X2).
      + intros e He. now apply (KB m). }
    assert (DI : dinv_all t).
    { unfold from_data in H. destruct (is_compatible n); [|discriminate]. eapply build_dinv; eauto. apply (tidy_unique s v Ht). }
    assert (CM : is_td_strategy s = true -> forall m, node_of m t -> to_camel_case (tname m) = tname m).
    { intros T m Hm. apply td_strategy_iff in T. destruct (Hc T) as (? & ? & ?). eapply from_data_camel; eauto. }
    assert (RD : forall m, In m (collect s t) -> readable (decl_of s m)).
    { intros m Hm. apply collect_nodes in Hm as [Hm _]. apply decl_readable; auto.
      - intros y Hy. apply SP. eapply node_of_trans; eauto.
      - intros g p k Kg Eg. destruct (P m Hm) as ((x & [X1 X2] & M1 & M2) & _). destruct x as [| |g'| | | | | |[]]; try destruct M2 as (? & ? & M2); rewrite M2 in Kg; try discriminate.
        injection Kg as ->. pose proof (proj1 (tidy_plain s v Ht) _ X2) as Q. cbv beta iota in Q. rewrite Eg in Q. apply Q.
      - intros T e He. apply CM; auto. eapply node_of_trans; [|exact Hm]. destruct m. econstructor; [exact He|constructor].
      - intros D0 m0 K T0. destruct (P m Hm) as (_ & _ & Dd & Dm). unfold node_data, node_meta in *. rewrite K in Dd, Dm.
        assert (TS : s_dict s = DTypedDict). { unfold is_td, node_is_typed_dict in T0. rewrite K in T0. unfold is_typed_dict in T0. apply andb_true_iff in T0 as [_ T0]. now apply td_strategy_iff. }
        destruct (Hc TS) as (_ & _ & Q1 & Q2). split.
        + unfold class_doc. destruct (String.eqb (s_key_doc s) "") eqn:E; auto. apply String.eqb_neq in E. destruct Q2 as [Q2|Q2]; [congruence|].
          destruct (dget (KStr (s_key_doc s)) D0) as [x|] eqn:G; auto. exfalso. apply Q2. apply dget_In in G. exact (proj1 (Dd _ _ G)).
        + intros k Hk0. unfold has_key in Hk0. apply in_map_iff in Hk0 as ([k' x] & E & Hk0). cbn [fst] in E. subst k'. destruct (Dm _ _ Hk0) as [Kk _]. split; [now apply (tidy_nodoc s v Ht)|].
          intros y ->. now apply Q1. }
    split; [exact RD|]. split; auto. split. { apply Forall_forall. intros d Hd. unfold decls in Hd. apply in_map_iff in Hd as (m & <- & Hm). apply RD. now apply firsts_incl in Hm. }
    intros [U1 U2 U3 U4 U5] c Hcn Hcc w Fw.
    apply (node_accepts (decls s t)) with (t0 := t); auto.
    - intros m Hm Km. destruct (P m Hm) as ((x & [X1 X2] & M1 & M2) & _). rewrite M1. destruct x as [| | | | | | | |[]]; try destruct M2 as (? & ? & M2); rewrite M2 in Km; try discriminate; now apply U3.
    - intros m cn Hm Km. destruct (P m Hm) as ((x & [X1 X2] & M1 & M2) & _). destruct x as [| | | | | | | |[]]; try destruct M2 as (? & ? & M2); rewrite M2 in Km; try discriminate. injection Km as <-. eapply U4; eauto.
    - intros m e Hm He. destruct (P m Hm) as (_ & C & _). destruct (C e He) as [B|B]; [now apply U5|]. rewrite B. intros F. apply U2 in F. apply F. apply mem_spec. reflexivity.
    - intros m Hm Km. destruct (P m Hm) as ((x & [X1 X2] & M1 & M2) & _). destruct x as [| | | | | | | |[] ? ?]; try destruct M2 as (? & ? & M2); rewrite M2 in Km; try discriminate. rewrite M1. cbn [type_of]. rewrite X2. reflexivity.
    - intros m d0 m0 Hm Km. destruct (P m Hm) as ((x & [X1 X2] & M1 & M2) & _). rewrite M1. destruct x as [| | | | | | | |[] ? ?]; try destruct M2 as (? & ? & M2); rewrite M2 in Km; try discriminate. rewrite X2. discriminate.
  Qed.

  Lemma fits_accepts_decls v n t texts : tidy s v -> names_ok s v n -> from_data s ord v n = Ok t -> declarations s t = Some texts ->
    texts = map print_decl (decls s t) /\ Forall readable (decls s t) /\
      (unambiguous (decls s t) v -> forall c, node_of c t -> (perm s c = true -> In c (collect s t)) -> forall w, fits s c w -> accepts (decls s t) (child_ty s c) w).
  Proof. intros Ht Hn H D. now destruct (fits_accepts_all v n t texts Ht Hn H D) as [_ ?]. Qed.

  Lemma fits_accepts v n t texts : tidy s v -> names_ok s v n -> from_data s ord v n = Ok t -> declarations s t = Some texts ->
    exists ds, texts = map print_decl ds /\ Forall readable ds /\
      (unambiguous ds v -> forall c, node_of c t -> (perm s c = true -> In c (collect s t)) -> forall w, fits s c w -> accepts ds (child_ty s c) w).
  Proof. intros Ht Hn H D. exists (decls s t). eapply fits_accepts_decls; eauto. Qed.

  Lemma root_perm v n t : from_data s ord v n = Ok t -> perm s t = true /\ In t (collect s t) /\ tname t = n.
  Proof.
    intros H. unfold from_data in H. destruct (is_compatible n); [|discriminate]. pose proof H as H0. apply build_root in H as [R Dp]. apply build_from_els in H0 as [_ Tn].
    pose proof (root_collected s t R Dp) as C. split; [|split; auto]. now apply collect_nodes in C.
  Qed.

  Theorem sound v n t texts : tidy s v -> names_ok s v n -> from_data s ord v n = Ok t -> declarations s t = Some texts ->
    exists ds, texts = map print_decl ds /\ Forall readable ds /\ (unambiguous ds v -> accepts ds (TName n) v).
  Proof.
    intros Ht Hn H D. destruct (fits_accepts v n t texts Ht Hn H D) as (ds & E & R & A). exists ds. split; auto. split; auto. intros U.
    destruct (root_perm v n t H) as (P & C & Tn). specialize (A U t (node_refl t) (fun _ => C) v). unfold child_ty in A. rewrite P, Tn in A. apply A.
    unfold from_data in H. destruct (is_compatible n); [|discriminate]. eapply (tidy_fits s ord Hord v Ht); [|exact H]. left. constructor.
  Qed.

  (** The typed dicts of a sequence. *)
  Theorem sound_dicts k ty l n t texts : s_dict s = DTypedDict -> tidy s (VSeq k ty l) -> names_ok s (VSeq k ty l) n ->
    from_data s ord (VSeq k ty l) n = Ok t -> declarations s t = Some texts ->
    exists ds, texts = map print_decl ds /\ Forall readable ds /\ (unambiguous ds (VSeq k ty l) -> forall x, In x (string_dicts l) ->
      exists c, In c (map etree (tcs t)) /\ node_is_typed_dict s c = true /\ accepts ds (TName (tname c)) (VMap MDict ty_dict x)).
  Proof.
    intros Hd Ht Hn H D. destruct (fits_accepts _ n t texts Ht Hn H D) as (ds & E & R & A). exists ds. split; auto. split; auto. intros U x Hx.
    apply string_dicts_In in Hx as (K & ty' & Hx). assert (ty' = ty_dict) as ->.
    { destruct (tidy_plain s _ Ht) as [Q _]. specialize (Q (VMap MDict ty' x)). cbn in Q. apply Q. econstructor; [exact Hx|constructor]. }
    pose proof H as H0. unfold from_data in H. destruct (is_compatible n) eqn:Cn; [|discriminate].
    destruct (tidy_td s ord Hord _ Ht (S (vdepth (VSeq k ty l))) n 0 true k ty l t ty_dict x) as (c & Hc & Tc & Fc); auto.
    { left. constructor. } { now apply td_strategy_iff. }
    apply in_map_iff in Hc as (e & <- & He). exists (etree e). split; [now apply in_map|]. split; auto.
    assert (Pc : perm s (snd e) = true).
    { unfold is_td, node_is_typed_dict, etree in Tc. unfold perm. destruct (tkind (snd e)); try discriminate. now rewrite Tc. }
    assert (Nc : node_of (snd e) t) by (destruct t; econstructor; [exact He|constructor]).
    specialize (A U (snd e) Nc). unfold child_ty in A. rewrite Pc in A. apply A; auto. intros _.
    destruct t as [i cs]. cbn [tcs] in He. rewrite collect_node.
    pose proof (from_data_keys_builtin s ord _ n _ Hord (proj1 (proj2 (proj2 Hn))) H0) as KB. rewrite (keys_builtin_iter i cs KB).
    destruct cs as [|e0 cs]; [destruct He|]. apply in_app_iff. left. apply in_flat_map. exists e. split; auto. apply in_app_iff. right. rewrite Pc. now left.
  Qed.

  (** Trees do not depend on the root flag as far as acceptance and hash keys are concerned. *)
  Lemma build_flag f n d r v t : build s ord f n d r v = Ok t ->
    exists t', build s ord f n d false v = Ok t' /\ thash s t' = thash s t /\ i_type (ti t') = i_type (ti t) /\ forall w, fits s t' w <-> fits s t w.
  Proof.
    assert (L : forall k ty, leaf n d r k ty = Ok t -> exists t', leaf n d false k ty = Ok t' /\ thash s t' = thash s t /\ i_type (ti t') = i_type (ti t) /\ forall w, fits s t' w <-> fits s t w).
    { intros k ty H. unfold leaf in *. destruct (is_compatible n); [|discriminate]. injection H as <-. eexists. split; [reflexivity|]. split; [|split; [reflexivity|]].
      - destruct k; reflexivity.
      - intros w. rewrite !fits_node. reflexivity. }
    assert (I : forall k ty cs, exists t', inner n d false k ty cs = t' /\ thash s t' = thash s (inner n d r k ty cs) /\ i_type (ti t') = ty /\ forall w, fits s t' w <-> fits s (inner n d r k ty cs) w).
    { intros k ty cs. eexists. split; [reflexivity|]. split; [|split; [reflexivity|]].
      - reflexivity.
      - intros w. unfold inner. rewrite !fits_node. reflexivity. }
    assert (II : forall k ty X, bind X (fun cs => Ok (inner n d r k ty cs)) = Ok t ->
      exists t', bind X (fun cs => Ok (inner n d false k ty cs)) = Ok t' /\ thash s t' = thash s t /\ i_type (ti t') = i_type (ti t) /\ forall w, fits s t' w <-> fits s t w).
    { intros k ty X H. apply bind_Ok in H as (cs & -> & H). injection H as <-. cbn [bind]. destruct (I k ty cs) as (t' & E & A & B & C). exists t'. split; [now rewrite E|]. auto. }
    intros H. destruct v as [x|t0|fn|m c|u|u|u dt|k t0 l|k t0 kvs]; try (destruct f; cbn [build] in *; apply L; exact H).
    - destruct f; cbn [build] in *; destruct (negb (is_compatible n)); try discriminate.
      destruct k; apply II; exact H.
    - destruct f; destruct k; cbn [build] in *; destruct (negb (is_compatible n)); try discriminate;
        (apply bind_Ok in H as (cs & -> & H); injection H as <-; cbn [bind]; eexists; (split; [reflexivity|]);
         match goal with |- context [inner n d r ?k ?ty ?c] => destruct (I k ty c) as (t' & E & A & B & C) end; subst t'; auto).
  Qed.

  (** Equal trees. *)
  Theorem sound_equal v x y n m tx ty texts : tidy s v -> sub x v -> sub y v -> names_ok s y m ->
    from_data s ord x n = Ok tx -> from_data s ord y m = Ok ty -> teq s tx ty = true -> declarations s ty = Some texts ->
    ty_id (type_of x) = ty_id (type_of y) /\
    exists ds, texts = map print_decl ds /\ Forall readable ds /\ (unambiguous ds y -> accepts ds (TName m) x).
  Proof.
    intros Ht Sx Sy Hn Hx Hy E D.
    assert (Ty : tidy s y) by now apply (tidy_sub s v).
    destruct (fits_accepts y m ty texts Ty Hn Hy D) as (ds & Ed & R & A). destruct (root_perm y m ty Hy) as (P & C & Tn).
    pose proof Hx as Hx0. pose proof Hy as Hy0. unfold from_data in Hx, Hy. destruct (is_compatible n); [|discriminate]. destruct (is_compatible m); [|discriminate].
    destruct (build_flag _ _ _ _ _ _ Hx) as (tx' & Bx & Ex & _ & Fx). destruct (build_flag _ _ _ _ _ _ Hy) as (ty' & By & Ey & _ & Fy).
    set (f := Nat.max (S (vdepth x)) (S (vdepth y))).
    rewrite (proj1 (build_fuel s ord Hord (S (vdepth x)) f n 0 false x ltac:(lia) ltac:(unfold f; lia))) in Bx.
    rewrite (proj1 (build_fuel s ord Hord (S (vdepth y)) f m 0 false y ltac:(lia) ltac:(unfold f; lia))) in By.
    assert (Eh : heq (thash s tx') (thash s ty') = true) by (rewrite Ex, Ey; now apply teq_heq).
    destruct (same_trees s ord Hord v Ht f 0 0 x y tx' ty') as (Q1 & Q2 & _); auto; [now left|now left|exists n; exact Bx|exists m; exact By|].
    split; auto. exists ds. split; auto. split; auto. intros U. specialize (A U ty (node_refl ty) (fun _ => C) x). unfold child_ty in A. rewrite P, Tn in A. apply A.
    apply Fy, Q2, Fx. eapply (tidy_fits s ord Hord v Ht); [|exact Hx]. now left.
  Qed.
End Top.
